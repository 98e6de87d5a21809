(** Vocabulary for the statement that deleted participation keys do not come back. *)
From Verif Require Import Base ConsensusModel Scheme OtsModel AccountModel.
Local Open Scope N_scope.

(** What happens to a node's participation: its keys before round [c] are deleted, with [rng]
    the random secrets drawn and [fault] the number of the storage operation that fails, if
    one does (0 the write, 1 the flush); or the node stops and starts again from its storage. *)
Inductive event := Deleted (c : N) (rng : N -> bytes) (fault : option nat) | Restarted.
(** The participation and the storage after some events; [None] if the node panicked, or if a
    restart could not read the participation. A deletion that could not be stored is only
    logged by the caller, so the node goes on. *)
Fixpoint live (sc : scheme) (is_point : bytes -> bool) (md : mode) (proto : params) (evs : list event) (p : participation) (st : store) : option (participation * store) :=
  match evs with
  | [] => Some (p, st)
  | Deleted c rng fault :: r =>
      match delete_old_keys sc md st p c proto rng fault with
      | (_, _, Panic) => None
      | (p', st', _) => live sc is_point md proto r p' st'
      end
  | Restarted :: r =>
      match restore sc is_point st with Ok p' => live sc is_point md proto r p' st | _ => None end
  end.
(** The rounds of the deletions among the events, and of those whose call gave no error. *)
Definition deleted (evs : list event) : list N := flat_map (fun e => match e with Deleted c _ _ => [c] | Restarted => [] end) evs.
Definition succeeded (fault : option nat) : bool := match fault with None | Some (S (S _)) => true | _ => false end.
Definition stored_deleted (evs : list event) : list N :=
  flat_map (fun e => match e with Deleted c _ fault => if succeeded fault then [c] else [] | Restarted => [] end) evs.
(** Rounds in range of the key tree, and random secrets of 32 bytes. *)
Definition event_ok (dilution : N) (e : event) : Prop :=
  match e with Deleted c rng _ => u64 c /\ ~ (c = max64 /\ dilution = 1) /\ forall o, length (rng o) = 32%nat | Restarted => True end.
