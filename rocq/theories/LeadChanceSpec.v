(** Vocabulary for the chance of leading. *)
From Verif Require Import Base MsgpackModel CommitteeModel CommitteeSpec LeaderSpec.
Local Open Scope N_scope.

(** Hashes as numbers: those below [m]. *)
Definition numbers (m : nat) : list N := map N.of_nat (seq 0 m).
(** All ways in which [n] hashes can come out. *)
Fixpoint outcomes (m n : nat) : list (list N) :=
  match n with
  | O => [[]]
  | Datatypes.S n' => flat_map (fun v => map (cons v) (outcomes m n')) (numbers m)
  end.

(** Who owns the hashes: each member as often as it has draws. *)
Fixpoint owners_from (i : nat) (draws : list nat) : list nat :=
  match draws with [] => [] | k :: rest => repeat i k ++ owners_from (Datatypes.S i) rest end.
Definition owners (draws : list nat) : list nat := owners_from 0 draws.
Definition total (draws : list nat) : nat := fold_right Nat.add O draws.
(** Member [i] has a hash that is less than all hashes of the others. *)
Definition wins (i : nat) (drawn : list (nat * N)) : bool :=
  existsb (fun x => (fst x =? i)%nat && forallb (fun y => (fst y =? i)%nat || (snd x <? snd y)) drawn) drawn.
(** In how many of all cases member [i] wins. *)
Definition winning_cases (m : nat) (draws : list nat) (i : nat) : nat :=
  length (filter (fun hashes => wins i (combine (owners draws) hashes)) (outcomes m (total draws))).

(** The hashes of credentials with the counters from one on, a given number for each. *)
Fixpoint hashes_from (H : bytes -> bytes) (draws : credential -> nat) (cs : list credential) : list N :=
  match cs with
  | [] => []
  | c :: rest => map (fun j => counter_value H c (N.of_nat j)) (seq 1 (draws c)) ++ hashes_from H draws rest
  end.
(** The credential at place [i] comes before all others. *)
Definition leads_alone (H : bytes -> bytes) (cs : list credential) (i : nat) : Prop :=
  exists c, nth_error cs i = Some c /\ forall j d, j <> i -> nth_error cs j = Some d -> before H c d.
(** One draw less than the weight says. *)
Definition draws_made (c : credential) : nat := N.to_nat (weight c - 1).
