(** Vocabulary for choosing a leader among credentials. *)
From Coq Require Import Permutation.
From Verif Require Import Base CommitteeModel.
Local Open Scope N_scope.

(** Comparing says that [c] comes before [d]. *)
Definition before (H : bytes -> bytes) (c d : credential) : Prop := snd (lt H c d) = Some true.
(** Comparing gives an answer, and it is that [c] does not come before [d]. *)
Definition not_before (H : bytes -> bytes) (c d : credential) : Prop := snd (lt H c d) = Some false.

(** The value at a place of a list is replaced. *)
Definition put (cs : list credential) (i : nat) (c : credential) : list credential := firstn i cs ++ c :: skipn (Datatypes.S i) cs.
(** A history of comparisons of the credentials in a list, each comparison between two places;
    every comparison writes back both credentials as it leaves them.  The answers, or [None]
    after a panic. *)
Fixpoint compare_each (H : bytes -> bytes) (cs : list credential) (history : list (nat * nat)) : option (list credential * list bool) :=
  match history with
  | [] => Some (cs, [])
  | (i, j) :: rest =>
      match nth_error cs i, nth_error cs j with
      | Some c, Some d =>
          match lt H c d with
          | (c', d', Some answer) =>
              match compare_each H (put (put cs i c') j d') rest with
              | Some (cs', answers) => Some (cs', answer :: answers)
              | None => None
              end
          | _ => None
          end
      | _, _ => None
      end
  end.
(** Two different places of the list. *)
Definition places (cs : list credential) (p : nat * nat) : Prop := (fst p < length cs)%nat /\ (snd p < length cs)%nat /\ fst p <> snd p.

(** [c] leads: it is there and nobody comes before it. *)
Definition leads (H : bytes -> bytes) (cs : list credential) (c : credential) : Prop := In c cs /\ forall d, In d cs -> not_before H d c.
(** The same credential with another weight. *)
Definition with_weight (c : credential) (w : N) : credential :=
  mkCredential w (vrf_out c) (domain_separation_enabled c) (hashable c) (inner c).
