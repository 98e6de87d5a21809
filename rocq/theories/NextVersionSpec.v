(** Vocabulary for the announcements of the next protocol. *)
From Verif Require Import Base BlockModel.
Local Open Scope N_scope.

(** Seen from header number [i] of a chain, the protocol stays the same up to round [r], in which it is [v]. *)
Definition comes (hs : list header) (i : nat) (v : version) (r : N) : Prop :=
  forall x j y, nth_error hs i = Some x -> (i <= j)%nat -> nth_error hs j = Some y ->
    (round y < r -> current (upgrade y) = current (upgrade x)) /\ (round y = r -> current (upgrade y) = v).
(** No protocol lets another one come into force in the round of the vote. *)
Definition waits (table : list (version * params)) : Prop :=
  forall v p, lookup v table = Some p -> 0 < default_upgrade_wait_rounds p.
