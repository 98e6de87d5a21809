(** Vocabulary for the size of Merkle proofs. *)
From Verif Require Import Base.
Local Open Scope N_scope.

(** ** C152 *)
(** In a binary tree: the nodes at height [l] above the given leaves, each once. *)
Definition ancestors (l : nat) (positions : list N) : list N := nodup N.eq_dec (map (fun p => p / 2 ^ N.of_nat l) positions).
(** The other child of the parent. *)
Definition neighbour (p : N) : N := if N.even p then p + 1 else p - 1.
(** The nodes whose neighbour is not in the set. *)
Definition lonely (S : list N) : list N := filter (fun q => negb (existsb (N.eqb (neighbour q)) S)) S.
(** What has to be supplied to get from the leaves to the node at the given height: one hash for each
    node on the way whose neighbour is not on the way. *)
Fixpoint missing (height : nat) (positions : list N) : nat :=
  match height with O => 0 | S l => missing l positions + length (lonely (ancestors l positions)) end.
(** The height of a binary tree with [n] leaves. *)
Definition tree_height (n : nat) : nat := N.to_nat (N.log2_up (N.of_nat n)).
