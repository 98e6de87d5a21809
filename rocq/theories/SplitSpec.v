(** Vocabulary for the draws of many accounts together. *)
From Coq Require Import Reals.
From Verif Require Import Base CommitteeModel BinomialSpec.
Local Open Scope R_scope.

(** ** C154 *)
(** Every account has a hash of its own. The share of the combinations of hashes with which the
    accounts together are drawn at most [i] times. *)
Fixpoint drawn_at_most (cdf : f64 -> N -> N -> f64) (total expected : N) (accounts : list N) (i : N) : R :=
  match accounts with
  | [] => 1
  | money :: rest => average (2 ^ 256) (fun v => let w := weight_at cdf money total expected v in
      if (w <=? i)%N then drawn_at_most cdf total expected rest (i - w) else 0)
  end.
