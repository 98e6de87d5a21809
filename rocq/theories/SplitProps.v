(** Property C154: the draws of many accounts together. *)
From Coq Require Import Reals Lra.
From Flocq Require Import Core BinarySingleNaN.
From Verif Require Import Base MsgpackModel CommitteeModel BinomialSpec BinomialProofs NearProofs SplitSpec SplitProofs.
Local Open Scope R_scope.

(** C154, committee.  Accounts with hashes of their own are drawn together as often as their money in
    one binomial distribution, up to the errors of the library and of the floats, once for each
    account. *)
Theorem c154_together :
  forall eps cdf total expected accounts i, near_binomial eps cdf ->
  (0 < total)%N -> (expected <= total)%N -> (total <= 2 ^ 64)%N -> (i <= all_money accounts)%N ->
  Rabs (drawn_at_most cdf total expected accounts i - binomial (draw expected total) (all_money accounts) i) <=
  INR (length accounts) * (eps + bpow radix2 (-53)).
Proof. exact drawn_binomial. Qed.
Print Assumptions c154_together.

(** C154, splitting.  The same money on other accounts is drawn as often. *)
Theorem c154_split :
  forall eps cdf total expected accounts accounts' i, near_binomial eps cdf ->
  (0 < total)%N -> (expected <= total)%N -> (total <= 2 ^ 64)%N -> all_money accounts = all_money accounts' ->
  Rabs (drawn_at_most cdf total expected accounts i - drawn_at_most cdf total expected accounts' i) <=
  INR (length accounts + length accounts') * (eps + bpow radix2 (-53)).
Proof. exact drawn_split. Qed.
Print Assumptions c154_split.

(** Two units drawn with probability one half each, on two accounts: with a quarter of the pairs of
    hashes none is drawn, and it is the same on one account. *)
Example c154_case :
  Rabs (drawn_at_most rounded_binomial 1024 512 ([1; 1] : list N)%N 0 - / 4) <= bpow radix2 (-51) /\
  Rabs (drawn_at_most rounded_binomial 1024 512 ([2] : list N)%N 0 - / 4) <= bpow radix2 (-51) /\
  Rabs (drawn_at_most rounded_binomial 1024 512 ([1; 99; 900] : list N)%N 480 - drawn_at_most rounded_binomial 1024 512 ([1000] : list N)%N 480) <= bpow radix2 (-50).
Proof.
  assert (bpow radix2 (-53) = 2 * bpow radix2 (-54) /\ bpow radix2 (-51) = 8 * bpow radix2 (-54) /\ bpow radix2 (-50) = 16 * bpow radix2 (-54)) as (E1 & E2 & E3).
  { change (-53)%Z with (1 + -54)%Z. change (-51)%Z with (3 + -54)%Z. change (-50)%Z with (4 + -54)%Z. rewrite !bpow_plus. change (bpow radix2 1) with 2. change (bpow radix2 3) with 8. change (bpow radix2 4) with 16. auto. }
  pose proof (bpow_ge_0 radix2 (-54)) as B0. pose proof (computes_near _ rounded_binomial_ok) as X.
  assert (binomial (draw 512 1024) 2 0 = / 4) as Q by (rewrite draw_half; unfold binomial, successes; change (N.to_nat 0) with 0%nat; cbn [sum_f_R0]; rewrite C_0; change (N.to_nat 2 - 0)%nat with 2%nat; cbn [pow]; lra).
  split; [|split].
  - pose proof (c154_together _ _ 1024 512 [1; 1]%N 0%N X ltac:(reflexivity) ltac:(discriminate) ltac:(discriminate) ltac:(discriminate)) as Y.
    change (all_money [1; 1]%N) with 2%N in Y. rewrite Q in Y. cbn [length INR] in Y. lra.
  - pose proof (c154_together _ _ 1024 512 [2]%N 0%N X ltac:(reflexivity) ltac:(discriminate) ltac:(discriminate) ltac:(discriminate)) as Y.
    change (all_money [2]%N) with 2%N in Y. rewrite Q in Y. cbn [length INR] in Y. lra.
  - pose proof (c154_split _ _ 1024 512 [1; 99; 900]%N [1000]%N 480%N X ltac:(reflexivity) ltac:(discriminate) ltac:(discriminate) ltac:(reflexivity)) as Y.
    cbn [length plus INR] in Y. lra.
Qed.
