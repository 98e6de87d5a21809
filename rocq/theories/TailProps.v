(** Property C155: committees are rarely much larger or smaller than expected. *)
From Coq Require Import Reals Lra.
From Flocq Require Import Core BinarySingleNaN.
From Verif Require Import Base ConsensusModel ConfigModel CommitteeModel BinomialSpec BinomialProofs NearProofs SplitSpec TailSpec TailProofs.
Local Open Scope R_scope.

(** C155, few draws.  The share of the combinations of hashes with which accounts are drawn at most
    [i] times falls exponentially below the expected number; [x] can be chosen, the best one is [i] over
    the expected number. *)
Theorem c155_few :
  forall eps cdf total expected accounts i x, near_binomial eps cdf ->
  (0 < total)%N -> (expected <= total)%N -> (total <= 2 ^ 64)%N -> 0 < x <= 1 ->
  drawn_at_most cdf total expected accounts i <=
  exp (- (expected_draws total expected accounts * (1 - x))) / x ^ N.to_nat i + errors eps accounts.
Proof. exact (fun eps cdf total e accounts i x X Ht He Hb => fewer_bound eps cdf X total e Ht He Hb accounts i x). Qed.
Print Assumptions c155_few.

(** C155, many draws.  Likewise for more than [i] draws above the expected number. *)
Theorem c155_many :
  forall eps cdf total expected accounts i x, near_binomial eps cdf ->
  (0 < total)%N -> (expected <= total)%N -> (total <= 2 ^ 64)%N -> 1 <= x ->
  1 - drawn_at_most cdf total expected accounts i <=
  exp (expected_draws total expected accounts * (x - 1)) / x ^ N.to_nat (i + 1) + errors eps accounts.
Proof. exact (fun eps cdf total e accounts i x X Ht He Hb => more_bound eps cdf X total e Ht He Hb accounts i x). Qed.
Print Assumptions c155_many.

(** C155, safety of the built-in committees.  Accounts with a fifth of the money get the votes needed in
    a step with a share of the combinations of hashes below [exp (-100)]. *)
Theorem c155_safe :
  forall eps cdf v p size needed total accounts, near_binomial eps cdf ->
  lookup v built_in = Some p -> In (size, needed) (committees p) ->
  (size <= total)%N -> (total <= 2 ^ 64)%N -> (5 * all_money accounts <= total)%N ->
  reaches_needed cdf total size needed accounts <= exp (-100) + errors eps accounts.
Proof. exact safe_lemma. Qed.
Print Assumptions c155_safe.

(** C155, liveness.  Accounts with nineteen of twenty parts of the money miss the votes needed with a
    share below [exp (-15)]. *)
Theorem c155_live :
  forall eps cdf v p size needed total accounts, near_binomial eps cdf ->
  lookup v built_in = Some p -> In (size, needed) (committees p) ->
  (size <= total)%N -> (total <= 2 ^ 64)%N -> (19 * total <= 20 * all_money accounts)%N ->
  misses cdf total size needed accounts <= exp (-15) + errors eps accounts.
Proof. exact live_lemma. Qed.
Print Assumptions c155_live.

(** The certifying committee of version 10 expects 1500 votes and needs 1112; the late one 320 of 500.
    Two accounts with a fifth of ten thousand million Algos, and one with all of it. *)
Example c155_case :
  (exists p, lookup V10 built_in = Some p /\ In (1500, 1112)%N (committees p) /\ In (500, 320)%N (committees p)) /\
  reaches_needed rounded_binomial (10 ^ 16) 1500 1112 ([10 ^ 15; 10 ^ 15] : list N)%N <= exp (-100) + bpow radix2 (-51) /\
  misses rounded_binomial (10 ^ 16) 500 320 ([10 ^ 16] : list N)%N <= exp (-15) + bpow radix2 (-51).
Proof.
  assert (bpow radix2 (-53) = 2 * bpow radix2 (-54) /\ bpow radix2 (-51) = 8 * bpow radix2 (-54)) as (E1 & E2).
  { change (-53)%Z with (1 + -54)%Z. change (-51)%Z with (3 + -54)%Z. rewrite !bpow_plus. change (bpow radix2 1) with 2. change (bpow radix2 3) with 8. auto. }
  pose proof (bpow_ge_0 radix2 (-54)) as B0. pose proof (computes_near _ rounded_binomial_ok) as X.
  assert (exists p, lookup V10 built_in = Some p /\ In (1500, 1112)%N (committees p) /\ In (500, 320)%N (committees p)) as [p (E & I1 & I2)].
  { eexists. split; [vm_compute; reflexivity|]. split; vm_compute; auto 10. }
  split; [exists p; auto|]. split.
  - pose proof (c155_safe _ _ V10 p 1500 1112 (10 ^ 16) [10 ^ 15; 10 ^ 15]%N X E I1 ltac:(discriminate) ltac:(discriminate) ltac:(discriminate)) as Y.
    unfold errors in Y. cbn [length INR] in Y. lra.
  - pose proof (c155_live _ _ V10 p 500 320 (10 ^ 16) [10 ^ 16]%N X E I2 ltac:(discriminate) ltac:(discriminate) ltac:(discriminate)) as Y.
    unfold errors in Y. cbn [length INR] in Y. lra.
Qed.
(** The general bound: of forty units with twenty draws expected, all are drawn with a share below
    [exp 20 / 2 ^ 40]. *)
Example c155_case_many :
  1 - drawn_at_most rounded_binomial 1024 512 ([40] : list N)%N 39 <= exp (40 * draw 512 1024 * (2 - 1)) / 2 ^ 40 + errors (bpow radix2 (-54)) [40%N].
Proof. exact (c155_many _ _ 1024 512 [40]%N 39%N 2 (computes_near _ rounded_binomial_ok) ltac:(reflexivity) ltac:(discriminate) ltac:(discriminate) ltac:(lra)). Qed.
