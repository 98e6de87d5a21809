(** Property C151: sortition with a distribution that is computed with an error. *)
From Coq Require Import SpecFloat Reals Lra.
From Flocq Require Import Core BinarySingleNaN.
From Verif Require Import Base Toy MsgpackModel CommitteeModel CommitteeSpec FloatFacts BinomialSpec BinomialProofs NearProofs BinomialProps.
Local Open Scope N_scope.

(** C151.  Whatever the library computes, as long as it is within [eps] of the probability, the
    weight is the quantile of the hash up to [eps + 2 ^ -54]. *)
Theorem c151_close :
  forall eps cdf money total expected hash weight, near_binomial eps cdf ->
  0 < total -> expected <= total -> total <= 2 ^ 64 -> length hash = 32%nat ->
  select cdf money total (u64_as_f64 expected) hash = Some weight ->
  weight <= money /\
  (forall i, i < weight -> (binomial (draw expected total) money i < fraction hash + eps + bpow radix2 (-54))%R) /\
  (weight < money -> (fraction hash <= binomial (draw expected total) money weight + eps + bpow radix2 (-54))%R).
Proof. exact (fun eps cdf money total e hash w X Ht He Hb => near_close eps cdf X money total e Ht He Hb hash w). Qed.
Print Assumptions c151_close.

(** The hashes that give at most [i] draws are the smallest ones, also if the computed
    probabilities do not grow, and their share is the probability of at most [i] draws. *)
Theorem c151_distribution :
  forall eps cdf money total expected i, near_binomial eps cdf ->
  0 < total -> expected <= total -> total <= 2 ^ 64 -> i < money ->
  exists t, t <= 2 ^ 256 /\
    (forall hash weight, length hash = 32%nat -> select cdf money total (u64_as_f64 expected) hash = Some weight ->
     (weight <= i <-> be_val hash < t)) /\
    (Rabs (IZR (Z.of_N t) / IZR (Z.of_N (2 ^ 256)) - binomial (draw expected total) money i) <= eps + bpow radix2 (-53))%R.
Proof. exact (fun eps cdf money total e i X Ht He Hb => near_distribution eps cdf X money total e Ht He Hb i). Qed.
Print Assumptions c151_distribution.

(** The average weight is the money times the probability of a draw. *)
Theorem c151_average :
  forall eps cdf money total expected, near_binomial eps cdf -> 0 < total -> expected <= total -> total <= 2 ^ 64 ->
  (Rabs (average_weight cdf money total expected - IZR (Z.of_N money) * draw expected total) <= IZR (Z.of_N money) * (eps + bpow radix2 (-53)))%R.
Proof. exact (fun eps cdf money total e X => near_average eps cdf X money total e). Qed.
Print Assumptions c151_average.

(** The average weights of all accounts add up to the expected committee. *)
Theorem c151_committee :
  forall eps cdf accounts expected, near_binomial eps cdf ->
  0 < expected -> expected <= all_money accounts -> all_money accounts <= 2 ^ 64 ->
  (Rabs (average_committee cdf accounts expected - IZR (Z.of_N expected)) <=
   IZR (Z.of_N (all_money accounts)) * (eps + bpow radix2 (-53)) + IZR (Z.of_N expected) * bpow radix2 (-51))%R.
Proof. exact near_committee. Qed.
Print Assumptions c151_committee.

(** A program with twenty bits after the point is such a library, and not an exact one: with three
    units and a tenth to be drawn it says less than the float next to the probability. *)
Example c151_case :
  near_binomial (bpow radix2 (-19)) coarse_binomial /\
  select coarse_binomial 8 1024 (u64_as_f64 256) half_hash = Some 2 /\
  select coarse_binomial 3 1024 (u64_as_f64 100) (xba :: repeat x00 31) = Some 0 /\
  coarse_binomial (SFdiv 53 1024 (u64_as_f64 100) (u64_as_f64 1024)) 3 1 <> rounded_binomial (SFdiv 53 1024 (u64_as_f64 100) (u64_as_f64 1024)) 3 1.
Proof. split; [exact coarse_binomial_ok|]. vm_compute. repeat split; congruence. Qed.
(** A committee of twenty out of a thousand units. *)
Example c151_case_committee :
  (Rabs (average_committee coarse_binomial ([1; 99; 900] : list N)%N 20%N - 20) <= bpow radix2 (-8))%R.
Proof.
  eapply Rle_trans; [exact (c151_committee _ coarse_binomial [1; 99; 900] 20 coarse_binomial_ok ltac:(reflexivity) ltac:(discriminate) ltac:(discriminate))|].
  change (all_money _) with 1000. pose proof (bpow_ge_0 radix2 (-19)).
  assert (bpow radix2 (-53) <= bpow radix2 (-19))%R by (apply bpow_le; lia). assert (bpow radix2 (-51) <= bpow radix2 (-19))%R by (apply bpow_le; lia).
  replace (bpow radix2 (-8)) with (2048 * bpow radix2 (-19))%R.
  - change (IZR (Z.of_N 1000)) with 1000%R. change (IZR (Z.of_N 20)) with 20%R. lra.
  - change (-8)%Z with (11 + -19)%Z. rewrite bpow_plus. rewrite <- (IZR_Zpower radix2 11) by lia. reflexivity.
Qed.
