(** Property C148: how often which weight is drawn. *)
From Coq Require Import SpecFloat Reals Lra.
From Flocq Require Import Core BinarySingleNaN.
From Verif Require Import Base Toy MsgpackModel CommitteeModel CommitteeSpec FloatFacts BinomialSpec BinomialProofs AverageProofs.
Local Open Scope N_scope.

(** C148.  The hashes that give at most [i] draws are the smallest ones, and their share of all
    [2 ^ 256] hashes is the probability of at most [i] draws, up to [2 ^ -52]. *)
Theorem c148_distribution :
  forall cdf money total expected i, computes_binomial cdf ->
  0 < total -> expected <= total -> total <= 2 ^ 64 -> i < money ->
  exists t, t <= 2 ^ 256 /\
    (forall hash weight, length hash = 32%nat -> select cdf money total (u64_as_f64 expected) hash = Some weight ->
     (weight <= i <-> be_val hash < t)) /\
    (Rabs (IZR (Z.of_N t) / IZR (Z.of_N (2 ^ 256)) - binomial (draw expected total) money i) <= bpow radix2 (-52))%R.
Proof. exact (fun cdf money total e i X Ht He Hb => distribution cdf X money total e Ht He Hb i). Qed.
Print Assumptions c148_distribution.

(** The average weight over all hashes is the money times the probability of a draw. *)
Theorem c148_average :
  forall cdf money total expected, computes_binomial cdf -> 0 < total -> expected <= total -> total <= 2 ^ 64 ->
  (Rabs (average_weight cdf money total expected - IZR (Z.of_N money) * draw expected total) <= IZR (Z.of_N money) * bpow radix2 (-52))%R.
Proof. exact (fun cdf money total e X => average_close cdf X money total e). Qed.
Print Assumptions c148_average.

(** For accounts that hold the total, the average weights add up to the expected committee. *)
Theorem c148_committee :
  forall cdf accounts expected, computes_binomial cdf ->
  0 < expected -> expected <= all_money accounts -> all_money accounts <= 2 ^ 64 ->
  (Rabs (average_committee cdf accounts expected - IZR (Z.of_N expected)) <=
   (IZR (Z.of_N (all_money accounts)) + 2 * IZR (Z.of_N expected)) * bpow radix2 (-52))%R.
Proof. exact committee_close. Qed.
Print Assumptions c148_committee.

(** One unit of money, drawn with probability one half: the lower half of the hashes gives weight
    zero, the upper half weight one. *)
Example c148_case :
  weight_at rounded_binomial 1 1024 512 (2 ^ 255 - 1) = 0 /\ weight_at rounded_binomial 1 1024 512 (2 ^ 255 + 2 ^ 204) = 1 /\
  weight_at rounded_binomial 1 1024 512 0 = 0 /\ weight_at rounded_binomial 1 1024 512 (2 ^ 256 - 1) = 1.
Proof. vm_compute. auto. Qed.
(** Three accounts of a thousand million units and a committee of twenty: the average is twenty up to [2 ^ -22]. *)
Example c148_case_committee :
  (Rabs (average_committee rounded_binomial ([1000; 1000000; 998999000] : list N)%N 20%N - 20) <= bpow radix2 (-22))%R.
Proof.
  eapply Rle_trans; [exact (c148_committee rounded_binomial [1000; 1000000; 998999000] 20 rounded_binomial_ok ltac:(reflexivity) ltac:(discriminate) ltac:(discriminate))|].
  replace (bpow radix2 (-22)) with (IZR (2 ^ 30) * bpow radix2 (-52))%R.
  - apply Rmult_le_compat_r; [apply bpow_ge_0|]. change (all_money _) with 1000000000. rewrite <- mult_IZR, <- plus_IZR. apply IZR_le. discriminate.
  - change (-22)%Z with (30 + -52)%Z. rewrite bpow_plus. rewrite <- (IZR_Zpower radix2 30) by lia. reflexivity.
Qed.
