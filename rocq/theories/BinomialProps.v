(** Property C147: sortition with the binomial distribution itself. *)
From Coq Require Import SpecFloat Reals.
From Flocq Require Import Core BinarySingleNaN.
From Verif Require Import Base Toy MsgpackModel ConsensusModel BasicsModel CommitteeModel CommitteeSpec FloatFacts BinomialSpec BinomialProofs CommitteeProps ToyCurve.
From Verif Require VrfModel.
Local Open Scope N_scope.

(** C147.  Selection draws every unit of money with the probability that makes the expected
    committee, and gives the least number of draws whose cumulative probability reaches the hash:
    exactly, for the two floats that are compared. *)
Theorem c147_quantile :
  forall cdf money total expected hash, computes_binomial cdf ->
  0 < total -> expected <= total -> total <= 2 ^ 64 -> length hash = 32%nat ->
  exists weight, select cdf money total (u64_as_f64 expected) hash = Some weight /\
    least_or money (fun i => i < money /\ (rnd (fraction hash) <= rnd (binomial (draw expected total) money i))%R) weight.
Proof. exact (fun cdf money total e hash X => select_binomial cdf X money total e hash). Qed.
Print Assumptions c147_quantile.

(** So for the exact probabilities up to [2 ^ -53]. *)
Theorem c147_close :
  forall cdf money total expected hash weight, computes_binomial cdf ->
  0 < total -> expected <= total -> total <= 2 ^ 64 -> length hash = 32%nat ->
  select cdf money total (u64_as_f64 expected) hash = Some weight ->
  weight <= money /\
  (forall i, i < weight -> (binomial (draw expected total) money i < fraction hash + bpow radix2 (-53))%R) /\
  (weight < money -> (fraction hash <= binomial (draw expected total) money weight + bpow radix2 (-53))%R).
Proof. exact (fun cdf money total e hash w X => select_close cdf X money total e hash w). Qed.
Print Assumptions c147_close.

(** More money, a larger expected committee, a smaller total or a greater hash never give a
    smaller weight. *)
Theorem c147_order :
  forall cdf money money' total total' expected expected' hash hash' weight weight', computes_binomial cdf ->
  0 < total' -> total' <= total -> expected <= expected' -> expected' <= total' -> total <= 2 ^ 64 -> money <= money' ->
  length hash = 32%nat -> length hash' = 32%nat -> be_val hash <= be_val hash' ->
  select cdf money total (u64_as_f64 expected) hash = Some weight ->
  select cdf money' total' (u64_as_f64 expected') hash' = Some weight' -> weight <= weight'.
Proof. exact (fun cdf m m' t t' e e' h h' w w' X => select_order cdf X m m' t t' e e' h h' w w'). Qed.
Print Assumptions c147_order.

(** An account that is in the committee stays in it with more stake, with at least its weight. *)
Theorem c147_more_stake :
  forall cdf C H proto proof mem mem' c, computes_binomial cdf ->
  (forall x, length (H x) = 32%nat) -> total_money mem <= 2 ^ 64 ->
  selection_id (mem_data mem') = selection_id (mem_data mem) -> mem_addr mem' = mem_addr mem ->
  mem_selector mem' = mem_selector mem -> total_money mem' = total_money mem ->
  voting_stake (mem_data mem) <= voting_stake (mem_data mem') -> voting_stake (mem_data mem') <= total_money mem ->
  verify cdf C H proto proof mem = Ok c ->
  exists c', verify cdf C H proto proof mem' = Ok c' /\ weight c <= weight c'.
Proof. exact (fun cdf C H proto proof mem mem' c X => verify_stake cdf X C H proto proof mem mem' c). Qed.
Print Assumptions c147_more_stake.

(** There is such a distribution, also as a program. *)
Theorem c147_computable : exists cdf, computes_binomial cdf.
Proof. exact (ex_intro _ rounded_binomial rounded_binomial_ok). Qed.
Print Assumptions c147_computable.

(** A quarter of the money is to be drawn: with a hash in the middle, four units give one, eight
    give two; the smallest hash gives none, the greatest all; and a larger committee, or a smaller total, gives more. *)
Definition half_hash : bytes := x80 :: repeat x00 31.
Example c147_case :
  select rounded_binomial 4 1024 (u64_as_f64 256) half_hash = Some 1 /\
  select rounded_binomial 8 1024 (u64_as_f64 256) half_hash = Some 2 /\
  select rounded_binomial 8 1024 (u64_as_f64 256) (repeat x00 32) = Some 0 /\
  select rounded_binomial 8 1024 (u64_as_f64 256) (repeat xff 32) = Some 8 /\
  select rounded_binomial 8 1024 (u64_as_f64 512) half_hash = Some 4 /\
  select rounded_binomial 8 512 (u64_as_f64 256) half_hash = Some 4.
Proof. repeat split; vm_compute; reflexivity. Qed.
Example c147_case_premises : computes_binomial rounded_binomial /\ length half_hash = 32%nat /\ length (repeat xff 32) = 32%nat.
Proof. split; [exact rounded_binomial_ok|split; reflexivity]. Qed.
(** The toy credential with two units of stake, and so with eight. *)
Definition ex_mem_of (algos : N) : membership := mkMembership (ex_data algos (VrfModel.public_key ex_vrf)) (repeat x2a 32) ex_selector2 1000.
Example c147_case_stake :
  weight_of (verify rounded_binomial toy_curve toy_hash v7_base ex_own2 (ex_mem_of 2)) = Some 1 /\
  voting_stake (mem_data (ex_mem_of 2)) = 2 /\ voting_stake (mem_data (ex_mem_of 8)) = 8.
Proof. vm_compute. auto. Qed.
(** helper for the case below *)
Lemma weight_of_some o n : weight_of o = Some n -> exists c, o = Ok c /\ weight c = n.
Proof. destruct o as [c| |]; try discriminate. intros E. exists c. split; [reflexivity|]. cbn [weight_of] in E. congruence. Qed.
Example c147_case_more : exists c, verify rounded_binomial toy_curve toy_hash v7_base ex_own2 (ex_mem_of 8) = Ok c /\ 1 <= weight c.
Proof.
  destruct (weight_of_some _ _ (proj1 c147_case_stake)) as [c [V <-]].
  refine (c147_more_stake _ _ _ _ _ (ex_mem_of 2) (ex_mem_of 8) c rounded_binomial_ok toy_hash32 _ _ _ _ _ _ _ V); (reflexivity || discriminate).
Qed.
