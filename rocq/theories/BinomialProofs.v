(** Proofs for C147. *)
From Coq Require Import SpecFloat Reals Lra.
From Flocq Require Import Core BinarySingleNaN.
From Verif Require Import Base MsgpackModel ConsensusModel BasicsModel CommitteeModel CommitteeSpec FloatFacts CommitteeProofs BinomialSpec.
From Verif Require VrfModel.
Local Open Scope R_scope.

(** ** The distribution *)
Lemma C_0 n : C n 0 = 1.
Proof. unfold C. rewrite Nat.sub_0_r. cbn [fact INR]. rewrite Rmult_1_l. apply Rinv_r. apply INR_fact_neq_0. Qed.
Lemma C_n n : C n n = 1.
Proof. unfold C. rewrite Nat.sub_diag. cbn [fact INR]. rewrite Rmult_1_r. apply Rinv_r. apply INR_fact_neq_0. Qed.
Lemma C_pos n i : 0 <= C n i.
Proof.
  unfold C. apply Rmult_le_pos; [apply pos_INR|]. left. apply Rinv_0_lt_compat. apply Rmult_lt_0_compat; apply INR_fact_lt_0.
Qed.
Lemma successes_pos p n i : 0 <= p <= 1 -> 0 <= successes p n i.
Proof. intros P. unfold successes. apply Rmult_le_pos; [apply Rmult_le_pos; [apply C_pos|apply pow_le; lra]|apply pow_le; lra]. Qed.
Lemma successes_0 p n : successes p (S n) 0 = (1 - p) * successes p n 0.
Proof. unfold successes. rewrite !C_0, !Nat.sub_0_r. cbn [pow]. ring. Qed.
Lemma successes_n p n : successes p (S n) (S n) = p * successes p n n.
Proof. unfold successes. rewrite !C_n, !Nat.sub_diag. cbn [pow]. ring. Qed.
Lemma successes_S p n i : (i < n)%nat -> successes p (S n) (S i) = p * successes p n i + (1 - p) * successes p n (S i).
Proof.
  intros L. unfold successes. rewrite <- pascal by exact L. replace (S n - S i)%nat with (n - i)%nat by lia.
  replace (n - i)%nat with (S (n - S i)) by lia. cbn [pow]. ring.
Qed.
Lemma sum_S p n : forall k, (k <= n)%nat -> sum_f_R0 (successes p (S n)) k = sum_f_R0 (successes p n) k - p * successes p n k.
Proof.
  induction k as [|k IH]; intros L; cbn [sum_f_R0].
  - rewrite successes_0. ring.
  - rewrite IH by lia. rewrite successes_S by lia. ring.
Qed.
Lemma sum_all p n : sum_f_R0 (successes p n) n = 1.
Proof.
  pose proof (Binomial.binomial p (1 - p) n) as E. replace (p + (1 - p)) with 1 in E by ring. rewrite pow1 in E. rewrite E. apply sum_eq.
  intros i L. reflexivity.
Qed.
Lemma sum_range p n k : 0 <= p <= 1 -> (k <= n)%nat -> 0 <= sum_f_R0 (successes p n) k <= 1.
Proof.
  intros P L. split.
  - apply cond_pos_sum. intros i. apply successes_pos. exact P.
  - rewrite <- (sum_all p n). destruct (Nat.eq_dec k n) as [->|D]; [lra|].
    rewrite (tech2 (successes p n) k n) by lia. 
    enough (0 <= sum_f_R0 (fun i => successes p n (S k + i)) (n - S k)) by lra. apply cond_pos_sum. intros i. apply successes_pos. exact P.
Qed.
Lemma sum_trials p n n' k : 0 <= p <= 1 -> (k <= n)%nat -> (n <= n')%nat -> sum_f_R0 (successes p n') k <= sum_f_R0 (successes p n) k.
Proof.
  intros P L M. induction M as [|n' M IH]; [lra|]. rewrite sum_S by lia. pose proof (successes_pos p n' k P) as Q.
  assert (0 <= p * successes p n' k) by (apply Rmult_le_pos; lra). lra.
Qed.
Lemma sum_step p n k : (S k <= n)%nat -> sum_f_R0 (successes p (S n)) (S k) = p * sum_f_R0 (successes p n) k + (1 - p) * sum_f_R0 (successes p n) (S k).
Proof. intros L. rewrite sum_S by lia. cbn [sum_f_R0]. ring. Qed.
Lemma sum_probability p q : 0 <= p -> p <= q -> q <= 1 -> forall n k, (k <= n)%nat -> sum_f_R0 (successes q n) k <= sum_f_R0 (successes p n) k.
Proof.
  intros P0 PQ Q1. induction n as [|n IH]; intros k L.
  - assert (k = 0%nat) as -> by lia. rewrite !(sum_all _ 0). lra.
  - destruct (Nat.eq_dec k (S n)) as [->|D]; [rewrite !sum_all; lra|]. destruct k as [|k].
    + cbn [sum_f_R0]. rewrite !successes_0. pose proof (IH 0%nat ltac:(lia)) as I0. cbn [sum_f_R0] in I0.
      pose proof (successes_pos q n 0 ltac:(lra)). apply Rmult_le_compat; lra.
    + rewrite !sum_step by lia. pose proof (IH k ltac:(lia)) as I1. pose proof (IH (S k) ltac:(lia)) as I2.
      set (a := sum_f_R0 (successes p n) k) in *. set (b := sum_f_R0 (successes p n) (S k)) in *. 
      assert (sum_f_R0 (successes q n) k <= sum_f_R0 (successes q n) (S k)) as I3
        by (cbn [sum_f_R0]; pose proof (successes_pos q n (S k) ltac:(lra)); lra).
      set (a' := sum_f_R0 (successes q n) k) in *. set (b' := sum_f_R0 (successes q n) (S k)) in *.
      assert (0 <= p * (a - a')) by (apply Rmult_le_pos; lra). assert (0 <= (1 - p) * (b - b')) by (apply Rmult_le_pos; lra).
      assert (0 <= (q - p) * (b' - a')) by (apply Rmult_le_pos; lra). lra.
Qed.
Lemma binomial_range p n k : 0 <= p <= 1 -> (k <= n)%N -> 0 <= binomial p n k <= 1.
Proof. intros P L. apply sum_range; [exact P|lia]. Qed.

(** ** Rounding *)
Lemma reaches_value (x y : bf) : is_finite x = true -> is_finite y = true -> reaches (b2sf x) (b2sf y) <-> b2r y <= b2r x.
Proof.
  intros Fx Fy. unfold reaches. rewrite compare_finite by assumption. destruct (Rcompare_spec (b2r x) (b2r y)) as [L|E|L]; split; intros K; try lra; auto; destruct K as [K|K]; discriminate.
Qed.
Lemma rnd_error x : 0 <= x <= 1 -> Rabs (rnd x - x) <= bpow radix2 (-54).
Proof.
  intros [X0 X1]. destruct (Req_dec x 1) as [->|N1]; [rewrite rnd_1; replace (1 - 1) with 0 by ring; rewrite Rabs_R0; apply bpow_ge_0|].
  eapply Rle_trans; [apply error_le_half_ulp; apply FLT_exp_valid; reflexivity|].
  assert (ulp radix2 (FLT_exp (3 - 1024 - 53) 53) x <= bpow radix2 (-53)) as U.
  { destruct (Req_dec x 0) as [->|N0].
    - rewrite ulp_FLT_0 by reflexivity. apply bpow_le. lia.
    - rewrite ulp_neq_0 by exact N0. apply bpow_le. unfold cexp, FLT_exp.
      assert (mag radix2 x <= 0)%Z by (apply mag_le_bpow; [exact N0|]; rewrite Rabs_pos_eq by exact X0; change (bpow radix2 0) with 1; lra). lia. }
  replace (bpow radix2 (-54)) with (/ 2 * bpow radix2 (-53)) by (change (-53)%Z with (1 + -54)%Z; rewrite bpow_plus; change (bpow radix2 1) with 2; field). lra.
Qed.

Section Sortition.
Variable cdf : f64 -> N -> N -> f64.
Hypothesis exact_cdf : computes_binomial cdf.

Lemma fraction_value hash : length hash = 32%nat -> exists r : bf, ratio_to_f64 (be_val hash) (2 ^ 256 - 1) = b2sf r /\ is_finite r = true /\ b2r r = rnd (fraction hash).
Proof. intros L. exact (ratio_value (be_val hash) max_output max_output_pos (output_bound hash L)). Qed.
Lemma fraction_range hash : length hash = 32%nat -> 0 <= fraction hash <= 1.
Proof.
  intros L. pose proof (output_bound hash L) as B. unfold fraction. fold max_output in *. assert (0 < IZR (Z.of_N max_output)) as M by (apply (IZR_lt 0); reflexivity).
  split.
  - apply Rmult_le_pos; [apply IZR_N|]. left. apply Rinv_0_lt_compat. exact M.
  - apply Rmult_le_reg_r with (1 := M). unfold Rdiv. rewrite Rmult_assoc, Rinv_l by lra. rewrite Rmult_1_r, Rmult_1_l. apply IZR_le. lia.
Qed.
Lemma draw_range e total : (0 < total)%N -> (e <= total)%N -> (total <= 2 ^ 64)%N -> 0 <= draw e total <= 1.
Proof. intros Ht He Hb. destruct (probability_ok e total Ht He Hb) as [p [_ [_ [P3 P4]]]]. unfold draw. rewrite <- P4. exact P3. Qed.
Lemma select_binomial money total e hash : (0 < total)%N -> (e <= total)%N -> (total <= 2 ^ 64)%N -> length hash = 32%nat ->
  exists w, select cdf money total (u64_as_f64 e) hash = Some w /\
    least_or money (fun i => (i < money)%N /\ rnd (fraction hash) <= rnd (binomial (draw e total) money i)) w.
Proof.
  intros Ht He Hb L. destruct (select_defined cdf money total e hash Ht He Hb) as [w E]. exists w. split; [exact E|].
  apply quantile_lemma in E. destruct (probability_ok e total Ht He Hb) as [p [P1 [P2 [P3 P4]]]]. rewrite P1 in E.
  destruct (fraction_value hash L) as [r [R1 [R2 R3]]]. rewrite R1 in E. unfold draw. rewrite <- P4, <- R3.
  destruct E as [E1 [E2 E3]]. split; [exact E1|]. split.
  - intros i Hi [Hm K]. apply (E2 i Hi). destruct (exact_cdf p money i P2 P3 Hm) as [c [C1 [C2 C3]]]. rewrite C1. apply reaches_value; [assumption|assumption|]. rewrite C3. exact K.
  - intros Hw. split; [exact Hw|]. specialize (E3 Hw). destruct (exact_cdf p money w P2 P3 Hw) as [c [C1 [C2 C3]]]. rewrite C1 in E3. apply reaches_value in E3; [|assumption|assumption]. rewrite C3 in E3. exact E3.
Qed.
Lemma select_close money total e hash w : (0 < total)%N -> (e <= total)%N -> (total <= 2 ^ 64)%N -> length hash = 32%nat ->
  select cdf money total (u64_as_f64 e) hash = Some w ->
  (w <= money)%N /\ (forall i, (i < w)%N -> binomial (draw e total) money i < fraction hash + bpow radix2 (-53)) /\
  ((w < money)%N -> fraction hash <= binomial (draw e total) money w + bpow radix2 (-53)).
Proof.
  intros Ht He Hb L E. destruct (select_binomial money total e hash Ht He Hb L) as [w' [E' [A [B D]]]]. assert (w' = w) by congruence. subst w'.
  pose proof (draw_range e total Ht He Hb) as P. pose proof (fraction_range hash L) as Q. pose proof (rnd_error _ Q) as RQ. apply Rabs_le_inv in RQ.
  assert (bpow radix2 (-53) = 2 * bpow radix2 (-54)) as T by (change (-53)%Z with (1 + -54)%Z; rewrite bpow_plus; change (bpow radix2 1) with 2; ring).
  split; [exact A|]. split.
  - intros i Hi. assert (~ rnd (fraction hash) <= rnd (binomial (draw e total) money i)) as K by (intros K; apply (B i Hi); split; [lia|exact K]).
    pose proof (rnd_error _ (binomial_range _ money i P ltac:(lia))) as RB. apply Rabs_le_inv in RB. lra.
  - intros Hw. destruct (D Hw) as [_ K]. pose proof (rnd_error _ (binomial_range _ money w P ltac:(lia))) as RB. apply Rabs_le_inv in RB. lra.
Qed.
Lemma least_mono n n' (P P' : N -> Prop) w w' : least_or n P w -> least_or n' P' w' -> (n <= n')%N -> (forall i, (i < n)%N -> P' i -> P i) -> (w <= w')%N.
Proof.
  intros [A [B D]] [A' [B' D']] L K. destruct (N.le_gt_cases w w') as [|G]; [assumption|]. exfalso. apply (B w' G). apply K; [lia|]. apply D'. lia.
Qed.
Lemma draw_mono e e' total total' : (0 < total)%N -> (e <= e')%N -> (total <= total')%N -> draw e total' <= draw e' total.
Proof.
  intros Ht He HT. unfold draw. apply rnd_le.
  assert (1 <= rnd (IZR (Z.of_N total))) as T1 by (rewrite <- rnd_1; apply rnd_le, IZR_le; lia).
  assert (rnd (IZR (Z.of_N total)) <= rnd (IZR (Z.of_N total'))) as T2 by (apply rnd_le, IZR_le; lia).
  assert (0 <= rnd (IZR (Z.of_N e))) as T0 by (rewrite <- rnd_0; apply rnd_le, IZR_N).
  assert (rnd (IZR (Z.of_N e)) <= rnd (IZR (Z.of_N e'))) as T3 by (apply rnd_le, IZR_le; lia).
  unfold Rdiv. apply Rmult_le_compat; [exact T0| |exact T3|]; [left; apply Rinv_0_lt_compat; lra|]. apply Rinv_le; lra.
Qed.
(** More money, a larger committee, a smaller total, a greater hash: never a smaller weight. *)
Lemma select_order money money' total total' e e' hash hash' w w' :
  (0 < total')%N -> (total' <= total)%N -> (e <= e')%N -> (e' <= total')%N -> (total <= 2 ^ 64)%N -> (money <= money')%N ->
  length hash = 32%nat -> length hash' = 32%nat -> (be_val hash <= be_val hash')%N ->
  select cdf money total (u64_as_f64 e) hash = Some w -> select cdf money' total' (u64_as_f64 e') hash' = Some w' -> (w <= w')%N.
Proof.
  intros Ht HT He He' Hb Hm L L' Hh E E'.
  destruct (select_binomial money total e hash ltac:(lia) ltac:(lia) Hb L) as [v [Ev W]]. assert (v = w) by congruence. subst v.
  destruct (select_binomial money' total' e' hash' ltac:(lia) He' ltac:(lia) L') as [v [Ev' W']]. assert (v = w') by congruence. subst v.
  refine (least_mono _ _ _ _ _ _ W W' Hm _). intros i Hi [_ K]. split; [exact Hi|].
  assert (rnd (fraction hash) <= rnd (fraction hash')) as K1.
  { apply rnd_le. unfold fraction. apply Rmult_le_compat_r; [|apply IZR_le; lia]. left. apply Rinv_0_lt_compat. apply (IZR_lt 0). reflexivity. }
  assert (rnd (binomial (draw e' total') money' i) <= rnd (binomial (draw e total) money i)) as K2; [|lra]. apply rnd_le.
  pose proof (draw_range e total ltac:(lia) ltac:(lia) Hb) as [P0 P1]. pose proof (draw_range e' total' Ht He' ltac:(lia)) as [P0' P1'].
  apply Rle_trans with (binomial (draw e' total') money i).
  - apply sum_trials; [lra|lia|lia].
  - apply sum_probability; [exact P0|apply draw_mono; lia|exact P1'|lia].
Qed.

(** Verification: with more stake the same proof gives at least the same weight. *)
Lemma verify_stake K H proto proof mem mem' c : (forall x, length (H x) = 32%nat) -> (total_money mem <= 2 ^ 64)%N ->
  selection_id (mem_data mem') = selection_id (mem_data mem) -> mem_addr mem' = mem_addr mem -> mem_selector mem' = mem_selector mem -> total_money mem' = total_money mem ->
  (voting_stake (mem_data mem) <= voting_stake (mem_data mem'))%N -> (voting_stake (mem_data mem') <= total_money mem)%N ->
  verify cdf K H proto proof mem = Ok c -> exists c', verify cdf K H proto proof mem' = Ok c' /\ (weight c <= weight c')%N.
Proof.
  intros Hh Hb E1 E2 E3 E4 S1 S2 V. apply verify_ok in V; [|exact Hb]. destruct V as [out [w [O [T [Z [W [Sel ->]]]]]]]. destruct T as [T1 [T2 [T3 T4]]].
  set (h := deciding_hash H proto out (mem_addr mem)) in *.
  destruct (select_defined cdf (voting_stake (mem_data mem')) (total_money mem) (committee_size (mem_selector mem) proto) h T2 T4 Hb) as [w' Sel'].
  assert (w <= w')%N as LW by (refine (select_order _ _ _ _ _ _ h h w w' _ _ _ _ _ S1 _ _ _ Sel Sel'); try (apply Hh); try assumption; try lia).
  eexists. split; [apply verify_ok; [rewrite E4; exact Hb|]; exists out, w'; split; [unfold output_of in *; rewrite E1, E3; exact O|]; split; [rewrite E3, E4; repeat split; assumption|]; split; [lia|]; split; [lia|]; split; [rewrite E2, E3, E4; exact Sel'|reflexivity]|].
  exact LW.
Qed.
End Sortition.

(** ** A program that computes the distribution: the numbers of successes as integers over a power of two. *)
Section Row.
Variables (m q : Z).
(** Add the shifted row times [m] to the row times [q]. *)
Fixpoint blend (prev : Z) (row : list Z) : list Z :=
  match row with [] => [m * prev]%Z | x :: row' => (m * prev + q * x)%Z :: blend x row' end.
Fixpoint row (n : nat) : list Z := match n with O => [1%Z] | S n' => blend 0 (row n') end.
End Row.
Definition total_of (l : list Z) : Z := fold_right Z.add 0%Z l.
(** The correctly rounded cumulative distribution. *)
Definition rounded_binomial (p : f64) (n k : N) : f64 :=
  match p with
  | S754_zero _ => u64_as_f64 1
  | S754_finite false m e =>
      SpecFloat.binary_normalize 53 1024 (total_of (firstn (S (N.to_nat k)) (row (Zpos m) (2 ^ (- e) - Zpos m) (N.to_nat n)))) (e * Z.of_N n) false
  | _ => S754_nan
  end.
Section RowFacts.
Variables (m q : Z) (p D : R).
Hypotheses (Hm : IZR m = D * p) (Hq : IZR q = D * (1 - p)).
Lemma blend_length : forall l prev, length (blend m q prev l) = S (length l).
Proof. induction l as [|x l IH]; intros prev; cbn [blend length]; [reflexivity|]. rewrite IH. reflexivity. Qed.
Lemma row_length n : length (row m q n) = S n.
Proof. induction n as [|n IH]; cbn [row]; [reflexivity|]. rewrite blend_length, IH. reflexivity. Qed.
Lemma blend_nth : forall l prev i, (i <= length l)%nat -> nth i (blend m q prev l) 0%Z = (m * nth i (prev :: l) 0 + q * nth i l 0)%Z.
Proof.
  induction l as [|x l IH]; intros prev i L; cbn [length] in L.
  - assert (i = 0%nat) as -> by lia. cbn [blend nth]. ring.
  - destruct i as [|i]; [reflexivity|]. cbn [blend nth]. rewrite IH by lia. reflexivity.
Qed.
Lemma row_nth : forall n i, (i <= n)%nat -> IZR (nth i (row m q n) 0%Z) = D ^ n * successes p n i.
Proof.
  induction n as [|n IH]; intros i L.
  - assert (i = 0%nat) as -> by lia. cbn [row nth pow]. unfold successes. rewrite C_n. cbn [pow Nat.sub]. ring.
  - cbn [row]. rewrite blend_nth by (rewrite row_length; exact L). rewrite plus_IZR, !mult_IZR, Hm, Hq. cbn [pow]. destruct i as [|i].
    + cbn [nth]. rewrite IH by lia. rewrite successes_0. ring.
    + cbn [nth]. rewrite IH by lia. destruct (Nat.eq_dec i n) as [->|Ne].
      * rewrite nth_overflow by (rewrite row_length; lia). rewrite successes_n. ring.
      * rewrite IH by lia. rewrite successes_S by lia. ring.
Qed.
Lemma total_firstn : forall k (l : list Z), (k < length l)%nat -> IZR (total_of (firstn (S k) l)) = sum_f_R0 (fun i => IZR (nth i l 0%Z)) k.
Proof.
  induction k as [|k IH]; intros l L; (destruct l as [|x l]; [cbn in L; lia|]); cbn [length] in L.
  - cbn. rewrite Z.add_0_r. reflexivity.
  - rewrite decomp_sum by lia. cbn [Nat.pred]. replace (firstn (S (S k)) (x :: l)) with (x :: firstn (S k) l) by reflexivity. cbn [total_of fold_right].
    rewrite plus_IZR. fold (total_of (firstn (S k) l)). rewrite IH by lia. reflexivity.
Qed.
Lemma row_sum n k : (k <= n)%nat -> IZR (total_of (firstn (S k) (row m q n))) = D ^ n * sum_f_R0 (successes p n) k.
Proof.
  intros L. rewrite total_firstn by (rewrite row_length; lia). rewrite scal_sum. apply sum_eq. intros i Hi. rewrite row_nth by lia. ring.
Qed.
End RowFacts.
Lemma binomial_0 n k : binomial 0 n k = 1.
Proof.
  unfold binomial. generalize (N.to_nat n) as a, (N.to_nat k) as b. intros a. induction b as [|b IH]; cbn [sum_f_R0].
  - unfold successes. rewrite C_0. cbn [pow]. rewrite Rminus_0_r, pow1. ring.
  - rewrite IH. unfold successes. cbn [pow]. ring.
Qed.
Lemma rounded_binomial_ok : computes_binomial rounded_binomial.
Proof.
  intros p n k F P L. pose proof (binomial_range (b2r p) n k P ltac:(lia)) as B.
  destruct p as [s|s| |s m e V]; try discriminate.
  - exists (nat_bf 1). change (b2r (B754_zero s)) with 0. destruct (nat_bf_value 1 ltac:(vm_compute; discriminate)) as [O1 O2]. split; [apply u64_bf|]. split; [exact O2|].
    rewrite O1, binomial_0. reflexivity.
  - destruct s.
    { exfalso. cbn [B2R] in P. destruct P as [P _]. revert P. apply Rlt_not_le. apply F2R_lt_0. reflexivity. }
    assert (e < 0)%Z as He.
    { destruct (Z.lt_ge_cases e 0) as [|G]; [assumption|]. exfalso. 
      assert (canonical_mantissa 53 1024 m e = true) as CM by (pose proof V as V1; unfold bounded in V1; apply andb_prop in V1; apply V1).
      apply (canonical_canonical_mantissa 53 1024 false) in CM. unfold canonical in CM. cbn [Fexp] in CM. unfold cexp in CM.
      assert (mag radix2 (F2R (Float radix2 (cond_Zopp false (Z.pos m)) e)) <= 1)%Z as M1.
      { apply mag_le_bpow.
        - apply F2R_neq_0. discriminate.
        - cbn [B2R] in P. rewrite Rabs_pos_eq by apply P. change (bpow radix2 1) with 2. lra. }
      unfold SpecFloat.fexp in CM. unfold SpecFloat.emin in CM. lia. }
    unfold rounded_binomial. cbn [B2SF].
    set (t := total_of _). set (ex := (e * Z.of_N n)%Z).
    assert (F2R (Float radix2 t ex) = binomial (b2r (B754_finite false m e V)) n k) as Ex.
    { unfold F2R at 1. cbn [Fnum Fexp]. unfold t, ex. clear t ex.
      set (p := b2r (B754_finite false m e V)) in *.
      assert (IZR (2 ^ (- e)) = bpow radix2 (- e)) as D1 by (rewrite <- IZR_Zpower by lia; reflexivity).
      assert (p * bpow radix2 (- e) = IZR (Z.pos m)) as D2.
      { unfold p. cbn [B2R cond_Zopp]. unfold F2R. cbn [Fnum Fexp]. rewrite Rmult_assoc, <- bpow_plus, Z.add_opp_diag_r. cbn. ring. }
      rewrite (row_sum (Z.pos m) (2 ^ (- e) - Z.pos m) p (bpow radix2 (- e))).
      - unfold binomial. 
        assert (bpow radix2 (- e) ^ N.to_nat n * bpow radix2 (e * Z.of_N n) = 1) as D3.
        { assert (forall a, bpow radix2 (- e) ^ a * bpow radix2 (e * Z.of_nat a) = 1) as K.
          { induction a as [|a IH]; [rewrite Z.mul_0_r; cbn; ring|]. cbn [pow]. rewrite Nat2Z.inj_succ. replace (e * Z.succ (Z.of_nat a))%Z with (e + e * Z.of_nat a)%Z by lia. rewrite bpow_plus.
            replace (bpow radix2 (- e) * bpow radix2 (- e) ^ a * (bpow radix2 e * bpow radix2 (e * Z.of_nat a))) with ((bpow radix2 (- e) * bpow radix2 e) * (bpow radix2 (- e) ^ a * bpow radix2 (e * Z.of_nat a))) by ring.
            rewrite IH, <- bpow_plus, Z.add_opp_diag_l. cbn. ring. }
          specialize (K (N.to_nat n)). rewrite N_nat_Z in K. exact K. }
        rewrite Rmult_comm, <- Rmult_assoc. rewrite (Rmult_comm (bpow radix2 (e * Z.of_N n))), D3. apply Rmult_1_l.
      - rewrite <- D2. ring.
      - rewrite minus_IZR, D1, <- D2. ring.
      - lia. }
    pose proof (binary_normalize_correct 53 1024 FloatFacts.Hp FloatFacts.Hm mode_NE t ex false) as E. cbv zeta in E. rewrite Ex in E. cbn [round_mode] in E.
    change (SpecFloat.fexp 53 1024) with (FLT_exp (3 - 1024 - 53) 53) in E. rewrite no_overflow in E.
    + destruct E as [E1 [E2 _]]. eexists. split; [apply normalize_equiv|]. split; [exact E2|exact E1].
    + split; [apply B|]. apply Rle_trans with 1; [apply B|]. change 1 with (bpow radix2 0). apply bpow_le. lia.
Qed.
