(** The square root of a 64-bit number in binary64, cut off. *)
From Coq Require Import ZArith Reals Psatz SpecFloat.
From Flocq Require Import Core BinarySingleNaN.
From Verif Require Import Base CommitteeModel FloatFacts ToolModel.
#[local] Existing Instance Hp.
#[local] Existing Instance Hm.
#[local] Existing Instance fexp_valid.

Lemma sqrt_equiv (x : bf) : SFsqrt 53 1024 (b2sf x) = b2sf (Bsqrt mode_NE x).
Proof.
  destruct x as [s|s| |s m e Hx]; try reflexivity; [destruct s; reflexivity|].
  destruct s; [reflexivity|]. unfold Bsqrt. rewrite B2SF_SF2B. cbn [B2SF SFsqrt].
  destruct (SFsqrt_core_binary 53 1024 (Z.pos m) e) as [[mz ez] lz]. apply round_aux_equiv.
Qed.
(** Cutting off a finite number that is not negative. *)
Lemma cut_off (x : bf) : is_finite x = true -> (0 <= b2r x < bpow radix2 64)%R ->
  Z.of_N (f64_as_u64 (b2sf x)) = Zfloor (b2r x).
Proof.
  intros F [P Q]. destruct x as [s|s| |s m e Hx]; try discriminate.
  - cbn. rewrite Zfloor_IZR. reflexivity.
  - destruct s.
    + exfalso. cbn [B2R cond_Zopp] in P. refine (Rlt_not_le _ _ _ P). apply F2R_lt_0. reflexivity.
    + cbn [B2SF f64_as_u64 B2R cond_Zopp] in *.
      set (v := match e with Zneg q => _ | _ => _ end).
      assert (V : Z.of_N v = Zfloor (F2R (Float radix2 (Z.pos m) e))).
      { subst v. destruct e as [|q|q].
        - unfold F2R. cbn [Fnum Fexp bpow]. rewrite Rmult_1_r, Zfloor_IZR. rewrite N2Z.inj_mul. cbn. lia.
        - rewrite <- (Zfloor_IZR (Z.of_N _)). f_equal. unfold F2R. cbn [Fnum Fexp]. rewrite <- (IZR_Zpower radix2) by lia.
          rewrite <- mult_IZR. f_equal. rewrite N2Z.inj_mul, N2Z.inj_pow. cbn [Z.to_N Z.of_N radix_val radix2]. reflexivity.
        - unfold F2R. cbn [Fnum Fexp]. change (bpow radix2 (Z.neg q)) with (/ IZR (Z.pow_pos 2 q))%R.
          assert (Z.of_N (N.pos m / 2 ^ N.pos q) = Z.pos m / Z.pow_pos 2 q)%Z as ->.
          { rewrite N2Z.inj_div, N2Z.inj_pow. reflexivity. }
          symmetry. apply Zfloor_div. pose proof (Zpower_pos_gt_0 2 q ltac:(lia)). lia. }
      assert (B : (Z.of_N v < 2 ^ 64)%Z).
      { rewrite V. apply lt_IZR. eapply Rle_lt_trans; [apply Zfloor_lb|]. change (IZR (2 ^ 64)) with (bpow radix2 64). exact Q. }
      destruct (N.ltb_spec max64 v) as [C|C]; [unfold max64, two64 in C; lia|exact V].
Qed.

(** The rounded root, as a real number. *)
Lemma sqrt_value n : (n <= 2 ^ 64)%N ->
  exists b : bf, SFsqrt 53 1024 (u64_as_f64 n) = b2sf b /\ is_finite b = true /\ b2r b = rnd (sqrt (rnd (IZR (Z.of_N n)))).
Proof.
  intros Hn. destruct (nat_bf_value n Hn) as [V F]. exists (Bsqrt mode_NE (nat_bf n)).
  rewrite u64_bf, sqrt_equiv. split; [reflexivity|].
  destruct (Bsqrt_correct 53 1024 Hp Hm mode_NE (nat_bf n)) as [E1 [E2 _]].
  split.
  - rewrite E2. assert (P : (0 <= b2r (nat_bf n))%R) by (rewrite V, <- rnd_0; apply rnd_le, IZR_N).
    destruct (nat_bf n) as [s|s| |s m e Hx]; try reflexivity; try discriminate. destruct s; [|reflexivity].
    exfalso. refine (Rlt_not_le _ _ _ P). apply F2R_lt_0. reflexivity.
  - rewrite E1. cbn [round_mode]. rewrite V. reflexivity.
Qed.
Lemma format_Z z e : (Z.abs z <= 2 ^ 53)%Z -> (-1074 <= e)%Z -> generic_format radix2 (FLT_exp (3 - 1024 - 53) 53) (IZR z * bpow radix2 e).
Proof.
  intros Hz He. destruct (Z.eq_dec (Z.abs z) (2 ^ 53)) as [E|E].
  - assert (generic_format radix2 (FLT_exp (3 - 1024 - 53) 53) (bpow radix2 (53 + e))) as G by (apply format_bpow; lia).
    rewrite bpow_plus in G. destruct (Z.abs_eq_or_opp z) as [A|A]; rewrite A in E.
    + rewrite E. exact G.
    + assert (z = - 2 ^ 53)%Z as -> by lia. rewrite opp_IZR, Ropp_mult_distr_l_reverse. apply generic_format_opp. exact G.
  - apply generic_format_FLT. apply (FLT_spec radix2 (-1074) 53 (IZR z * bpow radix2 e) (Float radix2 z e)); [reflexivity| |exact He].
    cbn [Fnum]. change (radix2 ^ 53)%Z with (2 ^ 53)%Z. lia.
Qed.
Lemma rnd_exact z e : (Z.abs z <= 2 ^ 53)%Z -> (-1074 <= e)%Z -> rnd (IZR z * bpow radix2 e) = (IZR z * bpow radix2 e)%R.
Proof. intros Hz He. apply round_generic; [typeclasses eauto|]. apply format_Z; assumption. Qed.
Lemma rnd_int z : (Z.abs z <= 2 ^ 53)%Z -> rnd (IZR z) = IZR z.
Proof. intros Hz. pose proof (rnd_exact z 0 Hz ltac:(lia)) as E. cbn [bpow] in E. rewrite Rmult_1_r in E. exact E. Qed.
(** Rounding a 64-bit number changes it by at most 1024. *)
Lemma rnd_near x : (0 <= x < bpow radix2 64)%R -> (Rabs (rnd x - x) <= 1024)%R.
Proof.
  intros [P Q]. destruct (Rle_lt_or_eq_dec _ _ P) as [P'|<-]; [|rewrite rnd_0, Rminus_0_r, Rabs_R0; lra].
  eapply Rle_trans; [apply error_le_half_ulp; typeclasses eauto|].
  assert (ulp radix2 (FLT_exp (3 - 1024 - 53) 53) x <= bpow radix2 11)%R.
  { rewrite ulp_neq_0 by lra. apply bpow_le. unfold cexp, FLT_exp.
    assert (mag radix2 x <= 64)%Z by (apply mag_le_bpow; [lra|rewrite Rabs_pos_eq by lra; exact Q]). lia. }
  change (bpow radix2 11) with 2048%R in H. lra.
Qed.

Section Root.
Variables n k : Z.
Hypotheses (K0 : (0 <= k)%Z) (K1 : (k * k <= n)%Z) (K2 : (n < (k + 1) * (k + 1))%Z).

Lemma sqrt_le_of x y : (0 <= y)%R -> (x <= y * y)%R -> (sqrt x <= y)%R.
Proof. intros Hy Hx. rewrite <- (sqrt_square y Hy). apply sqrt_le_1_alt. exact Hx. Qed.
Lemma sqrt_ge_of x y : (0 <= y)%R -> (y * y <= x)%R -> (y <= sqrt x)%R.
Proof. intros Hy Hx. rewrite <- (sqrt_square y Hy) at 1. apply sqrt_le_1_alt. exact Hx. Qed.
Lemma KR : (0 <= IZR k)%R.
Proof. apply (IZR_le 0). exact K0. Qed.
Lemma root_small : (k <= 2 ^ 26)%Z -> (IZR k <= rnd (sqrt (rnd (IZR n))))%R.
Proof.
  intros Hk. assert (E : rnd (IZR (k * k)) = IZR (k * k)) by (apply rnd_int; nia).
  rewrite <- (rnd_int k) at 1 by lia. apply rnd_le. apply sqrt_ge_of; [exact KR|]. rewrite <- mult_IZR, <- E. apply rnd_le, IZR_le. exact K1.
Qed.
Lemma root_large : (2 ^ 26 < k)%Z -> (k < 2 ^ 32)%Z -> (IZR k <= rnd (sqrt (rnd (IZR n))))%R.
Proof.
  intros Hk Hk2. assert (Kp : (0 < IZR k)%R) by (apply (IZR_lt 0); lia).
  pose proof (bpow_mag_le radix2 (IZR k) ltac:(lra)) as E1. pose proof (bpow_mag_gt radix2 (IZR k)) as E2. rewrite Rabs_pos_eq in E1, E2 by lra.
  remember (mag_val _ _ (mag radix2 (IZR k))) as e eqn:Me. symmetry in Me.
  assert (e <= 32)%Z.
  { destruct (Z.le_gt_cases e 32) as [L|L]; [exact L|exfalso]. assert (bpow radix2 32 <= IZR k)%R by (eapply Rle_trans; [|exact E1]; apply bpow_le; lia).
    change (bpow radix2 32) with (IZR (2 ^ 32)) in H. apply le_IZR in H. lia. }
  assert (27 <= e)%Z.
  { destruct (Z.le_gt_cases 27 e) as [L|L]; [exact L|exfalso]. assert (IZR k < bpow radix2 26)%R by (eapply Rlt_le_trans; [exact E2|]; apply bpow_le; lia).
    change (bpow radix2 26) with (IZR (2 ^ 26)) in H0. apply lt_IZR in H0. lia. }
  destruct (Req_dec (IZR k) (bpow radix2 (e - 1))) as [Eq|Ne].
  - assert (E : rnd (IZR (k * k)) = IZR (k * k)).
    { rewrite mult_IZR, Eq, <- bpow_plus. apply round_generic; [typeclasses eauto|]. apply format_bpow. lia. }
    rewrite <- (rnd_int k) at 1 by lia. apply rnd_le. apply sqrt_ge_of; [lra|]. rewrite <- mult_IZR, <- E. apply rnd_le, IZR_le. exact K1.
  - apply round_N_ge_midp; [typeclasses eauto| |].
    { pose proof (format_Z k 0 ltac:(lia) ltac:(lia)) as G. cbn [bpow] in G. rewrite Rmult_1_r in G. exact G. }
    set (B := bpow radix2 (e - 54)). set (E := bpow radix2 (2 * e - 54)).
    assert (HB : (0 < B < 2)%R).
    { subst B. split; [apply bpow_gt_0|]. change 2%R with (bpow radix2 1). apply bpow_lt. lia. }
    assert (HE : (2 * bpow radix2 (e - 1) * B = E)%R).
    { subst B E. change 2%R with (bpow radix2 1). rewrite <- !bpow_plus. f_equal. lia. }
    assert (Hk1 : (bpow radix2 (e - 1) + 1 <= IZR k)%R).
    { rewrite <- IZR_Zpower in * by lia. rewrite <- plus_IZR. apply IZR_le. apply le_IZR in E1.
      assert (k <> Zpower radix2 (e - 1)) by (intros ->; apply Ne; reflexivity). lia. }
    assert (Pr : pred radix2 (FLT_exp (3 - 1024 - 53) 53) (IZR k) = (IZR k - 2 * B)%R).
    { rewrite pred_eq_pos by lra. unfold pred_pos. rewrite Me, Req_bool_false by exact Ne. rewrite ulp_neq_0 by lra. unfold cexp. rewrite Me. unfold FLT_exp.
      replace (Z.max (e - 53) (3 - 1024 - 53)) with (1 + (e - 54))%Z by lia. rewrite bpow_plus. reflexivity. }
    rewrite Pr. replace ((IZR k + (IZR k - 2 * B)) / 2)%R with (IZR k - B)%R by field.
    assert (Hy : (IZR k * IZR k - E <= rnd (IZR n))%R).
    { apply Rle_trans with (rnd (IZR (k * k))); [|apply rnd_le, IZR_le; exact K1].
      assert (Er : (Rabs (rnd (IZR (k * k)) - IZR (k * k)) <= E)%R).
      { eapply Rle_trans; [apply error_le_half_ulp; typeclasses eauto|].
        assert (ulp radix2 (FLT_exp (3 - 1024 - 53) 53) (IZR (k * k)) <= 2 * E)%R; [|lra].
        assert (0 < IZR (k * k))%R by (apply (IZR_lt 0); nia).
        rewrite ulp_neq_0 by lra. subst E. change 2%R with (bpow radix2 1). rewrite <- bpow_plus. apply bpow_le. unfold cexp, FLT_exp.
        assert (mag radix2 (IZR (k * k)) <= 2 * e)%Z; [|lia]. apply mag_le_bpow; [lra|]. rewrite Rabs_pos_eq by lra. rewrite mult_IZR.
        replace (2 * e)%Z with (e + e)%Z by lia. rewrite bpow_plus. apply Rmult_le_0_lt_compat; lra. }
      rewrite mult_IZR in *. apply Rabs_le_inv in Er. lra. }
    assert (0 <= IZR k - B)%R. { assert (0 < bpow radix2 (e - 1))%R by apply bpow_gt_0. assert (2 <= bpow radix2 (e - 1))%R by (change 2%R with (bpow radix2 1); apply bpow_le; lia). lra. }
    rewrite <- (sqrt_square (IZR k - B)) at 1 by assumption. apply sqrt_lt_1_alt. split; [apply Rle_0_sqr|]. eapply Rlt_le_trans; [|exact Hy].
    nra.
Qed.
Lemma root_lower : (k < 2 ^ 32)%Z -> (IZR k <= rnd (sqrt (rnd (IZR n))))%R.
Proof. intros Hk. destruct (Z.le_gt_cases k (2 ^ 26)); [apply root_small|apply root_large]; assumption. Qed.
Lemma root_upper : (k < 2 ^ 32)%Z -> (rnd (sqrt (rnd (IZR n))) <= IZR (2 * k + 3) * bpow radix2 (-1))%R.
Proof.
  intros Hk. rewrite <- (rnd_exact (2 * k + 3) (-1)) by lia. apply rnd_le. pose proof KR as HK.
  assert (HS : (IZR (2 * k + 3) * bpow radix2 (-1) = IZR k + 3 / 2)%R) by (rewrite plus_IZR, mult_IZR; change (bpow radix2 (-1)) with (/ 2)%R; field).
  rewrite HS. apply sqrt_le_of; [lra|].
  assert (Hn : (IZR n <= IZR k * IZR k + 2 * IZR k)%R) by (rewrite <- !mult_IZR, <- plus_IZR; apply IZR_le; lia).
  destruct (Z.lt_ge_cases k 1024) as [L|L].
  - rewrite rnd_int by nia. nra.
  - assert (1024 <= IZR k)%R by (apply IZR_le; exact L).
    assert (Rabs (rnd (IZR n) - IZR n) <= 1024)%R as A.
    { apply rnd_near. split; [apply (IZR_le 0); nia|]. change (bpow radix2 64) with (IZR (2 ^ 64)). apply IZR_lt. nia. }
    apply Rabs_le_inv in A. nra.
Qed.
Lemma root_exact : (n < 2 ^ 52)%Z -> (rnd (sqrt (rnd (IZR n))) <= IZR (2 ^ 27 * (k + 1) - 1) * bpow radix2 (-27))%R.
Proof.
  intros Hn. assert (k + 1 <= 2 ^ 26)%Z by nia. rewrite <- (rnd_exact (2 ^ 27 * (k + 1) - 1) (-27)) by lia. apply rnd_le. pose proof KR as HK.
  assert (HS : (IZR (2 ^ 27 * (k + 1) - 1) * bpow radix2 (-27) = IZR (k + 1) - bpow radix2 (-27))%R).
  { rewrite minus_IZR, mult_IZR. change (IZR (2 ^ 27)) with (bpow radix2 27). rewrite Rmult_minus_distr_r, Rmult_1_l. f_equal. rewrite Rmult_comm, <- Rmult_assoc, <- bpow_plus. apply Rmult_1_l. }
  rewrite HS. rewrite rnd_int by nia.
  assert (HB : (bpow radix2 (-27) * bpow radix2 26 * 2 = 1)%R) by (change 2%R with (bpow radix2 1); rewrite <- !bpow_plus; reflexivity).
  assert (0 < bpow radix2 (-27) < 1)%R by (split; [apply bpow_gt_0|change 1%R with (bpow radix2 0); apply bpow_lt; lia]).
  assert (1 <= IZR (k + 1) <= bpow radix2 26)%R by (split; [apply IZR_le; lia|change (bpow radix2 26) with (IZR (2 ^ 26)); apply IZR_le; lia]).
  apply sqrt_le_of; [lra|].
  assert (IZR n <= IZR (k + 1) * IZR (k + 1) - 1)%R by (rewrite <- mult_IZR, <- minus_IZR; apply IZR_le; lia). nra.
Qed.
End Root.

(** [sqrt_u64 n] is the integer root, or one more. *)
Theorem sqrt_u64_bounds n : (n < 2 ^ 64)%N -> (N.sqrt n <= sqrt_u64 n <= N.sqrt n + 1)%N /\ ((n < 2 ^ 52)%N -> sqrt_u64 n = N.sqrt n).
Proof.
  intros Hn. destruct (sqrt_value n ltac:(lia)) as [b [E1 [F V]]]. set (k := Z.of_N (N.sqrt n)). set (m := Z.of_N n).
  pose proof (N.sqrt_spec' n) as [S1 S2].
  assert (K0 : (0 <= k)%Z) by (subst k; lia). assert (K1 : (k * k <= m)%Z) by (subst k m; lia). assert (K2 : (m < (k + 1) * (k + 1))%Z) by (subst k m; lia).
  assert (Mb : (m < 2 ^ 64)%Z) by (subst m; lia). assert (Hk : (k < 2 ^ 32)%Z) by nia.
  pose proof (root_lower m k K0 K1 K2 Hk) as L. pose proof (root_upper m k K0 K1 K2 Hk) as U. fold m in V. rewrite <- V in L, U.
  assert (HS : (IZR (2 * k + 3) * bpow radix2 (-1) = IZR k + 3 / 2)%R) by (rewrite plus_IZR, mult_IZR; change (bpow radix2 (-1)) with (/ 2)%R; field).
  rewrite HS in U. assert (KR0 : (0 <= IZR k)%R) by (apply (IZR_le 0); exact K0).
  assert (C : Z.of_N (sqrt_u64 n) = Zfloor (b2r b)).
  { unfold sqrt_u64. rewrite E1. apply cut_off; [exact F|]. split; [lra|]. apply Rle_lt_trans with (1 := U). change (bpow radix2 64) with (IZR (2 ^ 64)).
    apply Rlt_trans with (IZR (k + 2)); [rewrite plus_IZR; lra|apply IZR_lt; lia]. }
  assert (A : (k <= Zfloor (b2r b))%Z) by (apply Zfloor_lub; exact L).
  assert (B : (Zfloor (b2r b) < k + 2)%Z) by (apply lt_IZR; eapply Rle_lt_trans; [apply Zfloor_lb|]; rewrite plus_IZR; lra).
  split; [lia|]. intros H52. pose proof (root_exact m k K0 K1 K2 ltac:(lia)) as X. rewrite <- V in X.
  assert (Zfloor (b2r b) < k + 1)%Z; [|lia].
  apply lt_IZR. eapply Rle_lt_trans; [apply Zfloor_lb|]. eapply Rle_lt_trans; [exact X|].
  rewrite minus_IZR, mult_IZR. change (IZR (2 ^ 27)) with (bpow radix2 27).
  assert (bpow radix2 27 * bpow radix2 (-27) = 1)%R as Q by (rewrite <- bpow_plus; reflexivity).
  assert (0 < bpow radix2 (-27))%R by apply bpow_gt_0.
  replace ((bpow radix2 27 * IZR (k + 1) - 1) * bpow radix2 (-27))%R with (IZR (k + 1) * (bpow radix2 27 * bpow radix2 (-27)) - bpow radix2 (-27))%R by ring.
  rewrite Q. lra.
Qed.
