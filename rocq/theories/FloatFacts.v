(** Facts about binary64 numbers, from Flocq. *)
From Coq Require Import ZArith Reals Psatz SpecFloat.
From Flocq Require Import Core BinarySingleNaN.
From Verif Require Import Base CommitteeModel.

Definition Hp : Prec_gt_0 53 := eq_refl.
Definition Hm : Prec_lt_emax 53 1024 := eq_refl.
#[local] Existing Instance Hp.
#[local] Existing Instance Hm.
Notation bf := (binary_float 53 1024).
Notation rnd := (round radix2 (FLT_exp (3 - 1024 - 53) 53) ZnearestE).
Notation b2r := (B2R (prec := 53) (emax := 1024)).
Notation b2sf := (B2SF (prec := 53) (emax := 1024)).

Lemma round_nearest_even_equiv s m l : round_nearest_even m l = choice_mode mode_NE s m l.
Proof. case l; [reflexivity|intro c]. case c; [|reflexivity..]. now simpl; unfold Round.cond_incr; case Z.even. Qed.
Lemma round_aux_equiv sx mx ex lx : SpecFloat.binary_round_aux 53 1024 sx mx ex lx = binary_round_aux 53 1024 mode_NE sx mx ex lx.
Proof.
  unfold SpecFloat.binary_round_aux, binary_round_aux. set (mrse' := shr_fexp _ _ _). case mrse'; intros mrs' e'; simpl.
  now rewrite (round_nearest_even_equiv sx).
Qed.
Lemma round_equiv s m e : SpecFloat.binary_round 53 1024 s m e = binary_round 53 1024 mode_NE s m e.
Proof. unfold SpecFloat.binary_round, binary_round, shl_align_fexp. set (mez := shl_align _ _ _); case mez as [mz ez]. apply round_aux_equiv. Qed.
Lemma normalize_equiv m e s : SpecFloat.binary_normalize 53 1024 m e s = b2sf (binary_normalize 53 1024 Hp Hm mode_NE m e s).
Proof. case m as [|p|p]; [reflexivity|..]; simpl; rewrite B2SF_SF2B; apply round_equiv. Qed.
Lemma div_equiv (x y : bf) : SFdiv 53 1024 (b2sf x) (b2sf y) = b2sf (Bdiv mode_NE x y).
Proof.
  destruct x as [sx|sx| |sx mx ex Hx], y as [sy|sy| |sy my ey Hy]; try reflexivity.
  unfold Bdiv. rewrite B2SF_SF2B. cbn [B2SF SFdiv]. destruct (SFdiv_core_binary 53 1024 (Z.pos mx) ex (Z.pos my) ey) as [[mz ez] lz]. apply round_aux_equiv.
Qed.

Lemma fexp_mono : Monotone_exp (FLT_exp (3 - 1024 - 53) 53).
Proof. apply FLT_exp_monotone. Qed.
Lemma fexp_valid : Valid_exp (FLT_exp (3 - 1024 - 53) 53).
Proof. apply FLT_exp_valid. reflexivity. Qed.
#[local] Existing Instance fexp_valid.
Lemma rnd_le x y : (x <= y)%R -> (rnd x <= rnd y)%R.
Proof. apply round_le; typeclasses eauto. Qed.
Lemma rnd_0 : rnd 0 = 0%R.
Proof. apply round_0. typeclasses eauto. Qed.
Lemma format_bpow e : (-1074 <= e)%Z -> generic_format radix2 (FLT_exp (3 - 1024 - 53) 53) (bpow radix2 e).
Proof. intros He. apply generic_format_bpow. unfold FLT_exp. lia. Qed.
Lemma rnd_1 : rnd 1 = 1%R.
Proof. change 1%R with (bpow radix2 0). apply round_generic; [typeclasses eauto|]. apply format_bpow. lia. Qed.

(** Rounding a number of the unit interval, or a 64-bit number, does not overflow. *)
Lemma no_overflow x : (0 <= x <= bpow radix2 64)%R -> Rlt_bool (Rabs (rnd x)) (bpow radix2 1024) = true.
Proof.
  intros [H1 H2]. apply Rlt_bool_true. apply rnd_le in H1. rewrite rnd_0 in H1. rewrite Rabs_pos_eq by exact H1.
  apply rnd_le in H2. rewrite (round_generic _ _ _ (bpow radix2 64)) in H2 by (apply format_bpow; lia).
  apply Rle_lt_trans with (1 := H2). apply bpow_lt. reflexivity.
Qed.

Definition nat_bf (n : N) : bf := binary_normalize 53 1024 Hp Hm mode_NE (Z.of_N n) 0 false.
Lemma u64_bf n : u64_as_f64 n = b2sf (nat_bf n).
Proof. apply normalize_equiv. Qed.
Lemma IZR_N n : (0 <= IZR (Z.of_N n))%R.
Proof. apply (IZR_le 0). lia. Qed.
Lemma nat_bf_value n : (n <= 2 ^ 64)%N -> b2r (nat_bf n) = rnd (IZR (Z.of_N n)) /\ is_finite (nat_bf n) = true.
Proof.
  intros Hn. pose proof (binary_normalize_correct 53 1024 Hp Hm mode_NE (Z.of_N n) 0 false) as E. cbv zeta in E. fold (nat_bf n) in E.
  assert (Ex : F2R (Float radix2 (Z.of_N n) 0) = IZR (Z.of_N n)) by (unfold F2R; simpl; ring).
  rewrite Ex in E. cbn [round_mode] in E. change (SpecFloat.fexp 53 1024) with (FLT_exp (3 - 1024 - 53) 53) in E.
  rewrite no_overflow in E; [destruct E as [E1 [E2 _]]; split; assumption|]. split; [apply IZR_N|].
  change (bpow radix2 64) with (IZR (2 ^ 64)). apply IZR_le. change (2 ^ 64)%Z with (Z.of_N (2 ^ 64)). lia.
Qed.

Lemma compare_finite (x y : bf) : is_finite x = true -> is_finite y = true -> SFcompare (b2sf x) (b2sf y) = Some (Rcompare (b2r x) (b2r y)).
Proof. exact (Bcompare_correct 53 1024 x y). Qed.

(** The probability of a committee not larger than the total. *)
Lemma probability_ok e t : (0 < t)%N -> (e <= t)%N -> (t <= 2 ^ 64)%N ->
  exists p : bf, f64_div (u64_as_f64 e) (u64_as_f64 t) = b2sf p /\ is_finite p = true /\ (0 <= b2r p <= 1)%R /\
    b2r p = rnd (rnd (IZR (Z.of_N e)) / rnd (IZR (Z.of_N t))).
Proof.
  intros Ht He Hb. destruct (nat_bf_value e ltac:(lia)) as [E1 E2], (nat_bf_value t Hb) as [T1 T2].
  assert (T3 : (1 <= b2r (nat_bf t))%R) by (rewrite T1, <- rnd_1; apply rnd_le, IZR_le; lia).
  assert (E3 : (0 <= b2r (nat_bf e))%R) by (rewrite E1, <- rnd_0; apply rnd_le, IZR_N).
  assert (Het : (b2r (nat_bf e) <= b2r (nat_bf t))%R) by (rewrite E1, T1; apply rnd_le, IZR_le; lia).
  assert (Q1 : (0 <= b2r (nat_bf e) / b2r (nat_bf t))%R) by (apply Rle_mult_inv_pos; lra).
  assert (Q2 : (b2r (nat_bf e) / b2r (nat_bf t) <= 1)%R) by (apply Rmult_le_reg_r with (b2r (nat_bf t)); [lra|]; unfold Rdiv; rewrite Rmult_assoc, Rinv_l by lra; lra).
  exists (Bdiv mode_NE (nat_bf e) (nat_bf t)). split; [unfold f64_div; rewrite !u64_bf; apply div_equiv|].
  pose proof (Bdiv_correct 53 1024 Hp Hm mode_NE (nat_bf e) (nat_bf t) ltac:(lra)) as D. cbn [round_mode] in D. change (SpecFloat.fexp 53 1024) with (FLT_exp (3 - 1024 - 53) 53) in D.
  rewrite no_overflow in D by (split; [exact Q1|]; apply Rle_trans with (1 := Q2); change 1%R with (bpow radix2 0); apply bpow_le; lia).
  destruct D as [D1 [D2 _]]. split; [rewrite D2; exact E2|]. rewrite D1. split; [|rewrite E1, T1; reflexivity].
  split; [rewrite <- rnd_0; apply rnd_le; exact Q1|rewrite <- rnd_1; apply rnd_le; exact Q2].
Qed.
Lemma probability_accepted p : is_finite p = true -> (0 <= b2r p <= 1)%R ->
  f64_is_nan (b2sf p) || f64_lt (b2sf p) (S754_zero false) || f64_gt (b2sf p) (u64_as_f64 1) = false.
Proof.
  intros Fp [P0 P1]. assert (f64_is_nan (b2sf p) = false) as -> by (destruct p; try discriminate; reflexivity). cbn [orb].
  unfold f64_lt, f64_gt. change (S754_zero false) with (b2sf (B754_zero false : bf)). rewrite compare_finite by (exact Fp || reflexivity).
  rewrite u64_bf. destruct (nat_bf_value 1 ltac:(vm_compute; discriminate)) as [O1 O2]. rewrite compare_finite by assumption. rewrite O1.
  change (IZR (Z.of_N 1)) with 1%R. rewrite rnd_1. change (b2r (B754_zero false)) with 0%R.
  destruct (Rcompare_spec (b2r p) 0), (Rcompare_spec (b2r p) 1); try reflexivity; lra.
Qed.

(** The ratio is the quotient, rounded. *)
Lemma ratio_value t m : (0 < m)%N -> (t <= m)%N ->
  exists b : bf, ratio_to_f64 t m = b2sf b /\ is_finite b = true /\ b2r b = rnd (IZR (Z.of_N t) / IZR (Z.of_N m)).
Proof.
  intros Hm0 Htm. unfold ratio_to_f64. destruct (N.eqb_spec t 0) as [->|Ht].
  - exists (B754_zero false). split; [reflexivity|]. split; [reflexivity|]. change (b2r (B754_zero false)) with 0%R. change (IZR (Z.of_N 0)) with 0%R. unfold Rdiv. rewrite Rmult_0_l, rnd_0. reflexivity.
  - destruct t as [|t]; [lia|]. destruct m as [|m]; [lia|]. cbn [Z.of_N].
    pose proof (Bdiv_correct_aux 53 1024 Hp Hm mode_NE false t 0 false m 0) as D. cbv zeta in D. cbn [cond_Zopp xorb] in D.
    assert (Ex : forall q, F2R (Float radix2 (Z.pos q) 0) = IZR (Z.pos q)) by (intros q; unfold F2R; simpl; ring). rewrite !Ex in D.
    destruct (SFdiv_core_binary 53 1024 (Z.pos t) 0 (Z.pos m) 0) as [[mz ez] lz]. rewrite round_aux_equiv.
    destruct D as [V D]. cbn [round_mode] in D. change (SpecFloat.fexp 53 1024) with (FLT_exp (3 - 1024 - 53) 53) in D.
    assert (Pm : (0 < IZR (Z.pos m))%R) by (apply (IZR_lt 0); lia). assert (Pt : (0 < IZR (Z.pos t))%R) by (apply (IZR_lt 0); lia).
    assert (Hle : (IZR (Z.pos t) <= IZR (Z.pos m))%R) by (apply IZR_le; lia).
    rewrite no_overflow in D.
    + exists (SF2B _ V). rewrite B2SF_SF2B. split; [reflexivity|]. rewrite is_finite_SF2B, B2R_SF2B. destruct D as [D1 [D2 _]]. split; assumption.
    + split; [apply Rle_mult_inv_pos; lra|]. apply Rle_trans with 1%R.
      * apply Rmult_le_reg_r with (IZR (Z.pos m)); [lra|]. unfold Rdiv. rewrite Rmult_assoc, Rinv_l by lra. lra.
      * change 1%R with (bpow radix2 0). apply bpow_le. lia.
Qed.
Lemma ratio_mono t t' m : (0 < m)%N -> (t <= t')%N -> (t' <= m)%N ->
  exists b b' : bf, ratio_to_f64 t m = b2sf b /\ ratio_to_f64 t' m = b2sf b' /\ is_finite b = true /\ is_finite b' = true /\ (b2r b <= b2r b')%R.
Proof.
  intros Hm0 H1 H2. destruct (ratio_value t m Hm0 ltac:(lia)) as [b [B1 [B2 B3]]], (ratio_value t' m Hm0 H2) as [b' [B1' [B2' B3']]].
  exists b, b'. repeat (split; [assumption|]). rewrite B3, B3'. apply rnd_le. apply Rmult_le_compat_r; [|apply IZR_le; lia].
  left. apply Rinv_0_lt_compat. apply (IZR_lt 0). lia.
Qed.
(** A value that reaches a number reaches every smaller one. *)
Lemma ge_mono (c : f64) (b b' : bf) : valid_binary 53 1024 c = true -> is_finite b = true -> is_finite b' = true -> (b2r b <= b2r b')%R ->
  f64_ge c (b2sf b') = true -> f64_ge c (b2sf b) = true.
Proof.
  intros V F F' L. rewrite <- (B2SF_SF2B 53 1024 c V). set (x := SF2B c V). clearbody x. unfold f64_ge.
  destruct (is_finite x) eqn:Fx.
  - rewrite !compare_finite by assumption. destruct (Rcompare_spec (b2r x) (b2r b)), (Rcompare_spec (b2r x) (b2r b')); try reflexivity; try discriminate; lra.
  - destruct x as [s|[|]| |s mx ex Hx]; try discriminate; destruct b as [?|?| |? ? ? ?], b' as [?|?| |? ? ? ?]; try discriminate; reflexivity.
Qed.
