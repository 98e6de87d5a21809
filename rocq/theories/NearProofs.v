(** Proofs for C151. *)
From Coq Require Import SpecFloat Reals Lra.
From Flocq Require Import Core BinarySingleNaN Relative.
From Verif Require Import Base BaseFacts MsgpackModel MsgpackProofs CommitteeModel CommitteeSpec FloatFacts CommitteeProofs BinomialSpec BinomialProofs AverageProofs.
Local Open Scope R_scope.

Lemma computes_near cdf : computes_binomial cdf -> near_binomial (bpow radix2 (-54)) cdf.
Proof.
  intros X p n k F P L. destruct (X p n k F P L) as [c [C1 [C2 C3]]]. exists c. split; [exact C1|]. split; [exact C2|]. rewrite C3.
  apply rnd_error, binomial_range; [exact P|lia].
Qed.
(** Counting the fractions whose rounding is below a bound that is known up to [eps]. *)
Lemma count_near m t b eps : (1 < m)%N -> / IZR (Z.of_N m) <= bpow radix2 (-54) -> 0 <= b <= 1 -> 0 <= eps -> (t <= m)%N ->
  (forall v, (v < t)%N -> rnd (IZR (Z.of_N v) / IZR (Z.of_N (m - 1))) <= b + eps) ->
  (forall v, (t <= v)%N -> (v < m)%N -> b - eps <= rnd (IZR (Z.of_N v) / IZR (Z.of_N (m - 1)))) ->
  Rabs (IZR (Z.of_N t) / IZR (Z.of_N m) - b) <= eps + bpow radix2 (-53).
Proof.
  intros Hm Small B E0 Ht TL TR. set (x := IZR (Z.of_N m)) in *. assert (IZR (Z.of_N (m - 1)) = x - 1) as X1.
  { unfold x. rewrite N2Z.inj_sub by lia. rewrite minus_IZR. reflexivity. }
  assert (2 <= x) as X2 by (apply IZR_le; lia).
  assert (forall v, (v < m)%N -> 0 <= IZR (Z.of_N v) / IZR (Z.of_N (m - 1)) <= 1) as Range.
  { intros v Hv. rewrite X1. assert (IZR (Z.of_N v) <= x - 1) by (rewrite <- X1; apply IZR_le; lia). pose proof (IZR_N v). split.
    - apply Rmult_le_pos; [assumption|]. left. apply Rinv_0_lt_compat. lra.
    - apply Rmult_le_reg_r with (x - 1); [lra|]. unfold Rdiv. rewrite Rmult_assoc, Rinv_l by lra. lra. }
  pose proof half_53 as H53. pose proof (bpow_ge_0 radix2 (-54)) as P54.
  set (y := IZR (Z.of_N t)). assert (0 <= y) as Y0 by apply IZR_N. assert (y <= x) as Y3 by (apply IZR_le; lia).
  assert (0 < / x) as X0 by (apply Rinv_0_lt_compat; lra).
  assert (y / x <= b + eps + bpow radix2 (-54) + / x) as Upper.
  { destruct (N.eq_dec t 0) as [Z|Ne].
    - unfold y. rewrite Z. change (IZR (Z.of_N 0)) with 0. unfold Rdiv. rewrite Rmult_0_l. lra.
    - assert (IZR (Z.of_N (t - 1)) = y - 1) as Y1 by (unfold y; rewrite N2Z.inj_sub by lia; rewrite minus_IZR; reflexivity).
      assert (1 <= y) as Y2 by (apply (IZR_le 1); lia).
      pose proof (TL (t - 1)%N ltac:(lia)) as K. pose proof (rnd_error _ (Range (t - 1)%N ltac:(lia))) as E. apply Rabs_le_inv in E. rewrite X1, Y1 in *.
      assert (y / x - / x <= (y - 1) / (x - 1)); [|lra].
      replace (y / x - / x) with ((y - 1) / x) by (field; lra). apply Rmult_le_compat_l; [lra|]. apply Rinv_le; lra. }
  assert (b <= y / x + eps + bpow radix2 (-54) + / x) as Lower.
  { destruct (N.eq_dec t m) as [E|Ne].
    - assert (y / x = 1) as -> by (unfold y, x; rewrite E; apply Rinv_r; fold x; lra). lra.
    - assert (t < m)%N as V by lia. pose proof (TR t (N.le_refl t) V) as K.
      pose proof (rnd_error _ (Range _ V)) as E. apply Rabs_le_inv in E. rewrite X1 in *. fold y in K, E.
      assert (y / (x - 1) <= y / x + / x); [|lra].
      assert (y <= x - 1) as Y4 by (rewrite <- X1; apply IZR_le; lia).
      apply Rmult_le_reg_r with (x * (x - 1)); [apply Rmult_lt_0_compat; lra|].
      replace (y / (x - 1) * (x * (x - 1))) with (y * x) by (field; lra). replace ((y / x + / x) * (x * (x - 1))) with (y * x - y + (x - 1)) by (field; lra). lra. }
  apply Rabs_le. split; lra.
Qed.
Lemma small_256' : / IZR (Z.of_N (2 ^ 256)) <= bpow radix2 (-54).
Proof.
  replace (IZR (Z.of_N (2 ^ 256))) with (bpow radix2 256).
  - rewrite <- bpow_opp. apply bpow_le. lia.
  - rewrite <- IZR_Zpower by lia. reflexivity.
Qed.

Section Near.
Variables (eps : R) (cdf : f64 -> N -> N -> f64).
Hypothesis near : near_binomial eps cdf.
Variables (money total e : N).
Hypotheses (Ht : (0 < total)%N) (He : (e <= total)%N) (Hb : (total <= 2 ^ 64)%N).

(** The cumulative probabilities that the program computes, as numbers. *)
Lemma computed : exists c : N -> R, 
  (forall i, (i < money)%N -> Rabs (c i - binomial (draw e total) money i) <= eps) /\
  (forall hash, length hash = 32%nat -> exists w, select cdf money total (u64_as_f64 e) hash = Some w /\
     least_or money (fun i => (i < money)%N /\ rnd (fraction hash) <= c i) w).
Proof.
  destruct (probability_ok e total Ht He Hb) as [p [P1 [P2 [P3 P4]]]].
  exists (fun i => SF2R radix2 (cdf (b2sf p) money i)). 
  assert (forall c : bf, SF2R radix2 (b2sf c) = b2r c) as SF by (intros c; apply SF2R_B2SF). split.
  - intros i Hi. destruct (near p money i P2 P3 Hi) as [c [C1 [C2 C3]]]. rewrite C1, SF. unfold draw. rewrite <- P4. exact C3.
  - intros hash L. destruct (select_defined cdf money total e hash Ht He Hb) as [w E]. exists w. split; [exact E|].
    apply quantile_lemma in E. rewrite P1 in E. destruct (fraction_value hash L) as [r [R1 [R2 R3]]]. rewrite R1 in E. rewrite <- R3.
    destruct E as [E1 [E2 E3]]. split; [exact E1|]. split.
    + intros i Hi [Hm K]. apply (E2 i Hi). destruct (near p money i P2 P3 Hm) as [c [C1 [C2 C3]]]. rewrite C1, SF in K. rewrite C1. apply reaches_value; assumption.
    + intros Hw. split; [exact Hw|]. specialize (E3 Hw). destruct (near p money w P2 P3 Hw) as [c [C1 [C2 C3]]]. rewrite C1 in E3. rewrite C1, SF. apply reaches_value in E3; assumption.
Qed.
Lemma near_close hash w : length hash = 32%nat -> select cdf money total (u64_as_f64 e) hash = Some w ->
  (w <= money)%N /\ (forall i, (i < w)%N -> binomial (draw e total) money i < fraction hash + eps + bpow radix2 (-54)) /\
  ((w < money)%N -> fraction hash <= binomial (draw e total) money w + eps + bpow radix2 (-54)).
Proof.
  intros L E. destruct computed as [c [C1 C2]]. destruct (C2 hash L) as [w' [E' [A [B D]]]]. assert (w' = w) by congruence. subst w'.
  pose proof (rnd_error _ (fraction_range hash L)) as RQ. apply Rabs_le_inv in RQ. split; [exact A|]. split.
  - intros i Hi. assert (~ rnd (fraction hash) <= c i) as K by (intros K; apply (B i Hi); split; [lia|exact K]).
    pose proof (C1 i ltac:(lia)) as RB. apply Rabs_le_inv in RB. lra.
  - intros Hw. destruct (D Hw) as [_ K]. pose proof (C1 w Hw) as RB. apply Rabs_le_inv in RB. lra.
Qed.
(** The hashes with at most [i] draws. *)
Lemma near_split i : (i < money)%N -> exists b, Rabs (b - binomial (draw e total) money i) <= eps /\
  forall hash w, length hash = 32%nat -> select cdf money total (u64_as_f64 e) hash = Some w -> ((w <= i)%N <-> rnd (fraction hash) <= b).
Proof.
  intros Hi. destruct computed as [c [C1 C2]].
  (* the greatest of the first values *)
  assert (forall j, (j < money)%N -> exists b, (forall k, (k <= j)%N -> c k <= b) /\ (exists k, (k <= j)%N /\ b = c k)) as Max.
  { apply (N.peano_ind (fun j => (j < money)%N -> exists b, (forall k, (k <= j)%N -> c k <= b) /\ (exists k, (k <= j)%N /\ b = c k))).
    - intros _. exists (c 0%N). split; [intros k Hk; assert (k = 0%N) as -> by lia; lra|]. exists 0%N. split; [lia|reflexivity].
    - intros j IH Hj. destruct (IH ltac:(lia)) as [b [B1 [k [B2 B3]]]]. exists (Rmax b (c (N.succ j))). split.
      + intros k' Hk. destruct (N.eq_dec k' (N.succ j)) as [->|Ne]; [apply Rmax_r|]. apply Rle_trans with b; [apply B1; lia|apply Rmax_l].
      + unfold Rmax. destruct (Rle_dec b (c (N.succ j))).
        * exists (N.succ j). split; [lia|reflexivity].
        * exists k. split; [lia|exact B3]. }
  destruct (Max i Hi) as [b [B1 [k [B2 B3]]]]. exists b. split.
  - pose proof (C1 i Hi) as E1. pose proof (C1 k ltac:(lia)) as E2. rewrite <- B3 in E2. pose proof (B1 i ltac:(lia)) as E3.
    pose proof (sum_mono (draw e total) (N.to_nat money) (N.to_nat k) (N.to_nat i) (draw_range e total Ht He Hb) ltac:(lia)) as M.
    fold (binomial (draw e total) money k) in M. fold (binomial (draw e total) money i) in M.
    apply Rabs_le_inv in E1. apply Rabs_le_inv in E2. apply Rabs_le. lra.
  - intros hash w L E. destruct (C2 hash L) as [w' [E' [A [B D]]]]. assert (w' = w) by congruence. subst w'. split.
    + intros Hw. destruct (D ltac:(lia)) as [_ K]. apply Rle_trans with (1 := K). apply B1. exact Hw.
    + intros K. destruct (N.le_gt_cases w i) as [|G]; [assumption|]. exfalso. apply (B k ltac:(lia)). split; [lia|]. rewrite <- B3. exact K.
Qed.
Lemma near_distribution i : (i < money)%N ->
  exists t, (t <= 2 ^ 256)%N /\
    (forall hash w, length hash = 32%nat -> select cdf money total (u64_as_f64 e) hash = Some w -> ((w <= i)%N <-> (be_val hash < t)%N)) /\
    Rabs (IZR (Z.of_N t) / IZR (Z.of_N (2 ^ 256)) - binomial (draw e total) money i) <= eps + bpow radix2 (-53).
Proof.
  intros Hi. destruct (near_split i Hi) as [b [B1 B2]].
  destruct (threshold (fun v => rnd (IZR (Z.of_N v) / IZR (Z.of_N (2 ^ 256 - 1))) <= b) (fun v => Rle_dec _ _)) with (m := (2 ^ 256)%N) as [t [T1 T2]].
  { intros u v L K. apply Rle_trans with (2 := K). apply rnd_le. apply Rmult_le_compat_r; [|apply IZR_le; lia]. left. apply Rinv_0_lt_compat. apply (IZR_lt 0). reflexivity. }
  exists t. split; [exact T1|]. split.
  - intros hash w L E. rewrite <- T2 by (pose proof (output_bound hash L) as O; unfold max_output in O; pose proof max_output_pos as O1; unfold max_output in O1; lia). exact (B2 hash w L E).
  - assert (0 <= eps) as E0 by (eapply Rle_trans; [apply Rabs_pos|exact B1]). apply Rabs_le_inv in B1. apply count_near; [reflexivity|exact small_256'|apply binomial_range; [apply draw_range; assumption|lia]|exact E0|exact T1| |].
    + intros v Hv. assert (v < 2 ^ 256)%N as V by (eapply N.lt_le_trans; [exact Hv|exact T1]). pose proof (proj2 (T2 v V) Hv) as K. lra.
    + intros v Hv V. assert (~ rnd (IZR (Z.of_N v) / IZR (Z.of_N (2 ^ 256 - 1))) <= b) as K by (intros K; apply (T2 v V) in K; lia). lra.
Qed.
Lemma near_weight_at v : exists w, select cdf money total (u64_as_f64 e) (be 32 v) = Some w /\ weight_at cdf money total e v = w /\ (w <= money)%N.
Proof.
  destruct computed as [c [_ C2]]. destruct (C2 (be 32 v) (be_length 32 v)) as [w [E [A _]]]. exists w. split; [exact E|]. split; [|exact A].
  unfold weight_at. rewrite E. reflexivity.
Qed.
Lemma near_layers m d : (forall i, (i < money)%N -> exists t, (t <= m)%N /\ (forall v, (v < m)%N -> ((weight_at cdf money total e v <= i)%N <-> (v < t)%N)) /\
    Rabs (IZR (Z.of_N t) / IZR (Z.of_N m) - binomial (draw e total) money i) <= d) -> (0 < m)%N ->
  Rabs (average m (fun v => IZR (Z.of_N (weight_at cdf money total e v))) - INR (N.to_nat money) * draw e total) <= INR (N.to_nat money) * d.
Proof.
  intros T M0. unfold average. assert (0 < IZR (Z.of_N m)) as X by (apply (IZR_lt 0); lia).
  rewrite (below_ext _ (fun v => below (N.to_nat money) (fun i => if (i <? weight_at cdf money total e v)%N then 1 else 0))).
  2:{ intros v _. symmetry. apply below_less. rewrite N2Nat.id. destruct (near_weight_at v) as [w [_ [-> L]]]. exact L. }
  rewrite below_swap. unfold Rdiv. rewrite Rmult_comm, <- below_scal. rewrite <- (mean (draw e total) (N.to_nat money)).
  apply below_near. intros i Hi. rewrite N2Nat.id in Hi. destruct (T i Hi) as [t [T1 [T2 T3]]].
  rewrite (below_ext _ (fun v => if (t <=? v)%N then 1 else 0)).
  - rewrite below_from by (rewrite N2Nat.id; exact T1). rewrite N_nat_Z.
    replace (/ IZR (Z.of_N m) * (IZR (Z.of_N m) - IZR (Z.of_N t))) with (1 - IZR (Z.of_N t) / IZR (Z.of_N m)) by (field; lra).
    fold (binomial (draw e total) money i).
    match goal with |- Rabs ?a <= _ => replace a with (- (IZR (Z.of_N t) / IZR (Z.of_N m) - binomial (draw e total) money i)) by ring end.
    rewrite Rabs_Ropp. exact T3.
  - intros v Hv. rewrite N2Nat.id in Hv. specialize (T2 v Hv). destruct (N.ltb_spec i (weight_at cdf money total e v)), (N.leb_spec t v); try reflexivity; exfalso; lia.
Qed.
Lemma near_average : Rabs (average_weight cdf money total e - IZR (Z.of_N money) * draw e total) <= IZR (Z.of_N money) * (eps + bpow radix2 (-53)).
Proof.
  assert (IZR (Z.of_N money) = INR (N.to_nat money)) as -> by (rewrite INR_IZR_INZ, N_nat_Z; reflexivity).
  unfold average_weight. apply near_layers; [|reflexivity]. intros i Hi. destruct (near_distribution i Hi) as [t [T1 [T2 T3]]]. exists t. split; [exact T1|]. split; [|exact T3].
  intros v Hv. destruct (near_weight_at v) as [w [E [-> _]]]. rewrite (T2 _ _ (be_length 32 v) E). rewrite be_val_be; [reflexivity|]. change (256 ^ N.of_nat 32)%N with (2 ^ 256)%N. exact Hv.
Qed.
End Near.

Lemma near_committee eps cdf accounts e : near_binomial eps cdf -> (0 < e)%N -> (e <= all_money accounts)%N -> (all_money accounts <= 2 ^ 64)%N ->
  Rabs (average_committee cdf accounts e - IZR (Z.of_N e)) <= IZR (Z.of_N (all_money accounts)) * (eps + bpow radix2 (-53)) + IZR (Z.of_N e) * bpow radix2 (-51).
Proof.
  intros X E0 ET TB. unfold average_committee. set (total := all_money accounts) in *.
  assert (forall l, Rabs (fold_right Rplus 0 (map (fun money => average_weight cdf money total e) l) - IZR (Z.of_N (all_money l)) * draw e total) <= IZR (Z.of_N (all_money l)) * (eps + bpow radix2 (-53))) as K.
  { induction l as [|money l IH].
    - cbn. rewrite !Rmult_0_l, Rminus_0_r, Rabs_R0. lra.
    - cbn [map fold_right all_money]. fold (all_money l). rewrite N2Z.inj_add, plus_IZR. pose proof (near_average eps cdf X money total e ltac:(lia) ET TB) as A.
      match goal with |- Rabs ?t <= _ => match type of A with Rabs ?a <= _ => match type of IH with Rabs ?b <= _ => replace t with (a + b) by ring end end end.
      eapply Rle_trans; [apply Rabs_triang|]. lra. }
  specialize (K accounts). fold total in K. pose proof (draw_close e total E0 ltac:(lia) ET TB) as D.
  assert (bpow radix2 (-51) = 2 * bpow radix2 (-52)) as -> by (change (-51)%Z with (1 + -52)%Z; rewrite bpow_plus; change (bpow radix2 1) with 2; ring).
  match goal with |- Rabs ?t <= _ => match type of K with Rabs ?a <= _ => match type of D with Rabs ?b <= _ => replace t with (a + b) by ring end end end.
  eapply Rle_trans; [apply Rabs_triang|]. lra.
Qed.

(** ** A program that is not exact: twenty bits after the point, the rest cut off. *)
Definition cut (x : f64) : f64 :=
  match x with S754_finite false m e => SpecFloat.binary_normalize 53 1024 (Z.shiftl (Zpos m) (e + 20)) (-20) false | _ => x end.
Definition coarse_binomial (p : f64) (n k : N) : f64 := cut (rounded_binomial p n k).
Lemma cut_value (c : bf) : is_finite c = true -> 0 <= b2r c <= 1 -> exists d : bf, cut (b2sf c) = b2sf d /\ is_finite d = true /\ Rabs (b2r d - b2r c) <= bpow radix2 (-20).
Proof.
  intros F P. destruct c as [s|s| |s m e V]; try discriminate.
  - exists (B754_zero s). split; [reflexivity|]. split; [reflexivity|]. replace (_ - _) with 0 by (cbn; ring). rewrite Rabs_R0. apply bpow_ge_0.
  - destruct s.
    { exfalso. cbn [B2R] in P. destruct P as [P _]. revert P. apply Rlt_not_le. apply F2R_lt_0. reflexivity. }
    cbn [B2SF cut]. set (t := Z.shiftl (Z.pos m) (e + 20)). set (x := b2r (B754_finite false m e V)) in *.
    assert (x = IZR (Z.pos m) * bpow radix2 e) as X by reflexivity.
    assert (0 <= x * bpow radix2 20 - IZR t < 1) as T.
    { unfold t. rewrite X, Rmult_assoc, <- bpow_plus. destruct (Z.le_gt_cases 0 (e + 20)) as [L|L].
      - rewrite Z.shiftl_mul_pow2 by exact L. rewrite mult_IZR. replace (IZR (2 ^ (e + 20))) with (bpow radix2 (e + 20)) by (rewrite <- IZR_Zpower by exact L; reflexivity). lra.
      - rewrite Z.shiftl_div_pow2 by lia. set (q := (2 ^ (- (e + 20)))%Z). assert (0 < q)%Z as Q by (apply Z.pow_pos_nonneg; lia).
        assert (bpow radix2 (e + 20) = / IZR q) as ->.
        { unfold q. replace (e + 20)%Z with (- (- (e + 20)))%Z at 1 by lia. rewrite bpow_opp. f_equal. rewrite <- IZR_Zpower by lia. reflexivity. }
        pose proof (Z.div_mod (Z.pos m) q ltac:(lia)) as DM. pose proof (Z.mod_pos_bound (Z.pos m) q Q) as MB. set (d := (Z.pos m / q)%Z) in *. set (r := (Z.pos m mod q)%Z) in *.
        assert (0 < IZR q) as Q' by (apply (IZR_lt 0); exact Q). rewrite DM, plus_IZR, mult_IZR.
        replace ((IZR q * IZR d + IZR r) * / IZR q - IZR d) with (IZR r * / IZR q) by (field; lra).
        assert (0 < / IZR q) as Q2 by (apply Rinv_0_lt_compat; exact Q'). split.
        + apply Rmult_le_pos; [apply (IZR_le 0); lia|lra].
        + apply Rmult_lt_reg_r with (IZR q); [exact Q'|]. rewrite Rmult_assoc, Rinv_l by lra. rewrite Rmult_1_r, Rmult_1_l. apply IZR_lt. lia. }
    assert (bpow radix2 20 * bpow radix2 (-20) = 1) as B20 by (rewrite <- bpow_plus; reflexivity). pose proof (bpow_gt_0 radix2 20) as B1. pose proof (bpow_gt_0 radix2 (-20)) as B2.
    assert (F2R (Float radix2 t (-20)) = IZR t * bpow radix2 (-20)) as Ft by reflexivity.
    assert (x - bpow radix2 (-20) <= F2R (Float radix2 t (-20)) <= x) as Near.
    { rewrite Ft. replace x with (x * bpow radix2 20 * bpow radix2 (-20)) by (rewrite Rmult_assoc, B20; ring). 
      split; [apply Rle_trans with ((x * bpow radix2 20 - 1) * bpow radix2 (-20)); [lra|]|]; apply Rmult_le_compat_r; lra. }
    assert (0 <= t)%Z as T0 by (unfold t; apply Z.shiftl_nonneg; lia).
    assert (t <= 2 ^ 20)%Z as T1.
    { apply le_IZR. replace (IZR (2 ^ 20)) with (bpow radix2 20) by (rewrite <- IZR_Zpower by lia; reflexivity). assert (x * bpow radix2 20 <= 1 * bpow radix2 20) by (apply Rmult_le_compat_r; lra). lra. }
    pose proof (binary_normalize_correct 53 1024 FloatFacts.Hp FloatFacts.Hm mode_NE t (-20) false) as E. cbv zeta in E. cbn [round_mode] in E.
    change (SpecFloat.fexp 53 1024) with (FLT_exp (3 - 1024 - 53) 53) in E.
    assert (0 <= F2R (Float radix2 t (-20)) <= 1) as R01 by (split; [rewrite Ft; apply Rmult_le_pos; [apply (IZR_le 0); exact T0|lra]|lra]).
    rewrite no_overflow in E by (split; [apply R01|]; apply Rle_trans with 1; [apply R01|]; change 1 with (bpow radix2 0); apply bpow_le; lia).
    destruct E as [E1 [E2 _]]. eexists. split; [apply normalize_equiv|]. split; [exact E2|]. rewrite E1.
    rewrite round_generic; [|apply valid_rnd_N|].
    + apply Rabs_le. lra.
    + apply generic_format_FLT. exists (Float radix2 t (-20)); [reflexivity| |cbn; lia]. cbn [Fnum]. change (radix2 ^ 53)%Z with (2 ^ 53)%Z. lia.
Qed.
Lemma coarse_binomial_ok : near_binomial (bpow radix2 (-19)) coarse_binomial.
Proof.
  intros p n k F P L. destruct (rounded_binomial_ok p n k F P L) as [c [C1 [C2 C3]]]. pose proof (binomial_range (b2r p) n k P ltac:(lia)) as B.
  pose proof (rnd_error _ B) as R. rewrite <- C3 in R.
  assert (0 <= b2r c <= 1) as B' by (rewrite C3; split; [rewrite <- rnd_0|rewrite <- rnd_1]; apply rnd_le; apply B).
  destruct (cut_value c C2 B') as [d [D1 [D2 D3]]]. exists d. unfold coarse_binomial. rewrite C1. split; [exact D1|]. split; [exact D2|].
  replace (b2r d - binomial (b2r p) n k) with ((b2r d - b2r c) + (b2r c - binomial (b2r p) n k)) by ring. eapply Rle_trans; [apply Rabs_triang|].
  assert (bpow radix2 (-54) <= bpow radix2 (-20)) by (apply bpow_le; lia). 
  assert (bpow radix2 (-19) = 2 * bpow radix2 (-20)) as -> by (change (-19)%Z with (1 + -20)%Z; rewrite bpow_plus; change (bpow radix2 1) with 2; ring). lra.
Qed.
