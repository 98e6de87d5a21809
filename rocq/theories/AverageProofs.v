(** Proofs for C148. *)
From Coq Require Import SpecFloat Reals Lra.
From Flocq Require Import Core BinarySingleNaN Relative.
From Verif Require Import Base BaseFacts MsgpackModel MsgpackProofs CommitteeModel CommitteeSpec FloatFacts CommitteeProofs BinomialSpec BinomialProofs.
Local Open Scope R_scope.

(** ** Sums *)
Lemma below_ext f g : forall k, (forall i, (i < N.of_nat k)%N -> f i = g i) -> below k f = below k g.
Proof. induction k as [|k IH]; intros E; cbn [below]; [reflexivity|]. rewrite IH by (intros i Hi; apply E; lia). rewrite E by lia. reflexivity. Qed.
Lemma below_plus f g k : below k (fun i => f i + g i) = below k f + below k g.
Proof. induction k as [|k IH]; cbn [below]; [ring|]. rewrite IH. ring. Qed.
Lemma below_scal c f k : below k (fun i => c * f i) = c * below k f.
Proof. induction k as [|k IH]; cbn [below]; [ring|]. rewrite IH. ring. Qed.
Lemma below_const c k : below k (fun _ => c) = INR k * c.
Proof. induction k as [|k IH]; [cbn; ring|]. cbn [below]. rewrite IH, S_INR. ring. Qed.
Lemma below_swap f a b : below a (fun i => below b (fun j => f i j)) = below b (fun j => below a (fun i => f i j)).
Proof.
  induction a as [|a IH]; cbn [below].
  - rewrite below_const. ring.
  - rewrite IH, <- below_plus. reflexivity.
Qed.
Lemma below_near f g c : forall k, (forall i, (i < N.of_nat k)%N -> Rabs (f i - g i) <= c) -> Rabs (below k f - below k g) <= INR k * c.
Proof.
  induction k as [|k IH]; intros E.
  - cbn. rewrite Rminus_0_r, Rabs_R0. lra.
  - cbn [below]. specialize (IH ltac:(intros i Hi; apply E; lia)). specialize (E (N.of_nat k) ltac:(lia)). rewrite S_INR.
    replace (below k f + f (N.of_nat k) - (below k g + g (N.of_nat k))) with ((below k f - below k g) + (f (N.of_nat k) - g (N.of_nat k))) by ring.
    eapply Rle_trans; [apply Rabs_triang|]. lra.
Qed.
Lemma below_less w : forall k, (w <= N.of_nat k)%N -> below k (fun i => if (i <? w)%N then 1 else 0) = IZR (Z.of_N w).
Proof.
  induction k as [|k IH]; intros L.
  - assert (w = 0%N) as -> by lia. reflexivity.
  - cbn [below]. destruct (N.ltb_spec (N.of_nat k) w) as [G|G].
    + assert (w = N.of_nat (S k)) as -> by lia. rewrite (below_ext _ (fun _ => 1)).
      * rewrite below_const, INR_IZR_INZ, nat_N_Z. rewrite Nat2Z.inj_succ. unfold Z.succ. rewrite plus_IZR. ring.
      * intros i Hi. destruct (N.ltb_spec i (N.of_nat (S k))); [reflexivity|lia].
    + rewrite IH by exact G. ring.
Qed.
Lemma below_from t k : (t <= N.of_nat k)%N -> below k (fun i => if (t <=? i)%N then 1 else 0) = IZR (Z.of_nat k) - IZR (Z.of_N t).
Proof.
  intros L. rewrite <- (below_less t k L). assert (IZR (Z.of_nat k) = below k (fun _ => 1)) as -> by (rewrite below_const, INR_IZR_INZ; ring).
  assert (forall x y z, z + y = x -> z = x - y) as K by (intros; lra). apply K. rewrite <- below_plus. apply below_ext. intros i _.
  destruct (N.leb_spec t i), (N.ltb_spec i t); try lia; ring.
Qed.

(** ** The mean of the distribution *)
Lemma below_sum f : forall k, below (S k) f = sum_f_R0 (fun i => f (N.of_nat i)) k.
Proof. induction k as [|k IH]; [cbn; ring|]. cbn [sum_f_R0]. rewrite <- IH. reflexivity. Qed.
Lemma mean p : forall n, below n (fun i => 1 - sum_f_R0 (successes p n) (N.to_nat i)) = INR n * p.
Proof.
  induction n as [|n IH]; [cbn; ring|].
  rewrite (below_ext _ (fun i => (1 - sum_f_R0 (successes p n) (N.to_nat i)) + p * successes p n (N.to_nat i))).
  - rewrite below_plus, below_scal. cbn [below]. rewrite IH, Nat2N.id, sum_all.
    replace (below n (fun i => successes p n (N.to_nat i)) + successes p n n) with (below (S n) (fun i => successes p n (N.to_nat i))) by (cbn [below]; rewrite Nat2N.id; reflexivity).
    rewrite below_sum. rewrite (sum_eq _ (successes p n)) by (intros i _; rewrite Nat2N.id; reflexivity). rewrite sum_all, S_INR. ring.
  - intros i Hi. rewrite sum_S by lia. ring.
Qed.

(** ** Thresholds *)
Lemma threshold (P : N -> Prop) : (forall v, {P v} + {~ P v}) -> (forall u v, (u <= v)%N -> P v -> P u) ->
  forall m, exists t, (t <= m)%N /\ forall v, (v < m)%N -> (P v <-> (v < t)%N).
Proof.
  intros Dec Down. apply N.peano_ind.
  - exists 0%N. split; [lia|]. intros v Hv. lia.
  - intros m [t [T1 T2]]. destruct (Dec m) as [Y|No].
    + exists (N.succ m). split; [lia|]. intros v Hv. split; [intros _; exact Hv|]. intros _. apply (Down v m); [lia|exact Y].
    + exists t. split; [lia|]. intros v Hv. destruct (N.eq_dec v m) as [->|Ne].
      * split; [contradiction|lia].
      * apply T2. lia.
Qed.
Lemma half_53 : bpow radix2 (-53) = 2 * bpow radix2 (-54).
Proof. change (-53)%Z with (1 + -54)%Z. rewrite bpow_plus. change (bpow radix2 1) with 2. ring. Qed.
Lemma half_52 : bpow radix2 (-52) = 2 * bpow radix2 (-53).
Proof. change (-52)%Z with (1 + -53)%Z. rewrite bpow_plus. change (bpow radix2 1) with 2. ring. Qed.
(** Counting the fractions whose rounding is at most that of [b]. *)
Lemma count_close m t b : (1 < m)%N -> / IZR (Z.of_N m) <= bpow radix2 (-53) -> 0 <= b <= 1 -> (t <= m)%N ->
  (forall v, (v < m)%N -> (rnd (IZR (Z.of_N v) / IZR (Z.of_N (m - 1))) <= rnd b <-> (v < t)%N)) ->
  Rabs (IZR (Z.of_N t) / IZR (Z.of_N m) - b) <= bpow radix2 (-52).
Proof.
  intros Hm Small B Ht T. set (x := IZR (Z.of_N m)) in *. assert (IZR (Z.of_N (m - 1)) = x - 1) as X1.
  { unfold x. rewrite N2Z.inj_sub by lia. rewrite minus_IZR. reflexivity. }
  assert (2 <= x) as X2 by (apply IZR_le; lia).
  assert (forall v, (v < m)%N -> 0 <= IZR (Z.of_N v) / IZR (Z.of_N (m - 1)) <= 1) as Range.
  { intros v Hv. rewrite X1. assert (IZR (Z.of_N v) <= x - 1) by (rewrite <- X1; apply IZR_le; lia). pose proof (IZR_N v). split.
    - apply Rmult_le_pos; [assumption|]. left. apply Rinv_0_lt_compat. lra.
    - apply Rmult_le_reg_r with (x - 1); [lra|]. unfold Rdiv. rewrite Rmult_assoc, Rinv_l by lra. lra. }
  pose proof (rnd_error b B) as EB. apply Rabs_le_inv in EB. pose proof half_53 as H53. pose proof half_52 as H52.
  assert (0 < t)%N as T0.
  { apply T; [lia|]. apply rnd_le. change (IZR (Z.of_N 0)) with 0. unfold Rdiv. rewrite Rmult_0_l. apply B. }
  set (y := IZR (Z.of_N t)). assert (IZR (Z.of_N (t - 1)) = y - 1) as Y1.
  { unfold y. rewrite N2Z.inj_sub by lia. rewrite minus_IZR. reflexivity. }
  assert (1 <= y) as Y2 by (apply (IZR_le 1); lia). assert (y <= x) as Y3 by (apply IZR_le; lia).
  assert (0 < / x) as X0 by (apply Rinv_0_lt_compat; lra). 
  (* the last number that counts *)
  assert (y / x <= b + 2 * bpow radix2 (-54) + / x) as Upper.
  { assert (t - 1 < m)%N as V by lia. pose proof (proj2 (T _ V) ltac:(lia)) as K. pose proof (rnd_error _ (Range _ V)) as E. apply Rabs_le_inv in E. rewrite X1, Y1 in *.
    assert (y / x - / x <= (y - 1) / (x - 1)); [|lra].
    replace (y / x - / x) with ((y - 1) / x) by (field; lra). apply Rmult_le_compat_l; [lra|]. apply Rinv_le; lra. }
  assert (b <= y / x + 2 * bpow radix2 (-54) + / x) as Lower.
  { destruct (N.eq_dec t m) as [E|Ne].
    - assert (y / x = 1) as -> by (unfold y, x; rewrite E; apply Rinv_r; fold x; lra). pose proof (bpow_ge_0 radix2 (-54)). lra.
    - assert (t < m)%N as V by lia. assert (~ rnd (IZR (Z.of_N t) / IZR (Z.of_N (m - 1))) <= rnd b) as K by (rewrite (T t V); lia).
      pose proof (rnd_error _ (Range _ V)) as E. apply Rabs_le_inv in E. rewrite X1 in *. fold y in K, E.
      assert (y / (x - 1) <= y / x + / x); [|lra].
      assert (y <= x - 1) as Y4 by (rewrite <- X1; apply IZR_le; lia).
      apply Rmult_le_reg_r with (x * (x - 1)); [apply Rmult_lt_0_compat; lra|].
      replace (y / (x - 1) * (x * (x - 1))) with (y * x) by (field; lra). replace ((y / x + / x) * (x * (x - 1))) with (y * x - y + (x - 1)) by (field; lra). lra. }
  apply Rabs_le. rewrite half_52. split; lra.
Qed.
Lemma small_256 : / IZR (Z.of_N (2 ^ 256)) <= bpow radix2 (-53).
Proof.
  replace (IZR (Z.of_N (2 ^ 256))) with (bpow radix2 256).
  - rewrite <- bpow_opp. apply bpow_le. lia.
  - rewrite <- IZR_Zpower by lia. reflexivity.
Qed.

Section Average.
Variable cdf : f64 -> N -> N -> f64.
Hypothesis exact_cdf : computes_binomial cdf.
Variables (money total e : N).
Hypotheses (Ht : (0 < total)%N) (He : (e <= total)%N) (Hb : (total <= 2 ^ 64)%N).

Lemma fraction_be v : (v < 2 ^ 256)%N -> fraction (be 32 v) = IZR (Z.of_N v) / IZR (Z.of_N (2 ^ 256 - 1)).
Proof. intros Hv. unfold fraction. rewrite be_val_be; [reflexivity|]. change (256 ^ N.of_nat 32)%N with (2 ^ 256)%N. exact Hv. Qed.
Lemma sum_mono p n i j : 0 <= p <= 1 -> (i <= j)%nat -> sum_f_R0 (successes p n) i <= sum_f_R0 (successes p n) j.
Proof. intros P L. induction L as [|j L IH]; [lra|]. cbn [sum_f_R0]. pose proof (successes_pos p n (S j) P). lra. Qed.
Lemma weight_split hash w i : length hash = 32%nat -> select cdf money total (u64_as_f64 e) hash = Some w -> (i < money)%N ->
  ((w <= i)%N <-> rnd (fraction hash) <= rnd (binomial (draw e total) money i)).
Proof.
  intros L E Hi. destruct (select_binomial cdf exact_cdf money total e hash Ht He Hb L) as [w' [E' [A [B D]]]]. assert (w' = w) by congruence. subst w'. split.
  - intros Hw. destruct (D ltac:(lia)) as [_ K]. apply Rle_trans with (1 := K). apply rnd_le. apply sum_mono; [apply draw_range; assumption|lia].
  - intros K. destruct (N.le_gt_cases w i) as [|G]; [assumption|]. exfalso. exact (B i G (conj Hi K)).
Qed.
Lemma distribution i : (i < money)%N ->
  exists t, (t <= 2 ^ 256)%N /\
    (forall hash w, length hash = 32%nat -> select cdf money total (u64_as_f64 e) hash = Some w -> ((w <= i)%N <-> (be_val hash < t)%N)) /\
    Rabs (IZR (Z.of_N t) / IZR (Z.of_N (2 ^ 256)) - binomial (draw e total) money i) <= bpow radix2 (-52).
Proof.
  intros Hi. set (b := binomial (draw e total) money i).
  destruct (threshold (fun v => rnd (IZR (Z.of_N v) / IZR (Z.of_N (2 ^ 256 - 1))) <= rnd b) (fun v => Rle_dec _ _)) with (m := (2 ^ 256)%N) as [t [T1 T2]].
  { intros u v L K. apply Rle_trans with (2 := K). apply rnd_le. apply Rmult_le_compat_r; [|apply IZR_le; lia]. left. apply Rinv_0_lt_compat. apply (IZR_lt 0). reflexivity. }
  exists t. split; [exact T1|]. split.
  - intros hash w L E. rewrite <- T2 by (pose proof (output_bound hash L) as O; unfold max_output in O; pose proof max_output_pos as O1; unfold max_output in O1; lia). exact (weight_split hash w i L E Hi).
  - apply count_close; [reflexivity|exact small_256|apply binomial_range; [apply draw_range; assumption|lia]|exact T1|exact T2].
Qed.

Lemma weight_at_value v : exists w, select cdf money total (u64_as_f64 e) (be 32 v) = Some w /\ weight_at cdf money total e v = w /\ (w <= money)%N.
Proof.
  destruct (select_binomial cdf exact_cdf money total e (be 32 v) Ht He Hb (be_length 32 v)) as [w [E [A _]]]. exists w. split; [exact E|]. split; [|exact A].
  unfold weight_at. rewrite E. reflexivity.
Qed.
(** Sums over a number of values [m] that is only known to be below [2 ^ 256]: nothing is computed. *)
Lemma layers m : (m <= 2 ^ 256)%N -> (forall i, (i < money)%N -> exists t, (t <= m)%N /\ (forall v, (v < m)%N -> ((weight_at cdf money total e v <= i)%N <-> (v < t)%N)) /\
    Rabs (IZR (Z.of_N t) / IZR (Z.of_N m) - binomial (draw e total) money i) <= bpow radix2 (-52)) -> (0 < m)%N ->
  Rabs (average m (fun v => IZR (Z.of_N (weight_at cdf money total e v))) - INR (N.to_nat money) * draw e total) <= INR (N.to_nat money) * bpow radix2 (-52).
Proof.
  intros Hm T M0. unfold average. assert (0 < IZR (Z.of_N m)) as X by (apply (IZR_lt 0); lia).
  rewrite (below_ext _ (fun v => below (N.to_nat money) (fun i => if (i <? weight_at cdf money total e v)%N then 1 else 0))).
  2:{ intros v _. symmetry. apply below_less. rewrite N2Nat.id. destruct (weight_at_value v) as [w [_ [-> L]]]. exact L. }
  rewrite below_swap. unfold Rdiv. rewrite Rmult_comm, <- below_scal. rewrite <- (mean (draw e total) (N.to_nat money)).
  apply below_near. intros i Hi. rewrite N2Nat.id in Hi. destruct (T i Hi) as [t [T1 [T2 T3]]].
  rewrite (below_ext _ (fun v => if (t <=? v)%N then 1 else 0)).
  - rewrite below_from by (rewrite N2Nat.id; exact T1). rewrite N_nat_Z.
    replace (/ IZR (Z.of_N m) * (IZR (Z.of_N m) - IZR (Z.of_N t))) with (1 - IZR (Z.of_N t) / IZR (Z.of_N m)) by (field; lra).
    fold (binomial (draw e total) money i). 
    match goal with |- Rabs ?a <= _ => replace a with (- (IZR (Z.of_N t) / IZR (Z.of_N m) - binomial (draw e total) money i)) by ring end.
    rewrite Rabs_Ropp. exact T3.
  - intros v Hv. rewrite N2Nat.id in Hv. specialize (T2 v Hv). destruct (N.ltb_spec i (weight_at cdf money total e v)), (N.leb_spec t v); try reflexivity; exfalso; lia.
Qed.
Lemma average_close : Rabs (average_weight cdf money total e - IZR (Z.of_N money) * draw e total) <= IZR (Z.of_N money) * bpow radix2 (-52).
Proof.
  assert (IZR (Z.of_N money) = INR (N.to_nat money)) as -> by (rewrite INR_IZR_INZ, N_nat_Z; reflexivity).
  unfold average_weight. apply layers; [apply N.le_refl| |reflexivity]. intros i Hi. destruct (distribution i Hi) as [t [T1 [T2 T3]]]. exists t. split; [exact T1|]. split; [|exact T3].
  intros v Hv. destruct (weight_at_value v) as [w [E [-> _]]]. rewrite (T2 _ _ (be_length 32 v) E). rewrite be_val_be; [reflexivity|]. change (256 ^ N.of_nat 32)%N with (2 ^ 256)%N. exact Hv.
Qed.
End Average.

(** ** The size of the committee *)
Lemma rnd_relative x : bpow radix2 (-1022) <= x -> Rabs (rnd x - x) <= bpow radix2 (-53) * x.
Proof.
  intros X. pose proof (bpow_ge_0 radix2 (-1022)).
  pose proof (relative_error_N_FLT radix2 (3 - 1024 - 53) 53 ltac:(reflexivity) (fun z => negb (Z.even z)) x) as R.
  rewrite (Rabs_pos_eq x) in R by lra. specialize (R ltac:(exact X)). eapply Rle_trans; [exact R|]. apply Rmult_le_compat_r; [lra|].
  replace (bpow radix2 (-53)) with (/ 2 * bpow radix2 (-52)) by (rewrite half_52; field). apply Rle_refl.
Qed.
Lemma draw_close e total : (0 < e)%N -> (0 < total)%N -> (e <= total)%N -> (total <= 2 ^ 64)%N ->
  Rabs (IZR (Z.of_N total) * draw e total - IZR (Z.of_N e)) <= IZR (Z.of_N e) * (2 * bpow radix2 (-52)).
Proof.
  intros E0 T0 ET TB. unfold draw. set (x := IZR (Z.of_N e)). set (y := IZR (Z.of_N total)).
  assert (1 <= x) as X1 by (apply (IZR_le 1); lia). assert (1 <= y) as Y1 by (apply (IZR_le 1); lia).
  assert (y <= bpow radix2 64) as Y2 by (rewrite <- (IZR_Zpower radix2) by lia; apply IZR_le; change (Z.of_N total <= 2 ^ 64)%Z; lia).
  assert (bpow radix2 (-1022) <= 1) as B1 by (change 1 with (bpow radix2 0); apply bpow_le; lia).
  set (u := bpow radix2 (-53)) in *. assert (0 < u) as U0 by apply bpow_gt_0. assert (u <= / 16) as U1 by (change (/ 16) with (bpow radix2 (-4)); apply bpow_le; lia).
  pose proof (rnd_relative x ltac:(lra)) as Rx. pose proof (rnd_relative y ltac:(lra)) as Ry. fold u in Rx, Ry.
  set (a := rnd x) in *. set (b := rnd y) in *. apply Rabs_le_inv in Rx. apply Rabs_le_inv in Ry.
  assert (1 <= a) as A1 by (unfold a; rewrite <- rnd_1; apply rnd_le; exact X1).
  assert (1 <= b) as A2 by (unfold b; rewrite <- rnd_1; apply rnd_le; exact Y1).
  assert (b <= bpow radix2 64) as A3 by (unfold b; rewrite <- (round_generic radix2 (FLT_exp (3 - 1024 - 53) 53) ZnearestE (bpow radix2 64)) by (apply format_bpow; lia); apply rnd_le; exact Y2).
  assert (bpow radix2 (-1022) <= a / b) as Q.
  { apply Rle_trans with (bpow radix2 (-64)); [apply bpow_le; lia|]. change (-64)%Z with (- (64))%Z. rewrite bpow_opp. 
    apply Rle_trans with (/ b); [apply Rinv_le; lra|]. unfold Rdiv. rewrite <- (Rmult_1_l (/ b)) at 1. apply Rmult_le_compat_r; [left; apply Rinv_0_lt_compat; lra|exact A1]. }
  pose proof (rnd_relative _ Q) as Rq. fold u in Rq. set (q := rnd (a / b)) in *. apply Rabs_le_inv in Rq.
  rewrite half_52. fold u.
  assert (y * (a / b) <= x * (1 + u) / (1 - u)) as K1.
  { apply Rmult_le_reg_r with (b * (1 - u)); [apply Rmult_lt_0_compat; lra|]. replace (y * (a / b) * (b * (1 - u))) with (a * (y * (1 - u))) by (field; lra).
    replace (x * (1 + u) / (1 - u) * (b * (1 - u))) with ((x * (1 + u)) * b) by (field; lra). 
    assert (y * (1 - u) <= b) by lra. assert (a <= x * (1 + u)) by lra. assert (0 <= y * (1 - u)) by (apply Rmult_le_pos; lra). apply Rmult_le_compat; lra. }
  assert (x * (1 - u) / (1 + u) <= y * (a / b)) as K2.
  { apply Rmult_le_reg_r with (b * (1 + u)); [apply Rmult_lt_0_compat; lra|]. replace (y * (a / b) * (b * (1 + u))) with (a * (y * (1 + u))) by (field; lra).
    replace (x * (1 - u) / (1 + u) * (b * (1 + u))) with ((x * (1 - u)) * b) by (field; lra).
    assert (b <= y * (1 + u)) by lra. assert (x * (1 - u) <= a) by lra. assert (0 <= x * (1 - u)) by (apply Rmult_le_pos; lra). apply Rmult_le_compat; lra. }
  set (z := a / b) in *. assert (0 <= z) as Z0 by (pose proof (bpow_ge_0 radix2 (-1022)); lra).
  assert (y * q <= y * z * (1 + u)) as K3 by (rewrite Rmult_assoc; apply Rmult_le_compat_l; lra).
  assert (y * z * (1 - u) <= y * q) as K4 by (rewrite Rmult_assoc; apply Rmult_le_compat_l; lra).
  assert (y * z * (1 + u) <= x * (1 + 4 * u)) as K5.
  { apply Rle_trans with (x * (1 + u) / (1 - u) * (1 + u)); [apply Rmult_le_compat_r; lra|]. 
    replace (x * (1 + u) / (1 - u) * (1 + u)) with (x * ((1 + u) * (1 + u) / (1 - u))) by (field; lra). apply Rmult_le_compat_l; [lra|].
    apply Rmult_le_reg_r with (1 - u); [lra|]. replace ((1 + u) * (1 + u) / (1 - u) * (1 - u)) with ((1 + u) * (1 + u)) by (field; lra).
    assert (0 <= u * (1 - 5 * u)) by (apply Rmult_le_pos; lra). lra. }
  assert (x * (1 - 4 * u) <= y * z * (1 - u)) as K6.
  { apply Rle_trans with (x * (1 - u) / (1 + u) * (1 - u)); [|apply Rmult_le_compat_r; lra].
    replace (x * (1 - u) / (1 + u) * (1 - u)) with (x * ((1 - u) * (1 - u) / (1 + u))) by (field; lra). apply Rmult_le_compat_l; [lra|].
    apply Rmult_le_reg_r with (1 + u); [lra|]. replace ((1 - u) * (1 - u) / (1 + u) * (1 + u)) with ((1 - u) * (1 - u)) by (field; lra).
    assert (0 <= u * (1 + 5 * u)) by (apply Rmult_le_pos; lra). lra. }
  apply Rabs_le. lra.
Qed.
Lemma committee_close cdf accounts e : computes_binomial cdf -> (0 < e)%N -> (e <= all_money accounts)%N -> (all_money accounts <= 2 ^ 64)%N ->
  Rabs (average_committee cdf accounts e - IZR (Z.of_N e)) <= (IZR (Z.of_N (all_money accounts)) + 2 * IZR (Z.of_N e)) * bpow radix2 (-52).
Proof.
  intros X E0 ET TB. unfold average_committee. set (total := all_money accounts) in *. 
  assert (forall l, Rabs (fold_right Rplus 0 (map (fun money => average_weight cdf money total e) l) - IZR (Z.of_N (all_money l)) * draw e total) <= IZR (Z.of_N (all_money l)) * bpow radix2 (-52)) as K.
  { induction l as [|money l IH].
    - cbn. rewrite !Rmult_0_l, Rminus_0_r, Rabs_R0. lra.
    - cbn [map fold_right all_money]. fold (all_money l). rewrite N2Z.inj_add, plus_IZR. pose proof (average_close cdf X money total e ltac:(lia) ET TB) as A.
      match goal with |- Rabs ?t <= _ => match type of A with Rabs ?a <= _ => match type of IH with Rabs ?b <= _ => replace t with (a + b) by ring end end end.
      eapply Rle_trans; [apply Rabs_triang|]. lra. }
  specialize (K accounts). fold total in K. pose proof (draw_close e total E0 ltac:(lia) ET TB) as D.
  match goal with |- Rabs ?t <= _ => match type of K with Rabs ?a <= _ => match type of D with Rabs ?b <= _ => replace t with (a + b) by ring end end end.
  eapply Rle_trans; [apply Rabs_triang|]. lra.
Qed.
