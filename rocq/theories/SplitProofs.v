(** Proofs for C154. *)
From Coq Require Import Reals Lra.
From Flocq Require Import Core BinarySingleNaN.
From Verif Require Import Base BaseFacts MsgpackModel MsgpackProofs CommitteeModel FloatFacts BinomialSpec BinomialProofs AverageProofs NearProofs SplitSpec.
Local Open Scope R_scope.

(** ** One more trial, as an operation on distribution functions *)
Definition trial (p : R) (A : nat -> R) (i : nat) : R := (1 - p) * A i + p * match i with O => 0 | S j => A j end.
Fixpoint trials (p : R) (n : nat) (A : nat -> R) : nat -> R := match n with O => A | S n' => trial p (trials p n' A) end.
Definition mass (p : R) (n i : nat) : R := if Nat.leb i n then successes p n i else 0.
Lemma trial_ext p A B i : (forall j, A j = B j) -> trial p A i = trial p B i.
Proof. intros E. unfold trial. rewrite (E i). destruct i as [|i]; [reflexivity|]. rewrite (E i). reflexivity. Qed.
Lemma trials_add p n m A i : trials p (n + m) A i = trials p n (trials p m A) i.
Proof. revert i. induction n as [|n IH]; intros i; [reflexivity|]. cbn [trials plus]. apply trial_ext. exact IH. Qed.
Lemma trials_near p n A B c i : 0 <= p <= 1 -> 0 <= c -> (forall j, Rabs (A j - B j) <= c) -> Rabs (trials p n A i - trials p n B i) <= c.
Proof.
  intros P C0 X. revert i. induction n as [|n IH]; intros i; [apply X|]. cbn [trials]. unfold trial.
  pose proof (IH i) as X1. destruct i as [|i].
  - replace ((1 - p) * trials p n A 0 + p * 0 - ((1 - p) * trials p n B 0 + p * 0)) with ((1 - p) * (trials p n A 0%nat - trials p n B 0%nat)) by ring.
    rewrite Rabs_mult, (Rabs_pos_eq (1 - p)) by lra. pose proof (Rabs_pos (trials p n A 0%nat - trials p n B 0%nat)). nra.
  - pose proof (IH i) as X2.
    replace ((1 - p) * trials p n A (S i) + p * trials p n A i - ((1 - p) * trials p n B (S i) + p * trials p n B i)) with ((1 - p) * (trials p n A (S i) - trials p n B (S i)) + p * (trials p n A i - trials p n B i)) by ring.
    eapply Rle_trans; [apply Rabs_triang|]. rewrite !Rabs_mult, (Rabs_pos_eq (1 - p)), (Rabs_pos_eq p) by lra. nra.
Qed.
Lemma mass_0 p n : mass p (S n) 0 = (1 - p) * mass p n 0.
Proof. unfold mass. cbn. apply successes_0. Qed.
Lemma mass_S p n i : mass p (S n) (S i) = (1 - p) * mass p n (S i) + p * mass p n i.
Proof.
  unfold mass. change (Nat.leb (S i) (S n)) with (Nat.leb i n). destruct (Nat.leb_spec i n) as [L|L].
  - destruct (Nat.leb_spec (S i) n) as [L'|L'].
    + rewrite successes_S by lia. ring.
    + replace i with n by lia. rewrite successes_n. ring.
  - destruct (Nat.leb_spec (S i) n); [lia|]. ring.
Qed.
Lemma trials_sum p n A : forall i, trials p n A i = sum_f_R0 (fun j => mass p n j * A (i - j)%nat) i.
Proof.
  induction n as [|n IH]; intros i.
  - cbn [trials]. assert (forall k, (k <= i)%nat -> sum_f_R0 (fun j => mass p 0 j * A (i - j)%nat) k = A i) as X.
    { induction k as [|k IH]; intros L.
      - cbn [sum_f_R0]. unfold mass, successes. cbn [Nat.leb]. rewrite C_0, !Nat.sub_0_r. cbn [pow]. ring.
      - cbn [sum_f_R0]. rewrite IH by lia. unfold mass. cbn [Nat.leb]. ring. }
    symmetry. apply X. lia.
  - cbn [trials]. unfold trial. destruct i as [|i].
    + rewrite IH. cbn [sum_f_R0]. rewrite mass_0. ring.
    + rewrite !IH. rewrite (decomp_sum (fun j => mass p n j * A (S i - j)%nat)) by lia. rewrite (decomp_sum (fun j => mass p (S n) j * A (S i - j)%nat)) by lia.
      cbn [pred]. rewrite mass_0. rewrite (sum_eq (fun j => mass p (S n) (S j) * A (S i - S j)%nat) (fun j => (1 - p) * (mass p n (S j) * A (S i - S j)%nat) + p * (mass p n j * A (i - j)%nat))).
      * rewrite sum_plus. rewrite <- (sum_eq (fun j => mass p n (S j) * A (S i - S j)%nat * (1 - p)) (fun j => (1 - p) * (mass p n (S j) * A (S i - S j)%nat))) by (intros; ring).
        rewrite <- (sum_eq (fun j => mass p n j * A (i - j)%nat * p) (fun j => p * (mass p n j * A (i - j)%nat))) by (intros; ring). rewrite <- !scal_sum. change (Init.Nat.pred (S i)) with i. ring.
      * intros j _. rewrite mass_S. cbn [Nat.sub]. ring.
Qed.

Definition upto (p : R) (n i : nat) : R := trials p n (fun _ => 1) i.
Lemma upto_all p n : forall i, (n <= i)%nat -> upto p n i = 1.
Proof.
  unfold upto. induction n as [|n IH]; intros i L; [reflexivity|]. cbn [trials]. unfold trial. rewrite IH by lia. destruct i as [|i]; [lia|]. rewrite IH by lia. ring.
Qed.
Lemma upto_mass p n i : upto p n i = sum_f_R0 (mass p n) i.
Proof. unfold upto. rewrite trials_sum. apply sum_eq. intros. ring. Qed.
Lemma upto_binomial p n i : (i <= n)%N -> upto p (N.to_nat n) (N.to_nat i) = binomial p n i.
Proof. intros L. rewrite upto_mass. unfold binomial. apply sum_eq. intros j J. unfold mass. destruct (Nat.leb_spec j (N.to_nat n)); [reflexivity|lia]. Qed.

(** ** Averages *)
Lemma average_near m f g c : (0 < m)%N -> (forall v, (v < m)%N -> Rabs (f v - g v) <= c) -> Rabs (average m f - average m g) <= c.
Proof.
  intros M X. unfold average. assert (0 < IZR (Z.of_N m)) as M' by (apply IZR_lt; lia).
  pose proof (below_near f g c (N.to_nat m) ltac:(rewrite N2Nat.id; exact X)) as Y. rewrite INR_IZR_INZ, N_nat_Z in Y.
  replace (below (N.to_nat m) f / IZR (Z.of_N m) - below (N.to_nat m) g / IZR (Z.of_N m)) with ((below (N.to_nat m) f - below (N.to_nat m) g) / IZR (Z.of_N m)) by (field; lra).
  unfold Rdiv. rewrite Rabs_mult, (Rabs_pos_eq (/ IZR (Z.of_N m))) by (left; apply Rinv_0_lt_compat; exact M').
  apply Rmult_le_reg_r with (IZR (Z.of_N m)); [exact M'|]. rewrite Rmult_assoc, Rinv_l, Rmult_1_r by lra. lra.
Qed.
Lemma average_ext m f g : (forall v, (v < m)%N -> f v = g v) -> average m f = average m g.
Proof. intros X. unfold average. f_equal. apply below_ext. rewrite N2Nat.id. exact X. Qed.
Lemma average_sum m b (f : nat -> N -> R) i : average m (fun v => sum_f_R0 (fun j => b j * f j v) i) = sum_f_R0 (fun j => b j * average m (f j)) i.
Proof.
  unfold average. induction i as [|i IH]; cbn [sum_f_R0].
  - rewrite below_scal. unfold Rdiv. ring.
  - rewrite below_plus, below_scal. unfold Rdiv in *. rewrite Rmult_plus_distr_r, IH. ring.
Qed.
Lemma average_share m t (P : N -> bool) : (0 < m)%N -> (t <= m)%N -> (forall v, (v < m)%N -> P v = true <-> (v < t)%N) -> average m (fun v => if P v then 1 else 0) = IZR (Z.of_N t) / IZR (Z.of_N m).
Proof.
  intros M T X. unfold average. f_equal. rewrite <- (below_less t (N.to_nat m)) by lia. apply below_ext. intros v V. rewrite N2Nat.id in V. specialize (X v V).
  destruct (N.ltb_spec v t), (P v); try reflexivity; exfalso; [assert (false = true) by (apply X; assumption); discriminate|assert (v < t)%N by (apply X; reflexivity); lia].
Qed.
Lemma split_sum (b : nat -> R) w : forall i, (if (w <=? i)%nat then sum_f_R0 b (i - w) else 0) = sum_f_R0 (fun j => b j * (if (w <=? i - j)%nat then 1 else 0)) i.
Proof.
  intros i. destruct (Nat.leb_spec w i) as [L|L].
  - assert (forall k, (i - w + k <= i)%nat -> sum_f_R0 (fun j => b j * (if (w <=? i - j)%nat then 1 else 0)) (i - w + k) = sum_f_R0 b (i - w)) as X.
    { induction k as [|k IH]; intros K.
      - rewrite Nat.add_0_r. apply sum_eq. intros j J. destruct (Nat.leb_spec w (i - j)); [ring|lia].
      - rewrite Nat.add_succ_r. cbn [sum_f_R0]. rewrite IH by lia. destruct (Nat.leb_spec w (i - S (i - w + k))); [lia|ring]. }
    rewrite <- (X w) by lia. f_equal. lia.
  - symmetry. apply sum_eq_R0. intros j J. destruct (Nat.leb_spec w (i - j)); [lia|ring].
Qed.

(** ** Many accounts *)
Section Split.
Variables (eps : R) (cdf : f64 -> N -> N -> f64).
Hypothesis near : near_binomial eps cdf.
Variables (total e : N).
Hypotheses (Ht : (0 < total)%N) (He : (e <= total)%N) (Hb : (total <= 2 ^ 64)%N).
Let p := draw e total.
Let d := eps + bpow radix2 (-53).
Lemma eps_nonneg : 0 <= eps.
Proof.
  destruct (near (B754_zero false) 1%N 0%N ltac:(reflexivity) ltac:(cbn; lra) ltac:(reflexivity)) as (c & _ & _ & X). pose proof (Rabs_pos (b2r c - binomial (b2r (B754_zero false)) 1%N 0%N)). lra.
Qed.
Lemma d_nonneg : 0 <= d.
Proof. unfold d. pose proof eps_nonneg. pose proof (bpow_ge_0 radix2 (-53)). lra. Qed.
Definition share (money : N) (k : nat) : R := average (2 ^ 256) (fun v => if (weight_at cdf money total e v <=? N.of_nat k)%N then 1 else 0).
Lemma share_near money k : Rabs (share money k - upto p (N.to_nat money) k) <= d.
Proof.
  destruct (N.le_gt_cases money (N.of_nat k)) as [L|L].
  - rewrite upto_all by lia. unfold share. rewrite (average_ext _ _ (fun v => if (v <? 2 ^ 256)%N then 1 else 0)).
    + rewrite (average_share (2 ^ 256) (2 ^ 256)) by (try (intros v V; rewrite N.ltb_lt; tauto); lia). unfold Rdiv. rewrite Rinv_r by (apply not_0_IZR; lia). rewrite Rminus_diag_eq by reflexivity. rewrite Rabs_R0. apply d_nonneg.
    + intros v V. destruct (near_weight_at eps cdf near money total e Ht He Hb v) as (w & _ & -> & W). destruct (N.leb_spec w (N.of_nat k)); [|lia]. destruct (N.ltb_spec v (2 ^ 256)); [reflexivity|lia].
  - destruct (near_distribution eps cdf near money total e Ht He Hb (N.of_nat k) L) as (t & T & S1 & S2). unfold share. rewrite (average_share (2 ^ 256) t); [|lia|exact T|].
    + rewrite <- (Nat2N.id k) at 1. rewrite upto_binomial by lia. exact S2.
    + intros v V. rewrite N.leb_le. destruct (near_weight_at eps cdf near money total e Ht He Hb v) as (w & E & -> & _).
      rewrite (S1 (be 32 v) w); [|exact (be_length 32 v)|exact E]. rewrite be_val_be; [reflexivity|]. change (256 ^ N.of_nat 32)%N with (2 ^ 256)%N. exact V.
Qed.
Lemma drawn_near : forall accounts i, Rabs (drawn_at_most cdf total e accounts i - upto p (N.to_nat (all_money accounts)) (N.to_nat i)) <= INR (length accounts) * d.
Proof.
  pose proof (draw_range e total Ht He Hb) as P. fold p in P.
  induction accounts as [|money rest IH]; intros i.
  - cbn [drawn_at_most all_money fold_right length INR]. rewrite upto_all by lia. rewrite Rminus_diag_eq by reflexivity. rewrite Rabs_R0. lra.
  - cbn [drawn_at_most length]. rewrite S_INR. set (G := fun j => upto p (N.to_nat (all_money rest)) j).
    set (mid := average (2 ^ 256) (fun v => let w := weight_at cdf money total e v in if (w <=? i)%N then G (N.to_nat (i - w)) else 0)).
    set (D := average (2 ^ 256) (fun v => let w := weight_at cdf money total e v in if (w <=? i)%N then drawn_at_most cdf total e rest (i - w) else 0)).
    assert (Rabs (D - mid) <= INR (length rest) * d) as X1.
    { unfold D, mid. apply average_near; [reflexivity|]. intros v _. cbv zeta. destruct (N.leb_spec (weight_at cdf money total e v) i); [apply IH|].
      rewrite Rminus_diag_eq by reflexivity. rewrite Rabs_R0. apply Rmult_le_pos; [apply pos_INR|apply d_nonneg]. }
    assert (mid = trials p (N.to_nat (all_money rest)) (share money) (N.to_nat i)) as X2.
    { unfold mid. rewrite trials_sum. unfold share. rewrite <- (average_sum (2 ^ 256) (mass p (N.to_nat (all_money rest))) (fun j v => if (weight_at cdf money total e v <=? N.of_nat (N.to_nat i - j))%N then 1 else 0)).
      apply average_ext. intros v _. cbv zeta. set (w := weight_at cdf money total e v). unfold G. rewrite upto_mass. rewrite N2Nat.inj_sub.
      transitivity (if (N.to_nat w <=? N.to_nat i)%nat then sum_f_R0 (mass p (N.to_nat (all_money rest))) (N.to_nat i - N.to_nat w) else 0).
      - destruct (N.leb_spec w i), (Nat.leb_spec (N.to_nat w) (N.to_nat i)); try reflexivity; lia.
      - rewrite split_sum. apply sum_eq. intros j J. f_equal. destruct (Nat.leb_spec (N.to_nat w) (N.to_nat i - j)), (N.leb_spec w (N.of_nat (N.to_nat i - j))); try reflexivity; lia. }
    assert (Rabs (mid - upto p (N.to_nat (all_money (money :: rest))) (N.to_nat i)) <= d) as X3.
    { rewrite X2. change (all_money (money :: rest)) with (money + all_money rest)%N. rewrite N2Nat.inj_add, Nat.add_comm. unfold upto. rewrite trials_add.
      apply trials_near; [exact P|apply d_nonneg|]. intros j. exact (share_near money j). }
    replace (D - upto p (N.to_nat (all_money (money :: rest))) (N.to_nat i)) with ((D - mid) + (mid - upto p (N.to_nat (all_money (money :: rest))) (N.to_nat i))) by ring.
    eapply Rle_trans; [apply Rabs_triang|]. lra.
Qed.
End Split.
Lemma drawn_binomial eps cdf total e accounts i : near_binomial eps cdf -> (0 < total)%N -> (e <= total)%N -> (total <= 2 ^ 64)%N -> (i <= all_money accounts)%N ->
  Rabs (drawn_at_most cdf total e accounts i - binomial (draw e total) (all_money accounts) i) <= INR (length accounts) * (eps + bpow radix2 (-53)).
Proof. intros X Ht He Hb L. rewrite <- upto_binomial by exact L. exact (drawn_near eps cdf X total e Ht He Hb accounts i). Qed.
Lemma drawn_split eps cdf total e accounts accounts' i : near_binomial eps cdf -> (0 < total)%N -> (e <= total)%N -> (total <= 2 ^ 64)%N -> all_money accounts = all_money accounts' ->
  Rabs (drawn_at_most cdf total e accounts i - drawn_at_most cdf total e accounts' i) <= INR (length accounts + length accounts') * (eps + bpow radix2 (-53)).
Proof.
  intros X Ht He Hb E. pose proof (drawn_near eps cdf X total e Ht He Hb accounts i) as A. pose proof (drawn_near eps cdf X total e Ht He Hb accounts' i) as B. rewrite <- E in B.
  rewrite plus_INR. set (u := upto _ _ _) in *. set (x := drawn_at_most _ _ _ accounts i) in *. set (y := drawn_at_most _ _ _ accounts' i) in *.
  replace (x - y) with ((x - u) - (y - u)) by ring. eapply Rle_trans; [apply Rabs_triang|]. rewrite Rabs_Ropp. lra.
Qed.
Lemma rnd_bpow k : (-1074 <= k)%Z -> rnd (bpow radix2 k) = bpow radix2 k.
Proof. intros K. apply round_generic; [apply valid_rnd_N|]. exact (format_bpow k K). Qed.
Lemma draw_half : draw 512 1024 = / 2.
Proof.
  unfold draw. change (IZR (Z.of_N 512)) with (bpow radix2 9). change (IZR (Z.of_N 1024)) with (bpow radix2 10). rewrite !rnd_bpow by lia.
  replace (bpow radix2 9 / bpow radix2 10) with (bpow radix2 (-1)) by (cbn; lra). rewrite rnd_bpow by lia. cbn. lra.
Qed.
