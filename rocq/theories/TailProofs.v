(** Proofs for C155. *)
From Coq Require Import Reals Lra.
From Flocq Require Import Core BinarySingleNaN.
From Verif Require Import Base BaseFacts ConsensusModel CommitteeModel FloatFacts ConfigModel ConfigSpec ConfigProofs BinomialSpec BinomialProofs AverageProofs NearProofs SplitSpec SplitProofs TailSpec.
Local Open Scope R_scope.

Lemma pow_exp y : forall n, 0 <= 1 + y -> (1 + y) ^ n <= exp (INR n * y).
Proof.
  intros n Y. induction n as [|n IH]; [cbn; rewrite Rmult_0_l, exp_0; lra|]. rewrite S_INR. replace ((INR n + 1) * y) with (y + INR n * y) by ring. rewrite exp_plus. cbn [pow].
  apply Rmult_le_compat; [exact Y|apply pow_le, Y|apply exp_ineq1_le|exact IH].
Qed.
Lemma upto_range p n : 0 <= p <= 1 -> forall k, 0 <= upto p n k <= 1.
Proof.
  intros P. induction n as [|n IH]; intros k; [cbn; lra|]. unfold upto in *. cbn [trials]. unfold trial. pose proof (IH k). destruct k as [|k]; [nra|]. pose proof (IH k). nra.
Qed.
Lemma few p x n : 0 <= p <= 1 -> 0 < x <= 1 -> forall k, x ^ k * upto p n k <= (1 + p * (x - 1)) ^ n.
Proof.
  intros P X. induction n as [|n IH]; intros k.
  - unfold upto. cbn [trials pow]. rewrite Rmult_1_r. rewrite <- (pow1 k). apply pow_incr. lra.
  - set (M := (1 + p * (x - 1)) ^ n) in *. cbn [pow]. unfold upto in *. cbn [trials]. unfold trial. pose proof (IH k) as A. destruct k as [|k].
    + assert (0 <= M) as M0 by (unfold M; apply pow_le; nra). cbn [pow] in *. rewrite Rmult_1_l in *. fold M. assert ((1 - p) * trials p n (fun _ => 1) 0%nat <= (1 - p) * M) by (apply Rmult_le_compat_l; lra). assert (0 <= p * x * M) by (apply Rmult_le_pos; [nra|exact M0]). lra.
    + pose proof (IH k) as B. cbn [pow] in *. set (u := trials p n (fun _ => 1) (S k)) in *. set (v := trials p n (fun _ => 1) k) in *. set (w := x ^ k) in *. fold M. 
      replace (x * w * ((1 - p) * u + p * v)) with ((1 - p) * (x * w * u) + p * x * (w * v)) by ring.
      replace ((1 + p * (x - 1)) * M) with ((1 - p) * M + p * x * M) by ring. apply Rplus_le_compat; apply Rmult_le_compat_l; try assumption; nra.
Qed.
Lemma many p x n : 0 <= p <= 1 -> 1 <= x -> forall k, x ^ (S k) * (1 - upto p n k) <= (1 + p * (x - 1)) ^ n.
Proof.
  intros P X. induction n as [|n IH]; intros k.
  - unfold upto. cbn [trials pow]. lra.
  - set (M := (1 + p * (x - 1)) ^ n) in *. assert (1 <= M) as M1 by (unfold M; apply pow_R1_Rle; nra). unfold upto in *. cbn [trials]. unfold trial. pose proof (IH k) as A. destruct k as [|k].
    + cbn [pow] in *. fold M. set (u := trials p n (fun _ => 1) 0%nat) in *. replace (x * 1 * (1 - ((1 - p) * u + p * 0))) with ((1 - p) * (x * 1 * (1 - u)) + p * x * 1) by ring.
      replace ((1 + p * (x - 1)) * M) with ((1 - p) * M + p * x * M) by ring. apply Rplus_le_compat; apply Rmult_le_compat_l; try assumption; nra.
    + pose proof (IH k) as B. cbn [pow] in *. fold M. set (u := trials p n (fun _ => 1) (S k)) in *. set (v := trials p n (fun _ => 1) k) in *. set (w := x ^ k) in *.
      replace (x * (x * w) * (1 - ((1 - p) * u + p * v))) with ((1 - p) * (x * (x * w) * (1 - u)) + p * x * (x * w * (1 - v))) by ring.
      replace ((1 + p * (x - 1)) * M) with ((1 - p) * M + p * x * M) by ring. apply Rplus_le_compat; apply Rmult_le_compat_l; try assumption; nra.
Qed.
Lemma divide_bound a b c : 0 < a -> a * b <= c -> b <= c / a.
Proof. intros A L. apply Rmult_le_reg_l with a; [exact A|]. unfold Rdiv. rewrite (Rmult_comm c), <- Rmult_assoc, Rinv_r, Rmult_1_l by lra. exact L. Qed.
Section Tail.
Variables (eps : R) (cdf : f64 -> N -> N -> f64).
Hypothesis near : near_binomial eps cdf.
Variables (total e : N).
Hypotheses (Ht : (0 < total)%N) (He : (e <= total)%N) (Hb : (total <= 2 ^ 64)%N).
Lemma fewer_bound accounts i x : 0 < x <= 1 ->
  drawn_at_most cdf total e accounts i <= exp (- (expected_draws total e accounts * (1 - x))) / x ^ N.to_nat i + errors eps accounts.
Proof.
  intros X. pose proof (draw_range e total Ht He Hb) as P. pose proof (drawn_near eps cdf near total e Ht He Hb accounts i) as D. apply Rabs_le_inv in D. fold (errors eps accounts) in D.
  pose proof (few (draw e total) x (N.to_nat (all_money accounts)) P X (N.to_nat i)) as F.
  pose proof (pow_exp (draw e total * (x - 1)) (N.to_nat (all_money accounts)) ltac:(nra)) as G.
  replace (INR (N.to_nat (all_money accounts)) * (draw e total * (x - 1))) with (- (expected_draws total e accounts * (1 - x))) in G by (unfold expected_draws; rewrite INR_IZR_INZ, N_nat_Z; ring).
  pose proof (divide_bound _ _ _ (pow_lt x (N.to_nat i) ltac:(lra)) (Rle_trans _ _ _ F G)). lra.
Qed.
Lemma more_bound accounts i x : 1 <= x ->
  1 - drawn_at_most cdf total e accounts i <= exp (expected_draws total e accounts * (x - 1)) / x ^ N.to_nat (i + 1) + errors eps accounts.
Proof.
  intros X. pose proof (draw_range e total Ht He Hb) as P. pose proof (drawn_near eps cdf near total e Ht He Hb accounts i) as D. apply Rabs_le_inv in D. fold (errors eps accounts) in D.
  pose proof (many (draw e total) x (N.to_nat (all_money accounts)) P X (N.to_nat i)) as F.
  pose proof (pow_exp (draw e total * (x - 1)) (N.to_nat (all_money accounts)) ltac:(nra)) as G.
  replace (INR (N.to_nat (all_money accounts)) * (draw e total * (x - 1))) with (expected_draws total e accounts * (x - 1)) in G by (unfold expected_draws; rewrite INR_IZR_INZ, N_nat_Z; ring).
  replace (N.to_nat (i + 1)) with (S (N.to_nat i)) by lia.
  pose proof (divide_bound _ _ _ (pow_lt x (S (N.to_nat i)) ltac:(lra)) (Rle_trans _ _ _ F G)). lra.
Qed.
Lemma draws_near : (0 < e)%N -> Rabs (IZR (Z.of_N total) * draw e total - IZR (Z.of_N e)) <= IZR (Z.of_N e) * bpow radix2 (-51).
Proof.
  intros E0. pose proof (draw_close e total E0 Ht He Hb) as D. replace (bpow radix2 (-51)) with (2 * bpow radix2 (-52)); [exact D|]. change (-51)%Z with (1 + -52)%Z. rewrite bpow_plus. reflexivity.
Qed.
End Tail.

(** ** The built-in protocols *)
Definition committee_b (c : N * N) : bool :=
  let '(size, needed) := c in
  (0 <? size)%N && (size <? 2 ^ 30)%N && (0 <? needed)%N && (2 * size + 505 <=? 5 * needed)%N && (24 * needed + 1280 <=? 19 * size)%N.
Lemma all_committees : forallb (fun e => forallb committee_b (committees (snd e))) built_in = true.
Proof. vm_compute. reflexivity. Qed.
Lemma committee_facts v p size needed : lookup v built_in = Some p -> In (size, needed) (committees p) ->
  (0 < size < 2 ^ 30)%N /\ (0 < needed)%N /\ (2 * size + 505 <= 5 * needed)%N /\ (24 * needed + 1280 <= 19 * size)%N.
Proof.
  intros E M. pose proof all_committees as X. rewrite forallb_forall in X. specialize (X _ (lookup_In _ _ _ E)). cbn [snd] in X. rewrite forallb_forall in X. specialize (X _ M).
  unfold committee_b in X. rewrite !andb_true_iff, !N.ltb_lt, !N.leb_le in X. tauto.
Qed.
Lemma small_error size : (size < 2 ^ 30)%N -> 0 <= IZR (Z.of_N size) * bpow radix2 (-51) <= / 1000.
Proof.
  intros L. assert (0 <= IZR (Z.of_N size)) by (apply IZR_le; lia). assert (IZR (Z.of_N size) <= bpow radix2 30) by (change (bpow radix2 30) with (IZR (2 ^ 30)); apply IZR_le; lia).
  pose proof (bpow_ge_0 radix2 (-51)). split; [apply Rmult_le_pos; assumption|]. apply Rle_trans with (bpow radix2 30 * bpow radix2 (-51)); [apply Rmult_le_compat_r; assumption|].
  rewrite <- bpow_plus. change (30 + -51)%Z with (-21)%Z. change (bpow radix2 (-21)) with (/ IZR (2 ^ 21)). apply Rinv_le; [lra|]. apply IZR_le. discriminate.
Qed.
Lemma exp_pow x : forall n, exp (INR n * x) = exp x ^ n.
Proof. induction n as [|n IH]; [cbn; rewrite Rmult_0_l; apply exp_0|]. rewrite S_INR. replace ((INR n + 1) * x) with (x + INR n * x) by ring. rewrite exp_plus, IH. reflexivity. Qed.
Lemma safe_lemma eps cdf v p size needed total accounts : near_binomial eps cdf -> lookup v built_in = Some p -> In (size, needed) (committees p) ->
  (size <= total)%N -> (total <= 2 ^ 64)%N -> (5 * all_money accounts <= total)%N ->
  reaches_needed cdf total size needed accounts <= exp (-100) + errors eps accounts.
Proof.
  intros X E M ST TB A. destruct (committee_facts v p size needed E M) as ([S0 S1] & N0 & F & _). assert (0 < total)%N as T0 by lia.
  unfold reaches_needed, misses. pose proof (more_bound eps cdf X total size T0 ST TB accounts (needed - 1) 3 ltac:(lra)) as B.
  replace (needed - 1 + 1)%N with needed in B by lia. apply Rle_trans with (1 := B). apply Rplus_le_compat_r.
  pose proof (draws_near total size T0 ST TB S0) as D. apply Rabs_le_inv in D. pose proof (small_error size S1) as Er.
  pose proof (draw_range size total T0 ST TB) as P.
  assert (5 * expected_draws total size accounts <= IZR (Z.of_N size) + / 1000) as Mu.
  { unfold expected_draws. apply Rle_trans with (IZR (Z.of_N total) * draw size total); [|lra]. rewrite <- Rmult_assoc. apply Rmult_le_compat_r; [lra|]. rewrite <- mult_IZR. apply IZR_le. lia. }
  apply Rle_trans with (exp (2 * expected_draws total size accounts - INR (N.to_nat needed))).
  - unfold Rminus. rewrite exp_plus, exp_Ropp. replace (expected_draws total size accounts * (3 + - (1))) with (2 * expected_draws total size accounts) by ring. unfold Rdiv. apply Rmult_le_compat_l; [left; apply exp_pos|].
    apply Rinv_le; [apply exp_pos|]. rewrite <- (Rmult_1_r (INR (N.to_nat needed))), exp_pow. apply pow_incr. split; [left; apply exp_pos|exact exp_le_3].
  - assert (2 * expected_draws total size accounts - INR (N.to_nat needed) <= -100) as L.
    { rewrite INR_IZR_INZ, N_nat_Z. assert (2 * IZR (Z.of_N size) + 505 <= 5 * IZR (Z.of_N needed)) by (rewrite <- !mult_IZR, <- plus_IZR; apply IZR_le; lia). lra. }
    destruct L as [L | ->]; [left; apply exp_increasing; exact L|right; reflexivity].
Qed.
Lemma four_thirds : / (3 / 4) <= exp (3 / 10).
Proof.
  replace (3 / 10) with (INR 4 * (3 / 40)) by (cbn; lra). rewrite exp_pow. apply Rle_trans with ((1 + 3 / 40) ^ 4); [lra|]. apply pow_incr. split; [lra|apply exp_ineq1_le].
Qed.
Lemma live_lemma eps cdf v p size needed total accounts : near_binomial eps cdf -> lookup v built_in = Some p -> In (size, needed) (committees p) ->
  (size <= total)%N -> (total <= 2 ^ 64)%N -> (19 * total <= 20 * all_money accounts)%N ->
  misses cdf total size needed accounts <= exp (-15) + errors eps accounts.
Proof.
  intros X E M ST TB A. destruct (committee_facts v p size needed E M) as ([S0 S1] & N0 & _ & F). assert (0 < total)%N as T0 by lia.
  unfold misses. pose proof (fewer_bound eps cdf X total size T0 ST TB accounts (needed - 1) (3 / 4) ltac:(lra)) as B.
  apply Rle_trans with (1 := B). apply Rplus_le_compat_r.
  pose proof (draws_near total size T0 ST TB S0) as D. apply Rabs_le_inv in D. pose proof (small_error size S1) as Er.
  pose proof (draw_range size total T0 ST TB) as P.
  assert (19 * (IZR (Z.of_N size) - / 1000) <= 20 * expected_draws total size accounts) as Mu.
  { unfold expected_draws. apply Rle_trans with (19 * (IZR (Z.of_N total) * draw size total)); [lra|]. rewrite <- !Rmult_assoc. apply Rmult_le_compat_r; [lra|]. rewrite <- !mult_IZR. apply IZR_le. lia. }
  apply Rle_trans with (exp (- (expected_draws total size accounts * (1 - 3 / 4)) + INR (N.to_nat (needed - 1)) * (3 / 10))).
  - rewrite exp_plus. unfold Rdiv at 1. apply Rmult_le_compat_l; [left; apply exp_pos|]. rewrite exp_pow, <- pow_inv. apply pow_incr. split; [lra|exact four_thirds].
  - assert (- (expected_draws total size accounts * (1 - 3 / 4)) + INR (N.to_nat (needed - 1)) * (3 / 10) <= -15) as L.
    { rewrite INR_IZR_INZ, N_nat_Z. assert (IZR (Z.of_N (needed - 1)) <= IZR (Z.of_N needed)) by (apply IZR_le; lia).
      assert (24 * IZR (Z.of_N needed) + 1280 <= 19 * IZR (Z.of_N size)) by (rewrite <- !mult_IZR, <- plus_IZR; apply IZR_le; lia). lra. }
    destruct L as [L | ->]; [left; apply exp_increasing; exact L|right; reflexivity].
Qed.
