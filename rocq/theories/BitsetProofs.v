(** Proofs about the 256-bit set. *)
From Verif Require Import Base BaseFacts BitsetModel BitsetSpec.
Local Open Scope N_scope.

(** Bit [i] of the whole set, as a number of bit [i mod 64] of word [i / 64]. *)
Definition has_bit (s : bitset) (i : N) : bool := N.testbit (nth (N.to_nat (i / 64)) s 0) (i mod 64).
Definition ok (s : bitset) : Prop := length s = 4%nat /\ Forall (fun w => w < two64) s.

Lemma mask_eq b : mask b = 2 ^ (b mod 64).
Proof.
  unfold mask. change 63 with (N.ones 6). rewrite N.land_ones, N.shiftl_mul_pow2, N.mul_1_l.
  change (2 ^ 6) with 64. apply N.mod_small. unfold two64. apply N.pow_lt_mono_r; [lia|].
  pose proof (N.mod_upper_bound b 64). lia.
Qed.

Lemma put_length i w s : length (put i w s) = length s.
Proof. revert i; induction s as [|x s IH]; intros [|i]; cbn; congruence. Qed.

Lemma nth_put i j w s : (i < length s)%nat -> nth j (put i w s) 0 = if Nat.eqb i j then w else nth j s 0.
Proof.
  revert i j; induction s as [|x s IH]; intros [|i] [|j] Hi; cbn in *; try lia; try reflexivity.
  apply IH. lia.
Qed.

Lemma put_ok i w s : ok s -> w < two64 -> ok (put i w s).
Proof.
  intros [Hl Hs] Hw. split; [rewrite put_length; exact Hl|]. clear Hl.
  revert i; induction Hs as [|x s Hx Hs IH]; intros [|i]; cbn; constructor; auto.
Qed.

Lemma word_index_lt s i : ok s -> i < 256 -> (N.to_nat (i / 64) < length s)%nat.
Proof. intros [-> _] Hi. lia. Qed.

Lemma nth_word s i : ok s -> i < 256 -> nth_error s (N.to_nat (i / 64)) = Some (nth (N.to_nat (i / 64)) s 0).
Proof. intros Hs Hi. apply nth_error_nth'. apply word_index_lt; assumption. Qed.

Lemma nth_word_none s i : ok s -> 256 <= i -> nth_error s (N.to_nat (i / 64)) = None.
Proof. intros [Hl _] Hi. apply nth_error_None. rewrite Hl. lia. Qed.

Lemma word_lt s k : ok s -> nth k s 0 < two64.
Proof.
  intros [_ Hs]. destruct (nth_in_or_default k s 0) as [Hin| ->].
  - rewrite Forall_forall in Hs. apply Hs. exact Hin.
  - unfold two64. lia.
Qed.

Lemma lt_testbit w : w < two64 <-> forall k, 64 <= k -> N.testbit w k = false.
Proof.
  unfold two64. split.
  - intros Hw k Hk. destruct (N.eq_dec w 0) as [->|Hn]; [apply N.bits_0|].
    apply N.bits_above_log2. apply N.log2_lt_pow2; [lia|].
    eapply N.lt_le_trans; [exact Hw|]. apply N.pow_le_mono_r; lia.
  - intros Hk. destruct (N.eq_dec w 0) as [->|Hn]; [reflexivity|].
    apply N.log2_lt_pow2; [lia|]. destruct (N.lt_ge_cases (N.log2 w) 64) as [?|Hge]; [assumption|].
    specialize (Hk _ Hge). rewrite N.bit_log2 in Hk by exact Hn. discriminate.
Qed.

Lemma same_bit i j : (Nat.eqb (N.to_nat (j / 64)) (N.to_nat (i / 64)) && (j mod 64 =? i mod 64)) = (j =? i).
Proof.
  destruct (N.eqb_spec j i) as [->|Hn].
  - rewrite Nat.eqb_refl, N.eqb_refl. reflexivity.
  - apply andb_false_iff. destruct (Nat.eqb_spec (N.to_nat (j / 64)) (N.to_nat (i / 64))) as [E|E]; [right|left; reflexivity].
    apply N.eqb_neq. intros E2. apply Hn. apply N2Nat.inj in E.
    rewrite (N.div_mod' j 64), (N.div_mod' i 64), E, E2. reflexivity.
Qed.

Lemma set_bit_spec j s : ok s -> j < 256 ->
  exists s', set_bit j s = Some s' /\ ok s' /\ forall i, has_bit s' i = ((j =? i) || has_bit s i).
Proof.
  intros Hs Hj. unfold set_bit. rewrite nth_word by assumption. eexists; split; [reflexivity|]. split.
  - apply put_ok; [exact Hs|]. apply lt_testbit. intros k Hk. rewrite N.lor_spec, mask_eq.
    rewrite (proj1 (lt_testbit _) (word_lt s _ Hs) k Hk), N.pow2_bits_false; [reflexivity|].
    pose proof (N.mod_upper_bound j 64). lia.
  - intros i. unfold has_bit. rewrite nth_put by (apply word_index_lt; assumption).
    rewrite <- same_bit. destruct (Nat.eqb_spec (N.to_nat (j / 64)) (N.to_nat (i / 64))) as [->|_]; [|reflexivity].
    rewrite N.lor_spec, mask_eq, N.pow2_bits_eqb. cbn [andb]. apply orb_comm.
Qed.

Lemma clear_bit_spec j s : ok s -> j < 256 ->
  exists s', clear_bit j s = Some s' /\ ok s' /\ forall i, has_bit s' i = (negb (j =? i) && has_bit s i).
Proof.
  intros Hs Hj. unfold clear_bit. rewrite nth_word by assumption. eexists; split; [reflexivity|]. split.
  - apply put_ok; [exact Hs|]. apply lt_testbit. intros k Hk. rewrite N.land_spec.
    rewrite (proj1 (lt_testbit _) (word_lt s _ Hs) k Hk). reflexivity.
  - intros i. unfold has_bit. rewrite nth_put by (apply word_index_lt; assumption).
    rewrite <- same_bit. destruct (Nat.eqb_spec (N.to_nat (j / 64)) (N.to_nat (i / 64))) as [->|_]; [|reflexivity].
    rewrite N.land_spec, N.lxor_spec, mask_eq, N.pow2_bits_eqb. cbn [andb].
    change max64 with (N.ones 64). rewrite N.ones_spec_low by (pose proof (N.mod_upper_bound i 64); lia).
    rewrite xorb_true_r. apply andb_comm.
Qed.

Lemma bit_spec i s : ok s -> i < 256 -> bit i s = Some (has_bit s i).
Proof.
  intros Hs Hi. unfold bit. rewrite nth_word by assumption. f_equal. unfold has_bit.
  set (w := nth _ s 0). rewrite mask_eq.
  destruct (N.testbit w (i mod 64)) eqn:E.
  - apply negb_true_iff. apply N.eqb_neq. intros E2.
    apply (f_equal (fun v => N.testbit v (i mod 64))) in E2.
    rewrite N.land_spec, N.pow2_bits_true, E, N.bits_0 in E2. discriminate.
  - apply negb_false_iff. apply N.eqb_eq. apply N.bits_inj_iff. intros k.
    rewrite N.land_spec, N.pow2_bits_eqb, N.bits_0.
    destruct (N.eqb_spec (i mod 64) k) as [<-|_]; [rewrite E; reflexivity|apply andb_false_r].
Qed.

Lemma default_ok : ok default_bitset.
Proof. split; [reflexivity|]. repeat constructor. Qed.

Lemma default_bits i : has_bit default_bitset i = false.
Proof.
  unfold has_bit. replace (nth _ default_bitset 0) with 0; [apply N.bits_0|].
  destruct (N.to_nat (i / 64)) as [|[|[|[|[|k]]]]]; reflexivity.
Qed.

(** Value of bit [i] after a history, starting from [v]. *)
Definition after_ops (ops : list bit_op) (v : bool) (i : N) : bool :=
  fold_left (fun acc o => if op_index o =? i then match o with SetBit _ => true | ClearBit _ => false end else acc) ops v.

Lemma after_last ops i : after_ops ops false i = true <-> last_was_set ops i.
Proof.
  unfold after_ops, last_was_set. rewrite <- (rev_involutive ops). generalize (rev ops). clear ops. intros l.
  induction l as [|o l IH]; cbn [rev].
  - cbn. split; [discriminate|]. intros (a & b & E & _). destruct a; discriminate.
  - rewrite fold_left_app. cbn [fold_left]. destruct (N.eqb_spec (op_index o) i) as [Ei|Ei].
    + destruct o as [b|b]; cbn in Ei; subst b; (split; [|]).
      * intros _. exists (rev l), []. split; [reflexivity|]. cbn. auto.
      * reflexivity.
      * discriminate.
      * intros (a & b & E & Hn). exfalso.
        destruct b as [|c b] using rev_ind.
        -- apply app_inj_tail in E as [_ E]. discriminate.
        -- rewrite app_comm_cons, app_assoc in E. apply app_inj_tail in E as [_ <-].
           apply Hn. rewrite map_app, in_app_iff. right. left. reflexivity.
    + rewrite IH. split.
      * intros (a & b & E & Hn). exists a, (b ++ [o]). split; [rewrite E, <- app_assoc; reflexivity|].
        rewrite map_app, in_app_iff. cbn. intros [?|[?|[]]]; contradiction.
      * intros (a & b & E & Hn). destruct b as [|c b _] using rev_ind.
        -- apply app_inj_tail in E as [_ E]. subst o. cbn in Ei. contradiction.
        -- rewrite app_comm_cons, app_assoc in E. apply app_inj_tail in E as [E _].
           exists a, b. split; [exact E|]. intros Hi. apply Hn. rewrite map_app, in_app_iff. left. exact Hi.
Qed.

Lemma run_bits ops : forall s, ok s -> Forall (fun o => op_index o < 256) ops ->
  exists s', bit_run ops s = Some s' /\ ok s' /\
    forall i, has_bit s' i = after_ops ops (has_bit s i) i.
Proof.
  induction ops as [|o ops IH]; intros s Hs Ho; [exists s; auto|].
  assert (Hstep : exists s1, bit_step s o = Some s1 /\ ok s1 /\
    forall i, has_bit s1 i = if op_index o =? i then match o with SetBit _ => true | ClearBit _ => false end else has_bit s i).
  { apply Forall_inv in Ho. destruct o as [b|b]; cbn [op_index bit_step] in *.
    - destruct (set_bit_spec b s Hs Ho) as (s1 & E & O1 & B). exists s1. split; [exact E|]. split; [exact O1|].
      intros i. rewrite B. destruct (b =? i); reflexivity.
    - destruct (clear_bit_spec b s Hs Ho) as (s1 & E & O1 & B). exists s1. split; [exact E|]. split; [exact O1|].
      intros i. rewrite B. destruct (b =? i); reflexivity. }
  destruct Hstep as (s1 & E1 & O1 & B1).
  destruct (IH s1 O1 (Forall_inv_tail Ho)) as (s' & E & O' & B).
  exists s'. cbn [bit_run]. rewrite E1. split; [exact E|]. split; [exact O'|].
  intros i. rewrite B. unfold after_ops. cbn [fold_left]. rewrite B1. reflexivity.
Qed.

Lemma bitset_lemma ops :
  Forall (fun o => op_index o < 256) ops ->
  exists s, bit_run ops default_bitset = Some s /\
    (forall i, i < 256 -> exists v, bit i s = Some v /\ (v = true <-> last_was_set ops i)) /\
    (forall i, 256 <= i -> bit i s = None).
Proof.
  intros Ho. destruct (run_bits ops _ default_ok Ho) as (s & E & O1 & B).
  exists s. split; [exact E|]. split.
  - intros i Hi. exists (has_bit s i). split; [apply bit_spec; assumption|].
    rewrite B, default_bits. apply after_last.
  - intros i Hi. unfold bit. rewrite nth_word_none by assumption. reflexivity.
Qed.

Lemma bitset_panic_lemma ops o :
  Forall (fun o => op_index o < 256) ops -> 256 <= op_index o ->
  bit_run (ops ++ [o]) default_bitset = None.
Proof.
  intros Ho Hb. assert (Hg : forall s, ok s -> bit_run (ops ++ [o]) s = None).
  { induction ops as [|p ops IH]; intros s Hs; cbn [app bit_run].
    - destruct o as [b|b]; cbn [bit_step op_index] in *; unfold set_bit, clear_bit;
        rewrite nth_word_none by assumption; reflexivity.
    - destruct (run_bits [p] s Hs) as (s1 & E1 & O1 & _).
      { constructor; [exact (Forall_inv Ho)|constructor]. }
      cbn [bit_run] in E1. destruct (bit_step s p) as [s2|]; [|discriminate]. injection E1 as ->.
      apply IH; [exact (Forall_inv_tail Ho)|exact O1]. }
  apply Hg. apply default_ok.
Qed.

Lemma is_zero_spec s : ok s -> is_zero s = true <-> forall i, i < 256 -> has_bit s i = false.
Proof.
  intros Hok. pose proof Hok as [Hl Hs]. destruct s as [|a [|b [|c [|d [|]]]]]; try discriminate.
  cbn [is_zero]. rewrite !andb_true_iff, !N.eqb_eq. split.
  - intros [[[-> ->] ->] ->] i Hi. apply default_bits.
  - intros Hz. assert (Hw : forall k w, (k < 4)%nat -> nth_error [a; b; c; d] k = Some w -> w = 0).
    { intros k w Hk E. apply N.bits_inj_iff. intros j. rewrite N.bits_0.
      destruct (N.lt_ge_cases j 64) as [Hj|Hj].
      - specialize (Hz (N.of_nat k * 64 + j) ltac:(lia)). unfold has_bit in Hz.
        replace ((N.of_nat k * 64 + j) / 64) with (N.of_nat k) in Hz by lia.
        replace ((N.of_nat k * 64 + j) mod 64) with j in Hz by lia.
        rewrite Nat2N.id, (nth_error_nth _ _ _ E) in Hz. exact Hz.
      - apply lt_testbit; [|exact Hj]. rewrite Forall_forall in Hs. apply Hs.
        eapply nth_error_In. exact E. }
    repeat split.
    + apply (Hw 0%nat); [lia|reflexivity].
    + apply (Hw 1%nat); [lia|reflexivity].
    + apply (Hw 2%nat); [lia|reflexivity].
    + apply (Hw 3%nat); [lia|reflexivity].
Qed.

Lemma bitset_zero_lemma ops s :
  Forall (fun o => op_index o < 256) ops -> bit_run ops default_bitset = Some s ->
  is_zero s = true <-> forall i, i < 256 -> ~ last_was_set ops i.
Proof.
  intros Ho E. destruct (run_bits ops _ default_ok Ho) as (s' & E' & O1 & B).
  assert (s' = s) as -> by congruence. rewrite is_zero_spec by exact O1.
  split; intros Hz i Hi.
  - rewrite <- after_last. specialize (Hz i Hi). rewrite B, default_bits in Hz. congruence.
  - specialize (Hz i Hi). rewrite <- after_last in Hz. rewrite B, default_bits.
    destruct (after_ops ops false i); [exfalso; apply Hz; reflexivity|reflexivity].
Qed.
