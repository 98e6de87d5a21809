(** Positional numerals, least significant digit first. *)
From Verif Require Import Base BaseFacts.
Local Open Scope N_scope.

Fixpoint le_val (b : N) (ds : list N) : N :=
  match ds with
  | [] => 0
  | d :: r => d + b * le_val b r
  end.

Definition digits_ok (b : N) (ds : list N) : Prop := Forall (fun d => d < b) ds.

Lemma le_val_app b xs ys : le_val b (xs ++ ys) = le_val b xs + b ^ N.of_nat (length xs) * le_val b ys.
Proof.
  induction xs as [|x xs IH]; cbn [app le_val length].
  - rewrite N.pow_0_r. lia.
  - rewrite IH, Nat2N.inj_succ, N.pow_succ_r'. lia.
Qed.

Lemma le_val_lt b ds : 0 < b -> digits_ok b ds -> le_val b ds < b ^ N.of_nat (length ds).
Proof.
  intros Hb. induction 1 as [|d ds Hd Hds IH]; cbn [le_val length].
  - rewrite N.pow_0_r. lia.
  - rewrite Nat2N.inj_succ, N.pow_succ_r'. nia.
Qed.

Lemma le_val_inj b xs : forall ys, 0 < b -> digits_ok b xs -> digits_ok b ys ->
  length xs = length ys -> le_val b xs = le_val b ys -> xs = ys.
Proof.
  induction xs as [|x xs IH]; intros [|y ys] Hb Hx Hy Hl E; try discriminate; [reflexivity|].
  inversion Hx; inversion Hy; subst. cbn [le_val] in E.
  assert (x = y).
  { apply (f_equal (fun v => v mod b)) in E.
    rewrite !(N.mul_comm b), !N.mod_add, !N.mod_small in E by lia. exact E. }
  subst y. f_equal. apply IH; try assumption; [cbn in Hl; lia|]. nia.
Qed.

(** Or-ing a shifted value above the bits in use is addition. *)
Lemma lor_shift a x k : a < 2 ^ k -> N.lor a (N.shiftl x k) = a + x * 2 ^ k.
Proof.
  intros Ha. rewrite N.shiftl_mul_pow2. rewrite <- N.lxor_lor, N.add_nocarry_lxor; [reflexivity| |].
  - apply N.bits_inj_iff. intros i. rewrite N.land_spec, N.bits_0.
    destruct (N.lt_ge_cases i k) as [Hi|Hi].
    + rewrite N.mul_pow2_bits_low by exact Hi. apply andb_false_r.
    + destruct (N.eq_dec a 0) as [->|Hne]; [rewrite N.bits_0; reflexivity|].
      rewrite (N.bits_above_log2 a i); [reflexivity|].
      apply N.log2_lt_pow2; [lia|]. eapply N.lt_le_trans; [exact Ha|].
      apply N.pow_le_mono_r; lia.
  - apply N.bits_inj_iff. intros i. rewrite N.land_spec, N.bits_0.
    destruct (N.lt_ge_cases i k) as [Hi|Hi].
    + rewrite N.mul_pow2_bits_low by exact Hi. apply andb_false_r.
    + destruct (N.eq_dec a 0) as [->|Hne]; [rewrite N.bits_0; reflexivity|].
      rewrite (N.bits_above_log2 a i); [reflexivity|].
      apply N.log2_lt_pow2; [lia|]. eapply N.lt_le_trans; [exact Ha|].
      apply N.pow_le_mono_r; lia.
Qed.

Lemma land_ones_mod a k : N.land a (2 ^ k - 1) = a mod 2 ^ k.
Proof. rewrite <- N.land_ones. f_equal. rewrite N.ones_equiv. lia. Qed.

(** Bytes of a number, least significant first, and back. *)
Fixpoint le_bytes (k : nat) (v : N) : bytes :=
  match k with
  | O => []
  | S k' => b8 v :: le_bytes k' (v / 256)
  end.
Definition le_num (s : bytes) : N := le_val 256 (map Byte.to_N s).

Lemma le_bytes_length k : forall v, length (le_bytes k v) = k.
Proof. induction k as [|k IH]; intros v; cbn [le_bytes length]; [reflexivity|]. rewrite IH. reflexivity. Qed.
Lemma le_num_bytes k : forall v, v < 256 ^ N.of_nat k -> le_num (le_bytes k v) = v.
Proof.
  unfold le_num. induction k as [|k IH]; intros v Hv; cbn [le_bytes map le_val].
  - cbn in Hv. lia.
  - rewrite Nat2N.inj_succ, N.pow_succ_r' in Hv. rewrite to_N_b8, IH.
    + pose proof (N.div_mod v 256 ltac:(lia)). lia.
    + apply N.div_lt_upper_bound; lia.
Qed.
Lemma bytes_digits s : digits_ok 256 (map Byte.to_N s).
Proof. unfold digits_ok. rewrite Forall_map. apply Forall_forall. intros b _. apply to_N_lt. Qed.
Lemma le_num_lt s : le_num s < 256 ^ N.of_nat (length s).
Proof. unfold le_num. rewrite <- (map_length Byte.to_N). apply le_val_lt; [lia|apply bytes_digits]. Qed.
Lemma le_bytes_num s : le_bytes (length s) (le_num s) = s.
Proof.
  unfold le_num. induction s as [|b s IH]; cbn [length le_bytes map le_val]; [reflexivity|].
  pose proof (to_N_lt b). f_equal.
  - rewrite <- (b8_to_N b) at 2. apply to_N_inj. rewrite !to_N_b8.
    rewrite (N.mul_comm 256), N.mod_add by lia. reflexivity.
  - replace ((Byte.to_N b + 256 * le_val 256 (map Byte.to_N s)) / 256) with (le_val 256 (map Byte.to_N s)); [exact IH|].
    rewrite (N.mul_comm 256), N.div_add by lia. rewrite N.div_small by lia. reflexivity.
Qed.
Lemma le_num_inj a b : length a = length b -> le_num a = le_num b -> a = b.
Proof. intros Hl E. rewrite <- (le_bytes_num a), <- (le_bytes_num b), Hl, E. reflexivity. Qed.
