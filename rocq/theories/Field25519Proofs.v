(** The arithmetic of [CurveModel] is that of the field of 2^255 - 19 elements. *)
From Coq Require Import Znumtheory Field.
From Verif Require Import Base PrimeProofs FieldProofs CurveModel.
Local Open Scope Z_scope.

Lemma p_prime : prime p25519. Proof. exact prime_field. Qed.
Lemma p_value : p25519 = 2 ^ 255 - 19. Proof. reflexivity. Qed.
#[global] Opaque p25519.
Notation F := (fe p25519).
Definition f (z : Z) : F := fe_of p25519 p_prime z.
Definition f0 : F := FieldProofs.zero p25519 p_prime.
Definition f1 : F := one p25519 p_prime.
Definition fplus : F -> F -> F := FieldProofs.add p25519 p_prime.
Definition ftimes : F -> F -> F := FieldProofs.mul p25519 p_prime.
Definition fminus : F -> F -> F := FieldProofs.sub p25519 p_prime.
Definition fopp : F -> F := FieldProofs.opp p25519 p_prime.
Definition fdiv : F -> F -> F := FieldProofs.div p25519 p_prime.
Definition finverse : F -> F := FieldProofs.inv p25519 p_prime.
Definition fpower : F -> positive -> F := FieldProofs.pow p25519 p_prime.
Lemma field25519 : field_theory f0 f1 fplus ftimes fminus fopp fdiv finverse (@eq F).
Proof. exact (fe_field p25519 p_prime). Qed.
Definition f_dec : forall a b : F, {a = b} + {a <> b} := fe_dec p25519.
Lemma f_domain a b : ftimes a b = f0 -> a = f0 \/ b = f0. Proof. apply no_zero_divisors. Qed.
Lemma f_congr a b : (p25519 | a - b) -> f a = f b. Proof. apply fe_of_congr. Qed.
Lemma f_range (a : F) : 0 <= val p25519 a < p25519. Proof. apply val_range. exact p_prime. Qed.
Lemma f_val (a : F) : f (val p25519 a) = a. Proof. apply fe_of_val. Qed.

(** canonical numbers *)
Definition canon (a : Z) : Prop := 0 <= a < p25519.
Lemma val_f a : canon a -> val p25519 (f a) = a. Proof. apply val_of. Qed.
Lemma f_inj a b : canon a -> canon b -> f a = f b -> a = b.
Proof. intros A B E. rewrite <- (val_f a A), <- (val_f b B), E. reflexivity. Qed.

Lemma fadd_ok a b : canon a -> canon b -> canon (fadd a b) /\ f (fadd a b) = fplus (f a) (f b).
Proof.
  unfold canon, fadd. intros A B. unfold fplus, f. rewrite add_of. fold (f (a + b)).
  destruct (Z.leb_spec p25519 (a + b)); split; try lia; [|reflexivity].
  fold (f (a + b - p25519)). apply f_congr. exists (-1). ring.
Qed.
Lemma fsub_ok a b : canon a -> canon b -> canon (fsub a b) /\ f (fsub a b) = fminus (f a) (f b).
Proof.
  unfold canon, fsub. intros A B. unfold fminus, f. rewrite sub_of. fold (f (a - b)).
  destruct (Z.ltb_spec (a - b) 0); split; try lia; [|reflexivity].
  fold (f (a - b + p25519)). apply f_congr. exists 1. ring.
Qed.
Lemma land_low x : Z.land x low_bits = x mod 2 ^ 255.
Proof. change low_bits with (Z.ones 255). apply Z.land_ones. lia. Qed.
Lemma fold19_eq x : fold19 x = x - p25519 * (x / 2 ^ 255).
Proof.
  unfold fold19. rewrite land_low, Z.shiftr_div_pow2 by lia. rewrite p_value.
  pose proof (Z.div_mod x (2 ^ 255)). lia.
Qed.
Lemma fold19_bound x k : 0 <= x < 2 ^ 255 * k -> 0 <= fold19 x < 2 ^ 255 + 19 * k.
Proof.
  intros B. unfold fold19. rewrite land_low, Z.shiftr_div_pow2 by lia.
  pose proof (Z.mod_pos_bound x (2 ^ 255)). pose proof (Z.div_pos x (2 ^ 255)). pose proof (Z.div_lt_upper_bound x (2 ^ 255) k). lia.
Qed.
Lemma reduce_ok x : 0 <= x < 2 ^ 510 -> canon (reduce x) /\ f (reduce x) = f x.
Proof.
  intros B. unfold reduce. cbv zeta.
  assert (B1 : 0 <= fold19 x < 2 ^ 255 * 20).
  { pose proof (fold19_bound x (2 ^ 255)). lia. }
  apply (fold19_bound _ 20) in B1.
  assert (C1 : f (fold19 (fold19 x)) = f x).
  { apply f_congr. rewrite (fold19_eq (fold19 x)), (fold19_eq x). exists (- (x / 2 ^ 255) - (x - p25519 * (x / 2 ^ 255)) / 2 ^ 255). ring. }
  pose proof p_value. unfold canon.
  destruct (Z.leb_spec p25519 (fold19 (fold19 x))) as [L|L]; split; try lia; [|exact C1].
  rewrite <- C1. apply f_congr. exists (-1). ring.
Qed.
Lemma fmul_ok a b : canon a -> canon b -> canon (fmul a b) /\ f (fmul a b) = ftimes (f a) (f b).
Proof.
  unfold canon, fmul. intros A B. pose proof p_value as V.
  destruct (reduce_ok (a * b)) as [R E].
  { split; [apply Z.mul_nonneg_nonneg; lia|]. replace (2 ^ 510) with (2 ^ 255 * 2 ^ 255) by reflexivity. apply Z.mul_lt_mono_nonneg; lia. }
  split; [exact R|]. rewrite E. unfold ftimes, f. rewrite mul_of. reflexivity.
Qed.
Lemma canon_zero : canon 0. Proof. unfold canon. rewrite p_value. lia. Qed.
Lemma canon_one : canon 1. Proof. unfold canon. rewrite p_value. lia. Qed.
Lemma f_zero : f 0 = f0. Proof. reflexivity. Qed.
Lemma f_one : f 1 = f1. Proof. reflexivity. Qed.
Lemma fneg_ok a : canon a -> canon (fneg a) /\ f (fneg a) = fopp (f a).
Proof.
  intros A. unfold fneg. destruct (fsub_ok 0 a canon_zero A) as [C E]. split; [exact C|]. rewrite E.
  unfold fminus, fopp, f. rewrite sub_of, opp_of. reflexivity.
Qed.
Lemma fpow_ok a n : canon a -> canon (fpow a n) /\ f (fpow a n) = fpower (f a) n.
Proof.
  intros A. unfold fpower. induction n as [n [IC IE]|n [IC IE]|]; cbn [fpow pow].
  - cbv zeta. destruct (fmul_ok _ _ IC IC) as [C E]. destruct (fmul_ok _ _ A C) as [C' E']. split; [exact C'|].
    rewrite E', E, IE. reflexivity.
  - cbv zeta. destruct (fmul_ok _ _ IC IC) as [C E]. split; [exact C|]. rewrite E, IE. reflexivity.
  - split; [exact A|reflexivity].
Qed.
Lemma finv_ok a : canon a -> canon (finv a) /\ f (finv a) = finverse (f a).
Proof.
  intros A. unfold finv. destruct (fpow_ok a inverse_power A) as [C E]. split; [exact C|]. rewrite E.
  replace inverse_power with (Z.to_pos (p25519 - 2)) by reflexivity. unfold finverse, fpower. apply pow_inv. rewrite p_value. lia.
Qed.
Lemma odd_neg a : canon a -> a <> 0 -> odd (fneg a) = negb (odd a).
Proof.
  unfold canon, fneg, fsub, odd. intros A N. destruct (Z.ltb_spec (0 - a) 0); [|lia].
  rewrite Z.odd_add, Z.sub_0_l, Z.odd_opp. replace (Z.odd p25519) with true by reflexivity. destruct (Z.odd a); reflexivity.
Qed.
