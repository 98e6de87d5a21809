(** The integers modulo a prime as a field. *)
From Coq Require Import ZArith Znumtheory Lia Bool Eqdep_dec Ring Field.
From Coq Require Import NsatzTactic Cring Integral_domain.
From Verif Require Import PrimeProofs.
Local Open Scope Z_scope.

Section Field.
Variable p : Z.
Hypothesis p_prime : prime p.

Record fe := Fe { val : Z; val_ok : (val mod p =? val) = true }.
Lemma fe_eq a b : val a = val b -> a = b.
Proof. destruct a as [a A], b as [b B]. cbn. intros <-. f_equal. apply UIP_dec. apply bool_dec. Qed.
Lemma p_ge : 2 <= p. Proof. apply prime_ge_2. exact p_prime. Qed.
Lemma fe_of_ok z : ((z mod p) mod p =? z mod p) = true.
Proof. apply Z.eqb_eq. apply Z.mod_mod. pose proof p_ge. lia. Qed.
Definition fe_of (z : Z) : fe := Fe (z mod p) (fe_of_ok z).
Lemma val_fe_of z : val (fe_of z) = z mod p. Proof. reflexivity. Qed.
Definition zero := fe_of 0.
Definition one := fe_of 1.
Definition add a b := fe_of (val a + val b).
Definition sub a b := fe_of (val a - val b).
Definition mul a b := fe_of (val a * val b).
Definition opp a := fe_of (- val a).
Definition inv a := fe_of (val a ^ (p - 2)).
Definition div a b := mul a (inv b).

Lemma val_mod a : val a mod p = val a. Proof. destruct a as [a A]. cbn. apply Z.eqb_eq. exact A. Qed.
Lemma val_range a : 0 <= val a < p. Proof. rewrite <- val_mod. apply Z.mod_pos_bound. pose proof p_ge. lia. Qed.
Lemma fe_of_val a : fe_of (val a) = a. Proof. apply fe_eq. apply val_mod. Qed.
Lemma fe_of_congr x y : fe_of x = fe_of y <-> (p | x - y).
Proof.
  pose proof p_ge. split.
  - intros E. apply (f_equal val) in E. cbn in E. apply Z.mod_divide; [lia|]. rewrite Zminus_mod, E, Z.sub_diag. reflexivity.
  - intros D. apply fe_eq. cbn. apply Z.mod_divide in D; [|lia].
    replace x with (y + (x - y)) by ring. rewrite Z.add_mod, D by lia. rewrite Z.add_0_r. apply Z.mod_mod. lia.
Qed.
Lemma add_of x y : add (fe_of x) (fe_of y) = fe_of (x + y).
Proof. apply fe_eq. cbn. rewrite <- Z.add_mod; [reflexivity|pose proof p_ge; lia]. Qed.
Lemma sub_of x y : sub (fe_of x) (fe_of y) = fe_of (x - y).
Proof. apply fe_eq. cbn. rewrite <- Zminus_mod. reflexivity. Qed.
Lemma mul_of x y : mul (fe_of x) (fe_of y) = fe_of (x * y).
Proof. apply fe_eq. cbn. rewrite <- Z.mul_mod; [reflexivity|pose proof p_ge; lia]. Qed.
Lemma opp_of x : opp (fe_of x) = fe_of (- x).
Proof. apply fe_eq. cbn. rewrite <- (Z.sub_0_l (x mod p)), Zminus_mod_idemp_r. reflexivity. Qed.
Lemma val_of z : 0 <= z < p -> val (fe_of z) = z. Proof. intros R. cbn. apply Z.mod_small. exact R. Qed.

Lemma fe_ring : ring_theory zero one add mul sub opp (@eq fe).
Proof.
  constructor; intros; repeat match goal with x : fe |- _ => rewrite <- (fe_of_val x); generalize (val x); clear x; intro x end;
    unfold zero, one; rewrite ?mul_of, ?add_of, ?opp_of, ?sub_of, ?mul_of, ?add_of, ?mul_of, ?add_of; f_equal; ring.
Qed.
Lemma val_zero : val zero = 0. Proof. apply val_of. pose proof p_ge. lia. Qed.
Lemma val_one : val one = 1. Proof. apply val_of. pose proof p_ge. lia. Qed.
Lemma one_zero : one <> zero.
Proof. intros E. apply (f_equal val) in E. rewrite val_zero, val_one in E. discriminate. Qed.
Lemma not_zero a : a <> zero -> ~ (p | val a).
Proof.
  intros N D. apply N. apply fe_eq. rewrite val_zero. pose proof (val_range a). destruct (Z.eq_dec (val a) 0); [assumption|].
  apply Z.divide_pos_le in D; lia.
Qed.
Lemma inv_l a : a <> zero -> mul (inv a) a = one.
Proof.
  intros N. apply fe_eq. pose proof p_ge. rewrite val_one. cbn. rewrite Zmult_mod_idemp_l.
  replace (val a ^ (p - 2) * val a) with (val a ^ (p - 1)).
  - apply fermat_one; [exact p_prime|apply val_range|apply not_zero; exact N].
  - replace (p - 1) with (Z.succ (p - 2)) by lia. rewrite Z.pow_succ_r by lia. ring.
Qed.
Lemma fe_field : field_theory zero one add mul sub opp div inv (@eq fe).
Proof. constructor; [exact fe_ring|exact one_zero|reflexivity|exact inv_l]. Qed.
Lemma fe_dec (a b : fe) : {a = b} + {a <> b}.
Proof. destruct (Z.eq_dec (val a) (val b)) as [E|E]; [left; apply fe_eq; exact E|right; intros ->; apply E; reflexivity]. Defined.
Lemma no_zero_divisors a b : mul a b = zero -> a = zero \/ b = zero.
Proof.
  intros E. destruct (fe_dec a zero) as [A|A]; [left; exact A|right].
  apply (f_equal val) in E. rewrite val_zero in E. cbn in E. apply Z.mod_divide in E; [|pose proof p_ge; lia].
  apply prime_mult in E; [|exact p_prime]. destruct E as [E|E]; [apply not_zero in A; contradiction|].
  destruct (fe_dec b zero) as [B|B]; [exact B|apply not_zero in B; contradiction].
Qed.

(** ** Powers *)
Fixpoint pow (a : fe) (n : positive) : fe :=
  match n with xH => a | xO m => let s := pow a m in mul s s | xI m => let s := pow a m in mul a (mul s s) end.
Lemma pow_val a n : pow a n = fe_of (val a ^ Zpos n).
Proof.
  induction n as [n IH|n IH|]; cbn [pow].
  - cbv zeta. rewrite IH, mul_of. rewrite <- (fe_of_val a) at 1. rewrite mul_of. f_equal. rewrite Pos2Z.inj_xI, Z.pow_add_r, Z.pow_twice_r, Z.pow_1_r by lia. ring.
  - cbv zeta. rewrite IH, mul_of. f_equal. rewrite Pos2Z.inj_xO, Z.pow_twice_r by lia. reflexivity.
  - rewrite Z.pow_1_r. symmetry. apply fe_of_val.
Qed.
Lemma pow_add a n m : pow a (n + m) = mul (pow a n) (pow a m).
Proof. rewrite !pow_val, mul_of, Pos2Z.inj_add, Z.pow_add_r by lia. reflexivity. Qed.
Lemma pow_mul a n m : pow a (n * m) = pow (pow a n) m.
Proof.
  rewrite (pow_val (pow a n)), (pow_val a n), (pow_val a). apply fe_eq. rewrite ?val_fe_of. rewrite pow_of_mod by (pose proof p_ge; lia).
  rewrite <- Z.pow_mul_r by lia. rewrite <- Pos2Z.inj_mul. reflexivity.
Qed.
Lemma mul_pow a b n : pow (mul a b) n = mul (pow a n) (pow b n).
Proof.
  rewrite !pow_val, mul_of. unfold mul. apply fe_eq. rewrite ?val_fe_of. rewrite pow_of_mod by (pose proof p_ge; lia). rewrite Z.pow_mul_l. reflexivity.
Qed.
Lemma pow_one n : pow one n = one.
Proof. rewrite pow_val, val_one, Z.pow_1_l by lia. reflexivity. Qed.
Lemma pow_fermat a : a <> zero -> pow a (Z.to_pos (p - 1)) = one.
Proof.
  intros N. pose proof p_ge. rewrite pow_val. rewrite Z2Pos.id by lia. apply fe_eq. rewrite val_one, val_fe_of.
  apply fermat_one; [exact p_prime|apply val_range|apply not_zero; exact N].
Qed.
Lemma pow_inv a : 2 < p -> pow a (Z.to_pos (p - 2)) = inv a.
Proof. intros G. rewrite pow_val. rewrite Z2Pos.id by lia. reflexivity. Qed.
End Field.
