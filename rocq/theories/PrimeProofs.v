(** Pocklington's criterion, and the two primes of edwards25519. *)
From Coq Require Import ZArith Znumtheory Lia List Bool.
From Verif Require Import FermatProofs.
Import ListNotations.
Local Open Scope Z_scope.

(** ** Powers modulo a number *)
Fixpoint power_mod (n a : Z) (e : positive) : Z :=
  match e with
  | xH => a mod n
  | xO e' => let y := power_mod n a e' in (y * y) mod n
  | xI e' => let y := power_mod n a e' in (a * ((y * y) mod n)) mod n
  end.
Lemma power_mod_spec n a e : n <> 0 -> power_mod n a e = (a ^ Zpos e) mod n.
Proof.
  intros N. induction e as [e IH|e IH|]; cbn [power_mod].
  - rewrite IH. rewrite Pos2Z.inj_xI. rewrite Z.pow_add_r by lia. rewrite Z.pow_1_r, Z.pow_twice_r.
    rewrite <- Z.mul_mod by exact N. rewrite Zmult_mod_idemp_r. f_equal. ring.
  - rewrite IH. rewrite Pos2Z.inj_xO. rewrite Z.pow_twice_r. rewrite <- Z.mul_mod by exact N. reflexivity.
  - rewrite Z.pow_1_r. reflexivity.
Qed.

(** ** Prime divisors *)
Lemma prime_divisor_nat k : forall n, 1 < n -> (Z.to_nat n <= k)%nat -> exists r, prime r /\ (r | n).
Proof.
  induction k as [|k IH]; intros n N L; [lia|].
  destruct (prime_dec n) as [P|P]; [exists n; split; [exact P|exists 1; ring]|].
  destruct (not_prime_divide n N P) as [d [[D1 D2] D]].
  destruct (IH d D1 ltac:(lia)) as [r [R E]]. exists r. split; [exact R|]. apply Z.divide_trans with d; assumption.
Qed.
Lemma prime_divisor n : 1 < n -> exists r, prime r /\ (r | n).
Proof. intros N. apply (prime_divisor_nat (Z.to_nat n) n N). lia. Qed.
Lemma small_prime_divisor n : 1 < n -> ~ prime n -> exists r, prime r /\ (r | n) /\ r * r <= n.
Proof.
  intros N P. destruct (not_prime_divide n N P) as [d [[D1 D2] [e E]]].
  assert (exists c, 1 < c /\ (c | n) /\ c * c <= n) as [c [C1 [C2 C3]]].
  { destruct (Z.le_gt_cases (d * d) n) as [S|S]; [exists d; split; [lia|]; split; [exists e; lia|exact S]|].
    exists e. split; [nia|]. split; [exists d; lia|nia]. }
  destruct (prime_divisor c C1) as [r [R D]]. exists r. split; [exact R|]. split; [apply Z.divide_trans with c; assumption|].
  apply Z.divide_pos_le in D; [|lia]. pose proof (prime_ge_2 _ R). nia.
Qed.

(** ** The criterion *)
Lemma pow_mod_one r x e : 1 < r -> 0 <= e -> x mod r = 1 -> (x ^ e) mod r = 1.
Proof.
  intros R E X. revert E. apply (natlike_ind (fun e => (x ^ e) mod r = 1)).
  - rewrite Z.pow_0_r. apply Z.mod_1_l. exact R.
  - intros k K IH. rewrite Z.pow_succ_r by exact K. rewrite Z.mul_mod by lia. rewrite X, IH. rewrite Z.mul_1_l. apply Z.mod_1_l. exact R.
Qed.
Lemma pow_of_mod n x e : n <> 0 -> 0 <= e -> ((x mod n) ^ e) mod n = (x ^ e) mod n.
Proof.
  intros N E. revert E. apply (natlike_ind (fun e => ((x mod n) ^ e) mod n = (x ^ e) mod n)); [reflexivity|].
  intros k K IH. rewrite !Z.pow_succ_r by exact K. rewrite (Z.mul_mod (x mod n)), IH, Z.mod_mod by exact N. rewrite <- Z.mul_mod by exact N. reflexivity.
Qed.
Lemma fermat_one r a : prime r -> 0 <= a -> ~ (r | a) -> (a ^ (r - 1)) mod r = 1.
Proof.
  intros P A D. pose proof (prime_ge_2 _ P) as G. pose proof (fermat r a P A) as F.
  assert (E : (r | a * (a ^ (r - 1) - 1))).
  { replace (a * (a ^ (r - 1) - 1)) with (a ^ r - a).
    - apply Z.mod_divide; [lia|]. rewrite Zminus_mod, F, Z.sub_diag. reflexivity.
    - replace r with (Z.succ (r - 1)) at 1 by lia. rewrite Z.pow_succ_r by lia. ring. }
  apply prime_mult in E; [|exact P]. destruct E as [E|[q E]]; [contradiction|].
  replace (a ^ (r - 1)) with (1 + q * r) by lia. rewrite Z.mod_add by lia. apply Z.mod_1_l. lia.
Qed.
Lemma coprime_multiple q s : 1 <= s -> prime q -> ~ (q | s) -> exists u w, 0 <= u /\ 0 <= w /\ u * q = 1 + w * s.
Proof.
  intros S Q D. assert (R : rel_prime q s) by (apply prime_rel_prime; assumption).
  destruct (rel_prime_bezout _ _ R) as [u v B]. pose proof (prime_ge_2 _ Q) as G.
  (* u q + v s = 1; shift u by a multiple of s *)
  set (t := Z.abs u + Z.abs v). exists (u + t * s), (t * q - v). repeat split; nia.
Qed.
(** A prime q of n - 1 with a witness divides r - 1 for every prime divisor r of n. *)
Lemma witness_divides n q k a r :
  1 < n -> prime q -> n - 1 = q * k -> 0 <= a -> (a ^ (n - 1)) mod n = 1 -> Z.gcd ((a ^ k) mod n - 1) n = 1 ->
  prime r -> (r | n) -> (q | r - 1).
Proof.
  intros N Q K A P G R D. pose proof (prime_ge_2 _ R) as R2. pose proof (prime_ge_2 _ Q) as Q2. assert (K0 : 0 < k) by nia.
  destruct (Zdivide_dec q (r - 1)) as [Y|Y]; [exact Y|]. exfalso.
  destruct (coprime_multiple q (r - 1) ltac:(lia) Q Y) as [u [w [U [W E]]]].
  assert (M : forall x, (x mod n) mod r = x mod r).
  { intros x. destruct D as [d D]. rewrite D. rewrite Z.mul_comm. rewrite Z.rem_mul_r by nia. rewrite Z.mul_comm, Z.mod_add by lia. apply Z.mod_mod. lia. }
  assert (P' : (a ^ (n - 1)) mod r = 1) by (rewrite <- M, P; apply Z.mod_1_l; lia).
  assert (NA : ~ (r | a)).
  { intros [c C]. assert (Z0 : (a ^ (n - 1)) mod r = 0); [|lia]. apply Z.mod_divide; [lia|].
    replace (n - 1) with (Z.succ (n - 2)) by lia. rewrite Z.pow_succ_r by lia. exists (c * a ^ (n - 2)). rewrite C at 1. ring. }
  assert (F := fermat_one r a R A NA).
  assert (ONE : (a ^ k) mod r = 1).
  { assert (E1 : (a ^ (k * (u * q))) mod r = 1).
    { replace (k * (u * q)) with ((n - 1) * u) by nia. rewrite Z.pow_mul_r by lia. apply pow_mod_one; lia. }
    rewrite E in E1. replace (k * (1 + w * (r - 1))) with (k + (r - 1) * (k * w)) in E1 by ring.
    assert (0 <= k * w) by nia. rewrite Z.pow_add_r in E1 by nia. rewrite Z.mul_mod in E1 by lia.
    rewrite (Z.pow_mul_r a (r - 1)) in E1 by lia. rewrite (pow_mod_one r (a ^ (r - 1)) (k * w)) in E1 by (lia || exact F).
    rewrite Z.mul_1_r, Z.mod_mod in E1 by lia. exact E1. }
  assert (DD : (r | Z.gcd ((a ^ k) mod n - 1) n)).
  { apply Z.gcd_greatest; [|exact D]. apply Z.mod_divide; [lia|]. rewrite Zminus_mod, M, ONE. rewrite (Z.mod_1_l r) by lia. reflexivity. }
  rewrite G in DD. apply Z.divide_1_r in DD. lia.
Qed.
Lemma pocklington n f :
  1 < n -> n <= f * f -> 0 < f -> (forall r, prime r -> (r | n) -> (f | r - 1)) -> prime n.
Proof.
  intros N L F H. destruct (prime_dec n) as [P|P]; [exact P|]. exfalso.
  destruct (small_prime_divisor n N P) as [r [R [D S]]]. specialize (H r R D). pose proof (prime_ge_2 _ R).
  apply Z.divide_pos_le in H; [|lia]. nia.
Qed.
(** ** Certificates *)
(** the check for one prime q of n - 1 *)
Definition witness (n q a : Z) : bool :=
  match (n - 1) / q, q with
  | Zpos k, Zpos q' =>
      (n - 1 =? q * Zpos k) && (0 <=? a) &&
      (let y := power_mod n a k in (power_mod n y q' =? 1) && (Z.gcd (y - 1) n =? 1))
  | _, _ => false
  end.
Lemma witness_spec n q a r : 1 < n -> prime q -> witness n q a = true -> prime r -> (r | n) -> (q | r - 1).
Proof.
  intros N Q W R D. unfold witness in W. destruct ((n - 1) / q) as [|k|k]; try discriminate. destruct q as [|q|q]; try discriminate.
  cbv zeta in W. rewrite !andb_true_iff, !Z.eqb_eq, Z.leb_le in W. destruct W as [[W1 W2] [W3 W4]].
  rewrite !power_mod_spec in * by lia.
  apply (witness_divides n (Zpos q) (Zpos k) a r); try assumption.
  - rewrite W1. rewrite Z.mul_comm, Z.pow_mul_r by lia. rewrite <- W3. rewrite pow_of_mod by lia. reflexivity.
Qed.
Lemma one_witness n q a : prime q -> (1 <? n) && (n <=? q * q) && witness n q a = true -> prime n.
Proof.
  intros Q C. rewrite !andb_true_iff, Z.ltb_lt, Z.leb_le in C. destruct C as [[N L] W]. pose proof (prime_ge_2 _ Q).
  apply (pocklington n q N L); [lia|]. intros r R D. apply (witness_spec n q a r); assumption.
Qed.
Lemma two_witnesses n q q' a a' : prime q -> prime q' -> q <> q' ->
  (1 <? n) && (n <=? (q * q') * (q * q')) && witness n q a && witness n q' a' = true -> prime n.
Proof.
  intros Q Q' NE C. rewrite !andb_true_iff, Z.ltb_lt, Z.leb_le in C. destruct C as [[[N L] W] W']. pose proof (prime_ge_2 _ Q). pose proof (prime_ge_2 _ Q').
  apply (pocklington n (q * q') N L); [nia|]. intros r R D.
  destruct (witness_spec n q a r N Q W R D) as [c C]. pose proof (witness_spec n q' a' r N Q' W' R D) as D'.
  rewrite C in D'. apply prime_mult in D'; [|exact Q']. destruct D' as [[e E]|D'].
  - exists e. rewrite C, E. ring.
  - exfalso. apply NE. symmetry. apply prime_div_prime; assumption.
Qed.
(** small primes by trial division *)
Fixpoint no_divisor (n d : Z) (steps : nat) : bool :=
  match steps with O => true | S k => if n <? d * d then true else negb (n mod d =? 0) && no_divisor n (d + 1) k end.
Lemma no_divisor_spec n k : forall d, 0 < d -> n < (d + Z.of_nat k) * (d + Z.of_nat k) -> no_divisor n d k = true ->
  forall r, d <= r -> r * r <= n -> ~ (r | n).
Proof.
  induction k as [|k IH]; intros d D L C r R S; [nia|].
  cbn [no_divisor] in C. destruct (Z.ltb_spec n (d * d)) as [B|B]; [nia|].
  rewrite andb_true_iff, negb_true_iff, Z.eqb_neq in C. destruct C as [C1 C2].
  destruct (Z.eq_dec r d) as [-> |NE]; [intros X; apply C1; apply Z.mod_divide; [lia|exact X]|].
  apply (IH (d + 1)); try assumption; lia.
Qed.
Lemma small_prime n k : (1 <? n) && (n <? (2 + Z.of_nat k) * (2 + Z.of_nat k)) && no_divisor n 2 k = true -> prime n.
Proof.
  intros C. rewrite !andb_true_iff, !Z.ltb_lt in C. destruct C as [[N L] C]. destruct (prime_dec n) as [P|P]; [exact P|]. exfalso.
  destruct (small_prime_divisor n N P) as [r [R [D S]]]. pose proof (prime_ge_2 _ R).
  apply (no_divisor_spec n k 2 ltac:(lia) L C r); assumption.
Qed.

(** ** The field and the order of the base point *)
Ltac trial := apply (small_prime _ 60); vm_compute; reflexivity.
Ltac by_one P := apply (one_witness _ _ 2 P); vm_compute; reflexivity.
Ltac by_two P Q := apply (two_witnesses _ _ _ 2 2 P Q); [lia|vm_compute; reflexivity].
Lemma prime_991 : prime 991. Proof. trial. Qed.
Lemma prime_103 : prime 103. Proof. trial. Qed.
Lemma prime_127 : prime 127. Proof. trial. Qed.
Lemma prime_419 : prime 419. Proof. trial. Qed.
Lemma prime_97 : prime 97. Proof. trial. Qed.
Lemma prime_1723 : prime 1723. Proof. trial. Qed.
Lemma prime_173 : prime 173. Proof. trial. Qed.
Lemma prime_73 : prime 73. Proof. trial. Qed.
Lemma prime_2551 : prime 2551. Proof. trial. Qed.
Lemma prime_a1 : prime 8574133. Proof. by_two prime_991 prime_103. Qed.
Lemma prime_a2 : prime 1919519569386763. Proof. by_two prime_a1 prime_127. Qed.
Lemma prime_a3 : prime 569003. Proof. by_two prime_419 prime_97. Qed.
Lemma prime_a4 : prime 2773320623. Proof. by_one prime_a3. Qed.
Lemma prime_a5 : prime 72106336199. Proof. by_one prime_a4. Qed.
Lemma prime_a6 : prime 75445702479781427272750846543864801. Proof. by_two prime_a2 prime_a5. Qed.
Lemma prime_a7 : prime 430751. Proof. by_one prime_1723. Qed.
Lemma prime_a8 : prime 4153. Proof. by_one prime_173. Qed.
Lemma prime_a9 : prime 31757755568855353. Proof. by_two prime_a7 prime_a8. Qed.
Lemma prime_a10 : prime 74058212732561358302231226437062788676166966415465897661863160754340907. Proof. by_two prime_a6 prime_a9. Qed.
Lemma prime_field : prime 57896044618658097711785492504343953926634992332820282019728792003956564819949. Proof. by_one prime_a10. Qed.
Lemma prime_b1 : prime 1224481. Proof. by_one prime_2551. Qed.
Lemma prime_b2 : prime 3797. Proof. by_one prime_73. Qed.
Lemma prime_b3 : prime 531581. Proof. by_one prime_b2. Qed.
Lemma prime_b4 : prime 1257559732178653. Proof. by_two prime_b1 prime_b3. Qed.
Lemma prime_b5 : prime 4434155615661930479. Proof. by_one prime_b4. Qed.
Lemma prime_b6 : prime 172054593956031949258510691. Proof. by_one prime_b5. Qed.
Lemma prime_b7 : prime 19757330305831588566944191468367130476339. Proof. by_one prime_b6. Qed.
Lemma prime_b8 : prime 276602624281642239937218680557139826668747. Proof. by_one prime_b7. Qed.
Lemma prime_order : prime 7237005577332262213973186563042994240857116359379907606001950938285454250989. Proof. by_one prime_b8. Qed.
