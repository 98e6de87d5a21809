(** Fermat's little theorem for the integers of the standard library. *)
From Coq Require Import ZArith Znumtheory Lia.
From mathcomp Require ssreflect ssrbool eqtype ssrnat div prime binomial.
Import ssreflect ssrbool eqtype ssrnat div prime binomial.

Lemma expn_pow a n : expn a n = Nat.pow a n.
Proof. induction n as [|n IH]; [reflexivity|]. rewrite expnS IH. reflexivity. Qed.
Lemma modn_mod a n : n <> O -> modn a n = Nat.modulo a n.
Proof.
  intros N. apply (Nat.mod_unique a n (divn a n) (modn a n)).
  - apply/ltP. rewrite ltn_mod. destruct n; [contradiction|reflexivity].
  - rewrite {1}(divn_eq a n). rewrite mulnC. reflexivity.
Qed.
Lemma prime_nat r : Znumtheory.prime (Z.of_nat r) -> prime r.
Proof.
  intros P. pose proof (prime_ge_2 _ P) as G. apply/primeP. split; [apply/ltP; lia|].
  intros d D. move/dvdnP: D => [k E].
  assert (D : (Z.of_nat d | Z.of_nat r)%Z) by (exists (Z.of_nat k); rewrite E; rewrite <- Nat2Z.inj_mul; reflexivity).
  apply (prime_divisors _ P) in D.
  assert (d = S O \/ d = r) as [-> | ->] by (clear E; lia); [reflexivity|].
  apply/orP. right. apply/eqP. reflexivity.
Qed.
Lemma fermat_nat r a : Znumtheory.prime (Z.of_nat r) -> Nat.modulo (Nat.pow a r) r = Nat.modulo a r.
Proof.
  intros P. pose proof (prime_ge_2 _ P) as G. rewrite - !modn_mod; [|lia|lia]. rewrite - expn_pow.
  apply fermat_little. apply prime_nat. exact P.
Qed.

Local Open Scope Z_scope.
Lemma fermat r a : Znumtheory.prime r -> 0 <= a -> (a ^ r) mod r = a mod r.
Proof.
  intros P A. pose proof (prime_ge_2 _ P) as G.
  pose proof (fermat_nat (Z.to_nat r) (Z.to_nat a)) as F. rewrite Z2Nat.id in F; [|lia]. specialize (F P).
  apply (f_equal Z.of_nat) in F. rewrite !Nat2Z.inj_mod Nat2Z.inj_pow !Z2Nat.id in F; lia.
Qed.
