(** Multiples in abelian groups, by doubling. *)
From Coq Require Import ZArith Lia.
Local Open Scope Z_scope.

Section Abelian.
Variables (G : Type) (add : G -> G -> G) (neg : G -> G) (zero : G).
Hypothesis comm : forall P Q, add P Q = add Q P.
Hypothesis assoc : forall P Q R, add P (add Q R) = add (add P Q) R.
Hypothesis add_zero : forall P, add P zero = P.
Hypothesis add_neg : forall P, add P (neg P) = zero.

Fixpoint mul_pos (n : positive) (P : G) : G :=
  match n with
  | xH => P
  | xO m => let Q := mul_pos m P in add Q Q
  | xI m => let Q := mul_pos m P in add P (add Q Q)
  end.
Definition times (n : Z) (P : G) : G :=
  match n with Z0 => zero | Zpos m => mul_pos m P | Zneg m => neg (mul_pos m P) end.

Lemma zero_add P : add zero P = P. Proof. rewrite comm. apply add_zero. Qed.
Lemma neg_add P : add (neg P) P = zero. Proof. rewrite comm. apply add_neg. Qed.
Lemma swap4 P Q R S : add (add P Q) (add R S) = add (add P R) (add Q S).
Proof. rewrite <- !assoc. f_equal. rewrite !assoc. f_equal. apply comm. Qed.
Lemma cancel P Q R : add P Q = add P R -> Q = R.
Proof. intros E. apply (f_equal (add (neg P))) in E. rewrite !assoc, neg_add, !zero_add in E. exact E. Qed.
Lemma neg_unique P Q : add P Q = zero -> Q = neg P.
Proof. intros E. apply (cancel P). rewrite E, add_neg. reflexivity. Qed.
Lemma neg_plus P Q : neg (add P Q) = add (neg P) (neg Q).
Proof. symmetry. apply neg_unique. rewrite swap4, !add_neg. apply add_zero. Qed.
Lemma neg_neg P : neg (neg P) = P. Proof. symmetry. apply neg_unique. apply neg_add. Qed.
Lemma neg_zero : neg zero = zero. Proof. symmetry. apply neg_unique. apply add_zero. Qed.

Lemma mul_pos_succ n P : mul_pos (Pos.succ n) P = add P (mul_pos n P).
Proof.
  induction n as [n IH|n IH|]; cbn [Pos.succ mul_pos]; try reflexivity.
  cbv zeta. rewrite IH. rewrite <- assoc. f_equal. rewrite !assoc. f_equal. apply comm.
Qed.
Lemma times_succ n P : times (Z.succ n) P = add P (times n P).
Proof.
  destruct n as [|n|n]; unfold Z.succ.
  - cbn. symmetry. apply add_zero.
  - replace (Zpos n + 1) with (Zpos (Pos.succ n)) by lia. apply mul_pos_succ.
  - destruct (Pos.eq_dec n 1) as [-> |N]; [cbn; symmetry; apply add_neg|].
    replace (Zneg n + 1) with (Zneg (Pos.pred n)) by lia. cbn [times].
    rewrite <- (Pos.succ_pred n N) at 2. rewrite mul_pos_succ, neg_plus, assoc, add_neg, zero_add. reflexivity.
Qed.
Lemma times_pred n P : times (Z.pred n) P = add (neg P) (times n P).
Proof. rewrite <- (Z.succ_pred n) at 2. rewrite times_succ, assoc, neg_add, zero_add. reflexivity. Qed.
Lemma times_add a b P : times (a + b) P = add (times a P) (times b P).
Proof.
  induction a as [|a IH|a IH] using Z.peano_ind.
  - rewrite Z.add_0_l. cbn [times]. rewrite zero_add. reflexivity.
  - rewrite Z.add_succ_l, !times_succ, IH. apply assoc.
  - rewrite Z.add_pred_l, !times_pred, IH. apply assoc.
Qed.
Lemma times_zero n : times n zero = zero.
Proof.
  induction n as [|n IH|n IH] using Z.peano_ind; [reflexivity| |].
  - rewrite times_succ, IH. apply add_zero.
  - rewrite times_pred, IH, add_zero. apply neg_zero.
Qed.
Lemma times_opp a P : times (- a) P = neg (times a P).
Proof. apply neg_unique. rewrite <- times_add. replace (a + - a) with 0 by ring. reflexivity. Qed.
Lemma times_dist a P Q : times a (add P Q) = add (times a P) (times a Q).
Proof.
  induction a as [|a IH|a IH] using Z.peano_ind.
  - cbn. symmetry. apply add_zero.
  - rewrite !times_succ, IH. apply swap4.
  - rewrite !times_pred, IH, neg_plus. apply swap4.
Qed.
Lemma times_mul a b P : times (a * b) P = times a (times b P).
Proof.
  induction a as [|a IH|a IH] using Z.peano_ind.
  - reflexivity.
  - rewrite Z.mul_succ_l, times_add, times_succ, IH. apply comm.
  - rewrite times_pred, <- IH. replace (Z.pred a * b) with (- b + a * b) by lia. rewrite times_add, times_opp. reflexivity.
Qed.
End Abelian.
