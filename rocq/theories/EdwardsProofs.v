(** The group law of twisted Edwards curves y^2 - x^2 = 1 + d x^2 y^2 over a field in which -1 is a square and d
    is not. *)
From Coq Require Import Ring Field Eqdep_dec.
From Coq Require Import NsatzTactic Cring Integral_domain.

Section Edwards.
Variables (F : Type) (fzero fone : F) (fadd fmul fsub : F -> F -> F) (fopp : F -> F) (fdiv : F -> F -> F) (finv : F -> F).
Hypothesis Fth : field_theory fzero fone fadd fmul fsub fopp fdiv finv (@eq F).
Hypothesis eq_dec : forall a b : F, {a = b} + {a <> b}.
Hypothesis domain : forall a b, fmul a b = fzero -> a = fzero \/ b = fzero.
Add Field Ff : Fth.
Declare Scope F_scope. Delimit Scope F_scope with F. Local Open Scope F_scope.
Notation "0" := fzero : F_scope. Notation "1" := fone : F_scope.
Infix "+" := fadd : F_scope. Infix "*" := fmul : F_scope. Infix "-" := fsub : F_scope. Infix "/" := fdiv : F_scope.
Notation "- x" := (fopp x) : F_scope.

#[local] Instance Fops : (@Ring_ops F fzero fone fadd fmul fsub fopp (@eq F)). Defined.
#[local] Instance Fri : (Ring (Ro := Fops)).
Proof.
  constructor; try exact eq_equivalence; try solve [cbv; intros; ring];
    solve [repeat intro; cbv in *; congruence].
Qed.
#[local] Instance Fcri : (Cring (Rr := Fri)).
Proof. intros a b. cbv. ring. Qed.
#[local] Instance Fdi : (Integral_domain (Rcr := Fcri)).
Proof. constructor; [exact domain|cbv; exact (F_1_neq_0 Fth)]. Qed.

Variables d i : F.
Hypothesis two : 1 + 1 <> 0.
Hypothesis i_square : i * i = - (1).
Hypothesis d_nonsquare : forall x, x * x <> d.

Definition on (x y : F) : Prop := y * y - x * x = 1 + d * (x * x * (y * y)).

(** ** Completeness: the denominators are never zero *)
Lemma i_nonzero : i <> 0.
Proof. intros E. apply (F_1_neq_0 Fth). apply (f_equal fopp) in i_square. rewrite E in i_square. transitivity (- - (1)); [ring|]. rewrite <- i_square. ring. Qed.
Lemma ne_mul a b : a <> 0 -> b <> 0 -> a * b <> 0.
Proof. intros A B E. destruct (domain a b E); contradiction. Qed.
(** d times a nonzero square is not a square *)
Lemma not_square a b : a <> 0 -> b * b = d * (a * a) -> False.
Proof. intros A E. apply (d_nonsquare (b / a)). transitivity ((b * b) / (a * a)); [field; exact A|]. rewrite E. field. exact A. Qed.
Lemma complete e x1 y1 x2 y2 : on x1 y1 -> on x2 y2 -> e * e = 1 -> d * (x1 * x2 * (y1 * y2)) = e -> False.
Proof.
  unfold on. intros E1 E2 Ee Ed.
  assert (N : forall a, e = d * (0 * a) -> False).
  { intros a Z. apply (F_1_neq_0 Fth). rewrite <- Ee, Z. ring. }
  assert (X1 : x1 <> 0) by (intros Z; apply (N (x2 * (y1 * y2))); rewrite <- Ed, Z; ring).
  assert (X2 : x2 <> 0) by (intros Z; apply (N (x1 * (y1 * y2))); rewrite <- Ed, Z; ring).
  assert (Y1 : y1 <> 0) by (intros Z; apply (N (x1 * (x2 * y2))); rewrite <- Ed, Z; ring).
  (* with X = i x the curve is X^2 + y^2 = 1 - d X^2 y^2 *)
  assert (P : (i * (i * x1 + e * y1)) * (i * (i * x1 + e * y1)) = d * ((i * x1 * y1 * (i * x2 + y2)) * (i * x1 * y1 * (i * x2 + y2)))).
  { subst e. nsatz. }
  assert (Q : (i * (i * x1 - e * y1)) * (i * (i * x1 - e * y1)) = d * ((i * x1 * y1 * (i * x2 - y2)) * (i * x1 * y1 * (i * x2 - y2)))).
  { subst e. nsatz. }
  destruct (eq_dec (i * x2 + y2) 0) as [Z|Z].
  - destruct (eq_dec (i * x2 - y2) 0) as [W|W].
    + assert (S : (1 + 1) * (i * x2) = 0) by (transitivity ((i * x2 + y2) + (i * x2 - y2)); [ring|rewrite Z, W; ring]).
      revert S. apply ne_mul; [exact two|apply ne_mul; [exact i_nonzero|exact X2]].
    + apply not_square in Q; [exact Q|]. repeat apply ne_mul; try assumption. exact i_nonzero.
  - apply not_square in P; [exact P|]. repeat apply ne_mul; try assumption. exact i_nonzero.
Qed.
Lemma denominators x1 y1 x2 y2 : on x1 y1 -> on x2 y2 ->
  1 + d * (x1 * x2 * (y1 * y2)) <> 0 /\ 1 - d * (x1 * x2 * (y1 * y2)) <> 0.
Proof.
  intros A B. split; intros E.
  - apply (complete (- (1)) x1 y1 x2 y2 A B); [ring|]. transitivity (- (1) + (1 + d * (x1 * x2 * (y1 * y2)))); [ring|]. rewrite E. ring.
  - apply (complete 1 x1 y1 x2 y2 A B); [ring|]. transitivity (1 - (1 - d * (x1 * x2 * (y1 * y2)))); [ring|]. rewrite E. ring.
Qed.

(** ** Points *)
Record pt := mkPt { px : F; py : F; p_on : on px py }.
Lemma pt_eq P Q : px P = px Q -> py P = py Q -> P = Q.
Proof. destruct P as [x y E], Q as [x' y' E']. cbn. intros <- <-. f_equal. apply UIP_dec. exact eq_dec. Qed.
Definition sum_x (P Q : pt) : F := (px P * py Q + px Q * py P) / (1 + d * (px P * px Q * (py P * py Q))).
Definition sum_y (P Q : pt) : F := (py P * py Q + px P * px Q) / (1 - d * (px P * px Q * (py P * py Q))).
Lemma fraction a b c e : b <> 0 -> e <> 0 -> a * e = c * b -> a / b = c / e.
Proof. intros B E H. transitivity ((a * e) / (b * e)); [field; split; assumption|]. rewrite H. field. split; assumption. Qed.
Lemma sum_on P Q : on (sum_x P Q) (sum_y P Q).
Proof.
  destruct P as [x1 y1 E1], Q as [x2 y2 E2]. unfold sum_x, sum_y. cbn [px py].
  destruct (denominators x1 y1 x2 y2 E1 E2) as [D1 D2]. unfold on in *.
  set (t := d * (x1 * x2 * (y1 * y2))) in *. set (A := x1 * y2 + x2 * y1). set (B := y1 * y2 + x1 * x2).
  assert (M : (B*(1+t))*(B*(1+t)) - (A*(1-t))*(A*(1-t)) = (1-t*t)*(1-t*t) + d*(A*A*(B*B))) by (unfold t, A, B; nsatz).
  assert (L : B / (1 - t) * (B / (1 - t)) - A / (1 + t) * (A / (1 + t)) = ((B*(1+t))*(B*(1+t)) - (A*(1-t))*(A*(1-t))) / ((1-t*t)*(1-t*t))).
  { field. repeat split; try assumption. replace (1 - t * t) with ((1 + t) * (1 - t)) by ring. apply ne_mul; assumption. }
  rewrite L, M. field. repeat split; try assumption. replace (1 - t * t) with ((1 + t) * (1 - t)) by ring. apply ne_mul; assumption.
Qed.
Definition plus (P Q : pt) : pt := mkPt (sum_x P Q) (sum_y P Q) (sum_on P Q).
Lemma zero_on : on 0 1. Proof. unfold on. ring. Qed.
Definition origin : pt := mkPt 0 1 zero_on.
Lemma neg_on P : on (- px P) (py P). Proof. destruct P as [x y E]. cbn [px py]. unfold on in *. transitivity (y * y - x * x); [ring|]. rewrite E. ring. Qed.
Definition minus (P : pt) : pt := mkPt (- px P) (py P) (neg_on P).

Lemma plus_comm P Q : plus P Q = plus Q P.
Proof. apply pt_eq; cbn [px py plus]; unfold sum_x, sum_y; f_equal; ring. Qed.
Lemma one_nonzero : (1 : F) <> 0. Proof. exact (F_1_neq_0 Fth). Qed.
Lemma over_one a b : b = 1 -> a / b = a.
Proof. intros ->. field. exact one_nonzero. Qed.
Lemma plus_origin P : plus P origin = P.
Proof.
  apply pt_eq; cbn [px py plus origin]; unfold sum_x, sum_y; cbn [px py origin]; rewrite over_one; ring.
Qed.
Lemma plus_minus P : plus P (minus P) = origin.
Proof.
  destruct (denominators _ _ _ _ (p_on P) (p_on (minus P))) as [D1 D2]. destruct P as [x y E].
  apply pt_eq; cbn [px py plus minus origin] in *; unfold sum_x, sum_y; cbn [px py minus] in *.
  - transitivity (0 / (1 + d * (x * - x * (y * y)))); [f_equal; ring|]. field. exact D1.
  - unfold on in E. transitivity ((1 - d * (x * - x * (y * y))) / (1 - d * (x * - x * (y * y)))); [f_equal; nsatz|]. field. exact D2.
Qed.
Lemma nested_plus k n m u v : u <> 0 -> v <> 0 -> 1 + m <> 0 -> n * (u * v) = k -> forall w, m * (u * v) = w ->
  n / (1 + m) = k / (u * v + w) /\ u * v + w <> 0.
Proof.
  intros U V M <- w <-. assert (E : u * v + m * (u * v) = (1 + m) * (u * v)) by ring. rewrite E. split.
  - field. repeat split; assumption.
  - repeat apply ne_mul; assumption.
Qed.
Lemma minus_plus a : 1 - a = 1 + - a. Proof. ring. Qed.
Lemma plus_assoc P Q R : plus P (plus Q R) = plus (plus P Q) R.
Proof.
  destruct (denominators _ _ _ _ (p_on P) (p_on (plus Q R))) as [N1 N2].
  destruct (denominators _ _ _ _ (p_on (plus P Q)) (p_on R)) as [M1 M2].
  destruct (denominators _ _ _ _ (p_on P) (p_on Q)) as [T1 T2].
  destruct (denominators _ _ _ _ (p_on Q) (p_on R)) as [S1 S2].
  destruct P as [x1 y1 E1], Q as [x2 y2 E2], R as [x3 y3 E3].
  cbn [px py plus] in *; unfold sum_x, sum_y in *; cbn [px py plus] in *; unfold on in *.
  set (t := d * (x1 * x2 * (y1 * y2))) in *. set (A := x1 * y2 + x2 * y1) in *. set (B := y1 * y2 + x1 * x2) in *.
  set (s := d * (x2 * x3 * (y2 * y3))) in *. set (C := x2 * y3 + x3 * y2) in *. set (D := y2 * y3 + x2 * x3) in *.
  apply pt_eq; cbn [px py plus]; unfold sum_x, sum_y; cbn [px py plus]; unfold sum_x, sum_y; cbn [px py];
    fold t A B s C D.
  - destruct (nested_plus (x1 * D * (1 + s) + C * y1 * (1 - s)) (x1 * (D / (1 - s)) + C / (1 + s) * y1) (d * (x1 * (C / (1 + s)) * (y1 * (D / (1 - s))))) (1 + s) (1 - s) S1 S2 N1 ltac:(field; split; assumption)
        (d * (C * D * (x1 * y1))) ltac:(field; split; assumption)) as [-> L].
    destruct (nested_plus (A * y3 * (1 - t) + x3 * B * (1 + t)) (A / (1 + t) * y3 + x3 * (B / (1 - t))) (d * (A / (1 + t) * x3 * (B / (1 - t) * y3))) (1 + t) (1 - t) T1 T2 M1 ltac:(field; split; assumption)
        (d * (A * B * (x3 * y3))) ltac:(field; split; assumption)) as [-> L'].
    apply fraction; [exact L|exact L'|]. clear N1 N2 M1 M2 L L' T1 T2 S1 S2. unfold t, A, B, s, C, D. nsatz.
  - rewrite minus_plus in N2, M2. rewrite (minus_plus (d * (x1 * _ * _))), (minus_plus (d * (A / _ * _ * _))).
    destruct (nested_plus (y1 * D * (1 + s) + x1 * C * (1 - s)) (y1 * (D / (1 - s)) + x1 * (C / (1 + s))) (- (d * (x1 * (C / (1 + s)) * (y1 * (D / (1 - s)))))) (1 + s) (1 - s) S1 S2 N2 ltac:(field; split; assumption)
        (- (d * (C * D * (x1 * y1)))) ltac:(field; split; assumption)) as [-> L].
    destruct (nested_plus (B * y3 * (1 + t) + A * x3 * (1 - t)) (B / (1 - t) * y3 + A / (1 + t) * x3) (- (d * (A / (1 + t) * x3 * (B / (1 - t) * y3)))) (1 + t) (1 - t) T1 T2 M2 ltac:(field; split; assumption)
        (- (d * (A * B * (x3 * y3)))) ltac:(field; split; assumption)) as [-> L'].
    apply fraction; [exact L|exact L'|]. clear N1 N2 M1 M2 L L' T1 T2 S1 S2. unfold t, A, B, s, C, D. nsatz.
Qed.
End Edwards.
