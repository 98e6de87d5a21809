(** The points of edwards25519 and their extended coordinates. *)
From Coq Require Import Znumtheory Field.
From Verif Require Import Base PrimeProofs FieldProofs AbelianProofs EdwardsProofs CurveModel Field25519Proofs.
Local Open Scope Z_scope.

Add Field F25519 : field25519.
Declare Scope F_scope. Delimit Scope F_scope with F.
Notation "0" := f0 : F_scope. Notation "1" := f1 : F_scope.
Infix "+" := fplus : F_scope. Infix "*" := ftimes : F_scope. Infix "-" := fminus : F_scope. Infix "/" := fdiv : F_scope.
Notation "- x" := (fopp x) : F_scope.

Definition d := f edwards_d.
Definition i := f sqrt_m1.
Lemma f_two : (1 + 1 <> 0)%F.
Proof.
  change (fplus (f 1) (f 1) <> f 0). destruct (fadd_ok 1 1 canon_one canon_one) as [C E]. rewrite <- E.
  intros H. apply f_inj in H; [|exact C|exact canon_zero]. vm_compute in H. discriminate.
Qed.
Ltac canon := split; [discriminate|rewrite p_value; reflexivity].
Lemma canon_i : canon sqrt_m1. Proof. canon. Qed.
Lemma canon_d : canon edwards_d. Proof. canon. Qed.
Lemma i_square : (i * i = - (1))%F.
Proof.
  unfold i. destruct (fmul_ok _ _ canon_i canon_i) as [_ <-]. rewrite <- f_one. destruct (fneg_ok _ canon_one) as [_ <-].
  f_equal.
Qed.

(** *** d is not a square: its power (p - 1) / 2 is not 1.  With p = 2^255 - 19 it is enough to compare the power
    2^254 with the power 10. *)
Definition fsquare (a : Z) : Z := reduce (Z.square a).
Lemma fsquare_eq a : fsquare a = fmul a a. Proof. unfold fsquare, fmul. rewrite Z.square_spec. reflexivity. Qed.
Fixpoint squares (n : nat) (a : Z) : Z := match n with O => a | S n => squares n (fsquare a) end.
Fixpoint two_to (n : nat) : positive := match n with O => xH | S n => xO (two_to n) end.
Lemma power_square a n : fpower (a * a)%F n = fpower a (xO n).
Proof.
  unfold fpower, ftimes. rewrite mul_pow, <- pow_add. f_equal. lia.
Qed.
Lemma squares_ok n a : canon a -> canon (squares n a) /\ f (squares n a) = fpower (f a) (two_to n).
Proof.
  revert a. induction n as [|n IH]; intros a A; cbn [squares two_to].
  - split; [exact A|reflexivity].
  - rewrite fsquare_eq. destruct (fmul_ok _ _ A A) as [C E]. destruct (IH _ C) as [C' E']. split; [exact C'|].
    rewrite E', E. apply power_square.
Qed.
Definition half_order : positive := Eval vm_compute in Z.to_pos ((2 ^ 255 - 20) / 2).
Lemma square_power a : a <> f0 -> fpower (a * a)%F half_order = f1.
Proof.
  intros N. rewrite power_square. replace (xO half_order) with (Z.to_pos (p25519 - 1)) by (rewrite p_value; reflexivity).
  apply pow_fermat. exact N.
Qed.
Lemma power_add a n m : fpower a (n + m) = (fpower a n * fpower a m)%F.
Proof. apply pow_add. Qed.
Lemma nonsquare n z : canon z -> z <> 0 -> two_to n = (half_order + 10)%positive -> (squares n z =? fpow z 10) = false ->
  forall x, (x * x <> f z)%F.
Proof.
  intros C NZ W D x E. destruct (f_dec x f0) as [Z|N].
  - apply NZ. apply f_inj; [exact C|exact canon_zero|]. rewrite <- E, Z, f_zero. ring.
  - apply square_power in N. rewrite E in N. apply Z.eqb_neq in D. apply D.
    destruct (squares_ok n _ C) as [C1 E1]. destruct (fpow_ok z 10 C) as [C2 E2].
    apply f_inj; [exact C1|exact C2|]. rewrite E1, E2, W, power_add, N. ring.
Qed.
Lemma d_powers : (squares 254 edwards_d =? fpow edwards_d 10) = false.
Proof. vm_compute. reflexivity. Qed.
Lemma two_254 : two_to 254 = (half_order + 10)%positive. Proof. vm_compute. reflexivity. Qed.
Lemma d_nonsquare x : (x * x <> d)%F.
Proof. exact (nonsquare 254 edwards_d canon_d ltac:(discriminate) two_254 d_powers x). Qed.

(** ** The group *)
Definition apt : Type := EdwardsProofs.pt F f1 fplus ftimes fminus d.
Definition ax : apt -> F := EdwardsProofs.px F f1 fplus ftimes fminus d.
Definition ay : apt -> F := EdwardsProofs.py F f1 fplus ftimes fminus d.
Definition on25519 : F -> F -> Prop := EdwardsProofs.on F f1 fplus ftimes fminus d.
Definition aplus : apt -> apt -> apt := EdwardsProofs.plus F f0 f1 fplus ftimes fminus fopp fdiv finverse field25519 f_dec f_domain d i f_two i_square d_nonsquare.
Definition azero : apt := EdwardsProofs.origin F f0 f1 fplus ftimes fminus fopp fdiv finverse field25519 d.
Definition aneg : apt -> apt := EdwardsProofs.minus F f0 f1 fplus ftimes fminus fopp fdiv finverse field25519 d.
Definition amul : Z -> apt -> apt := times apt aplus aneg azero.
Lemma a_on P : on25519 (ax P) (ay P). Proof. destruct P. assumption. Qed.
Lemma a_eq P Q : ax P = ax Q -> ay P = ay Q -> P = Q.
Proof. apply pt_eq. exact f_dec. Qed.
Lemma a_comm P Q : aplus P Q = aplus Q P. Proof. apply plus_comm. Qed.
Lemma a_assoc P Q R : aplus P (aplus Q R) = aplus (aplus P Q) R. Proof. apply plus_assoc. Qed.
Lemma a_add_zero P : aplus P azero = P. Proof. apply plus_origin. Qed.
Lemma a_add_neg P : aplus P (aneg P) = azero. Proof. apply plus_minus. Qed.
Lemma aplus_x P Q : ax (aplus P Q) = ((ax P * ay Q + ax Q * ay P) / (1 + d * (ax P * ax Q * (ay P * ay Q))))%F. Proof. reflexivity. Qed.
Lemma aplus_y P Q : ay (aplus P Q) = ((ay P * ay Q + ax P * ax Q) / (1 - d * (ax P * ax Q * (ay P * ay Q))))%F. Proof. reflexivity. Qed.
Lemma a_denominators P Q : (1 + d * (ax P * ax Q * (ay P * ay Q)) <> 0 /\ 1 - d * (ax P * ax Q * (ay P * ay Q)) <> 0)%F.
Proof.
  apply (denominators F f0 f1 fplus ftimes fminus fopp fdiv finverse field25519 f_dec f_domain d i f_two i_square d_nonsquare); [apply (a_on P)|apply (a_on Q)].
Qed.
Lemma f_ne_mul a b : (a <> 0 -> b <> 0 -> a * b <> 0)%F. Proof. intros A B E. destruct (f_domain a b E); contradiction. Qed.

(** ** Extended coordinates *)
Record rep (P : apt) (Q : point) : Prop := {
  r_cx : canon (px Q); r_cy : canon (py Q); r_cz : canon (pz Q); r_ct : canon (p_t Q);
  r_z : f (pz Q) <> f0;
  r_x : f (px Q) = (ax P * f (pz Q))%F; r_y : f (py Q) = (ay P * f (pz Q))%F; r_t : f (p_t Q) = (ax P * ay P * f (pz Q))%F
}.
Lemma canon_add a b : canon a -> canon b -> canon (fadd a b). Proof. apply fadd_ok. Qed.
Lemma canon_sub a b : canon a -> canon b -> canon (fsub a b). Proof. apply fsub_ok. Qed.
Lemma canon_mul a b : canon a -> canon b -> canon (fmul a b). Proof. apply fmul_ok. Qed.
Lemma canon_neg a : canon a -> canon (fneg a). Proof. apply fneg_ok. Qed.
Lemma canon_pow a n : canon a -> canon (fpow a n). Proof. apply fpow_ok. Qed.
Lemma canon_inv a : canon a -> canon (finv a). Proof. apply finv_ok. Qed.
Lemma f_add a b : canon a -> canon b -> f (fadd a b) = (f a + f b)%F. Proof. apply fadd_ok. Qed.
Lemma f_sub a b : canon a -> canon b -> f (fsub a b) = (f a - f b)%F. Proof. apply fsub_ok. Qed.
Lemma f_mul a b : canon a -> canon b -> f (fmul a b) = (f a * f b)%F. Proof. apply fmul_ok. Qed.
Lemma f_neg a : canon a -> f (fneg a) = (- f a)%F. Proof. apply fneg_ok. Qed.
Lemma f_pow a n : canon a -> f (fpow a n) = fpower (f a) n. Proof. apply fpow_ok. Qed.
Lemma f_inv a : canon a -> f (finv a) = finverse (f a). Proof. apply finv_ok. Qed.
#[global] Hint Resolve canon_add canon_sub canon_mul canon_neg canon_pow canon_inv canon_zero canon_one canon_d canon_i : canon.
Ltac push := repeat first [rewrite f_mul by auto 20 with canon | rewrite f_add by auto 20 with canon | rewrite f_sub by auto 20 with canon
  | rewrite f_neg by auto 20 with canon | rewrite f_pow by auto 20 with canon | rewrite f_inv by auto 20 with canon].
Lemma f_cancel a b : (a * b <> 0 -> b <> 0)%F. Proof. intros N E. apply N. rewrite E. ring. Qed.
Lemma rep_zero : rep azero identity.
Proof.
  constructor; cbn [px py pz p_t identity]; try exact canon_zero; try exact canon_one; rewrite ?f_zero, ?f_one; change (ax azero) with f0; change (ay azero) with f1.
  - exact (F_1_neq_0 field25519).
  - ring.
  - ring.
  - ring.
Qed.
Lemma rep_neg P Q : rep P Q -> rep (aneg P) (edwards_neg Q).
Proof.
  intros [CX CY CZ CT Z X Y T]. unfold edwards_neg.
  constructor; cbn [px py pz p_t]; auto with canon; change (ax (aneg P)) with (fopp (ax P)); change (ay (aneg P)) with (ay P); push.
  - rewrite X. ring.
  - rewrite T. ring.
Qed.
Lemma add_formulas x1 y1 z1 x2 y2 z2 dd : (z1 <> 0 -> z2 <> 0 -> 1 + dd * (x1 * x2 * (y1 * y2)) <> 0 -> 1 - dd * (x1 * x2 * (y1 * y2)) <> 0 ->
  let a := (y1 * z1 - x1 * z1) * (y2 * z2 - x2 * z2) in let b := (y1 * z1 + x1 * z1) * (y2 * z2 + x2 * z2) in
  let c := (x1 * y1 * z1) * (dd + dd) * (x2 * y2 * z2) in let e := (z1 + z1) * z2 in
  let x := (x1 * y2 + x2 * y1) / (1 + dd * (x1 * x2 * (y1 * y2))) in let y := (y1 * y2 + x1 * x2) / (1 - dd * (x1 * x2 * (y1 * y2))) in
  let Z := (e - c) * (e + c) in
  Z <> 0 /\ (b - a) * (e - c) = x * Z /\ (e + c) * (b + a) = y * Z /\ (b - a) * (b + a) = x * y * Z)%F.
Proof.
  intros Z1 Z2 N1 N2. cbv zeta. split; [|split; [|split]].
  - replace (((z1 + z1) * z2 - x1 * y1 * z1 * (dd + dd) * (x2 * y2 * z2)) * ((z1 + z1) * z2 + x1 * y1 * z1 * (dd + dd) * (x2 * y2 * z2)))%F
      with ((1 + 1) * (1 + 1) * (z1 * z2) * (z1 * z2) * (1 + dd * (x1 * x2 * (y1 * y2))) * (1 - dd * (x1 * x2 * (y1 * y2))))%F by ring.
    repeat apply f_ne_mul; try assumption; exact f_two.
  - field. exact N1.
  - field. exact N2.
  - field. split; assumption.
Qed.
Lemma rep_add P P' Q Q' : rep P Q -> rep P' Q' -> rep (aplus P P') (edwards_add Q Q').
Proof.
  intros [CX CY CZ CT Z X Y T] [CX' CY' CZ' CT' Z' X' Y' T']. unfold edwards_add.
  destruct (a_denominators P P') as [N1 N2].
  destruct (add_formulas _ _ _ _ _ _ _ Z Z' N1 N2) as (FZ & FX & FY & FT).
  constructor; cbv zeta; cbn [px py pz p_t]; auto 20 with canon; rewrite ?aplus_x, ?aplus_y; push; fold d; rewrite ?X, ?Y, ?X', ?Y', ?T, ?T'; assumption.
Qed.
Lemma rep_mul_pos n P Q : rep P Q -> rep (mul_pos apt aplus n P) (edwards_mul_pos n Q).
Proof. intros R. induction n as [n IH|n IH|]; cbn [mul_pos edwards_mul_pos]; cbv zeta; repeat apply rep_add; assumption. Qed.
Lemma rep_mul n P Q : rep P Q -> rep (amul n P) (edwards_mul n Q).
Proof.
  intros R. unfold amul, times, edwards_mul. destruct n; [exact rep_zero|apply rep_mul_pos; exact R|apply rep_neg, rep_mul_pos; exact R].
Qed.

(** ** Doubling and adding an affine point, in projective coordinates *)
Definition triple : Type := Z * Z * Z.
Definition double (t : triple) : triple :=
  let '(x, y, z) := t in
  let b := fsquare (fadd x y) in let c := fsquare x in let e := fsquare y in
  let g := fsub e c in let h := fsquare z in let j := fsub g (fadd h h) in
  (fmul (fsub (fsub b c) e) j, fmul g (fneg (fadd c e)), fmul g j).
Definition add_affine (t : triple) (x2 y2 : Z) : triple :=
  let '(x, y, z) := t in
  let b := fsquare z in let c := fmul x x2 in let e := fmul y y2 in let g := fmul (fmul edwards_d c) e in
  let p := fsub b g in let q := fadd b g in
  (fmul (fmul z p) (fsub (fsub (fmul (fadd x y) (fadd x2 y2)) c) e), fmul (fmul z q) (fadd e c), fmul p q).
Fixpoint chain (n : positive) (x y : Z) : triple :=
  match n with
  | xH => (x, y, 1)
  | xO m => double (chain m x y)
  | xI m => add_affine (double (chain m x y)) x y
  end.
Definition rep3 (P : apt) (t : triple) : Prop :=
  let '(x, y, z) := t in canon x /\ canon y /\ canon z /\ f z <> f0 /\ f x = (ax P * f z)%F /\ f y = (ay P * f z)%F.
Lemma double_formulas x y z t : (z <> 0 -> 1 + t <> 0 -> 1 - t <> 0 -> y * y - x * x = 1 + t ->
  let b := (x * z + y * z) * (x * z + y * z) in let c := (x * z) * (x * z) in let e := (y * z) * (y * z) in
  let g := e - c in let j := g - (z * z + z * z) in
  g * j <> 0 /\ (b - c - e) * j = (x * y + x * y) / (1 + t) * (g * j) /\ g * - (c + e) = (y * y + x * x) / (1 - t) * (g * j))%F.
Proof.
  intros Z N1 N2 O. cbv zeta.
  assert (G : ((y * z) * (y * z) - (x * z) * (x * z) = z * z * (1 + t))%F) by (rewrite <- O; ring). rewrite G.
  replace (z * z * (1 + t) - (z * z + z * z))%F with (- (z * z * (1 - t)))%F by ring.
  split; [|split; field; assumption].
  replace (z * z * (1 + t) * - (z * z * (1 - t)))%F with (- (1) * (z * z * (1 + t) * (z * z * (1 - t))))%F by ring.
  apply f_ne_mul; [|repeat apply f_ne_mul; assumption].
  intros E. apply (F_1_neq_0 field25519). transitivity (- - (1))%F; [ring|]. rewrite E. ring.
Qed.
Lemma rep3_double P t : rep3 P t -> rep3 (aplus P P) (double t).
Proof.
  destruct t as [[x y] z]. intros (CX & CY & CZ & Z & X & Y). unfold double. rewrite !fsquare_eq.
  destruct (a_denominators P P) as [N1 N2]. destruct (double_formulas _ _ _ _ Z N1 N2 (a_on P)) as (FZ & FX & FY).
  unfold rep3. rewrite aplus_x, aplus_y. split; [auto 20 with canon|split; [auto 20 with canon|split; [auto 20 with canon|]]].
  push. rewrite X, Y. split; [exact FZ|split; [exact FX|exact FY]].
Qed.
Lemma add_affine_formulas x1 y1 z x2 y2 dd : (z <> 0 -> 1 + dd * (x1 * x2 * (y1 * y2)) <> 0 -> 1 - dd * (x1 * x2 * (y1 * y2)) <> 0 ->
  let b := z * z in let c := (x1 * z) * x2 in let e := (y1 * z) * y2 in let g := dd * c * e in
  let p := b - g in let q := b + g in
  p * q <> 0 /\ z * p * ((x1 * z + y1 * z) * (x2 + y2) - c - e) = (x1 * y2 + x2 * y1) / (1 + dd * (x1 * x2 * (y1 * y2))) * (p * q) /\
  z * q * (e + c) = (y1 * y2 + x1 * x2) / (1 - dd * (x1 * x2 * (y1 * y2))) * (p * q))%F.
Proof.
  intros Z N1 N2. cbv zeta. 
  replace (z * z - dd * (x1 * z * x2) * (y1 * z * y2))%F with (z * z * (1 - dd * (x1 * x2 * (y1 * y2))))%F by ring.
  replace (z * z + dd * (x1 * z * x2) * (y1 * z * y2))%F with (z * z * (1 + dd * (x1 * x2 * (y1 * y2))))%F by ring.
  split; [repeat apply f_ne_mul; assumption|split; field; assumption].
Qed.
Lemma rep3_add P t Q x2 y2 : rep3 P t -> rep3 Q (x2, y2, 1) -> rep3 (aplus P Q) (add_affine t x2 y2).
Proof.
  destruct t as [[x y] z]. intros (CX & CY & CZ & Z & X & Y) (CX2 & CY2 & _ & _ & X2 & Y2). unfold add_affine. rewrite !fsquare_eq.
  rewrite f_one in X2, Y2.
  destruct (a_denominators P Q) as [N1 N2]. destruct (add_affine_formulas _ _ _ _ _ _ Z N1 N2) as (FZ & FX & FY).
  unfold rep3. rewrite aplus_x, aplus_y. split; [auto 20 with canon|split; [auto 20 with canon|split; [auto 20 with canon|]]].
  push. fold d. rewrite X, Y, X2, Y2. replace (ax Q * 1)%F with (ax Q) by ring. replace (ay Q * 1)%F with (ay Q) by ring.
  split; [exact FZ|split; [exact FX|exact FY]].
Qed.
Lemma rep3_chain n P x y : rep3 P (x, y, 1) -> rep3 (mul_pos apt aplus n P) (chain n x y).
Proof.
  intros R. induction n as [n IH|n IH|]; cbn [mul_pos chain]; cbv zeta.
  - rewrite a_comm. apply rep3_add; [apply rep3_double; exact IH|exact R].
  - apply rep3_double; exact IH.
  - exact R.
Qed.
