(** Hashing to edwards25519 always gives a point. *)
From Coq Require Import Znumtheory Field.
From Verif Require Import Base Digits VrfModel PrimeProofs FieldProofs AbelianProofs EdwardsProofs CurveModel Field25519Proofs Points25519Proofs Order25519Proofs
  Real25519Proofs.
Local Open Scope Z_scope.

Lemma power_mul a b n : fpower (a * b)%F n = (fpower a n * fpower b n)%F.
Proof. unfold fpower, ftimes. apply mul_pow. Qed.
Definition n6 := f 121666.
Lemma n6_d : (n6 * d = 1 - n6)%F.
Proof. unfold n6, d. rewrite <- f_one. destruct (fmul_ok 121666 edwards_d ltac:(canon) canon_d) as [_ <-]. destruct (fsub_ok 1 121666 canon_one ltac:(canon)) as [_ <-]. f_equal. Qed.
Lemma n6_nonzero : n6 <> f0.
Proof. unfold n6. rewrite <- f_zero. intros H. apply f_inj in H; [discriminate H|canon|exact canon_zero]. Qed.
Lemma f_2 : f 2 = (1 + 1)%F. Proof. rewrite <- f_one. destruct (fadd_ok 1 1 canon_one canon_one) as [_ <-]. f_equal. Qed.
Lemma a_n6 : f montgomery_a = ((1 + 1) * (1 + 1) * n6 - (1 + 1))%F.
Proof.
  rewrite <- f_2. unfold n6. destruct (fmul_ok 2 2 ltac:(canon) ltac:(canon)) as [C <-]. destruct (fmul_ok _ 121666 C ltac:(canon)) as [C' <-].
  destruct (fsub_ok _ 2 C' ltac:(canon)) as [_ <-]. f_equal.
Qed.
Lemma a_nonzero : f montgomery_a <> f0.
Proof. rewrite <- f_zero. intros H. apply f_inj in H; [discriminate H|canon|exact canon_zero]. Qed.
Definition c6_candidate : Z := Eval vm_compute in snd (sqrt_ratio (fneg 486664) 1).
Definition c6 := f c6_candidate.
Lemma c6_square : (c6 * c6 = - ((1 + 1) * (1 + 1) * n6))%F.
Proof.
  rewrite <- f_2. unfold n6, c6. destruct (fmul_ok c6_candidate c6_candidate ltac:(canon) ltac:(canon)) as [_ <-].
  destruct (fmul_ok 2 2 ltac:(canon) ltac:(canon)) as [C <-]. destruct (fmul_ok _ 121666 C ltac:(canon)) as [C' <-].
  destruct (fneg_ok _ C') as [_ <-]. f_equal.
Qed.
Lemma two_powers : (squares 254 2 =? fpow 2 10) = false. Proof. vm_compute. reflexivity. Qed.
Lemma a2_powers : (squares 254 486660 =? fpow 486660 10) = false. Proof. vm_compute. reflexivity. Qed.
Lemma two_nonsquare x : (x * x <> f 2)%F.
Proof. exact (nonsquare 254 2 ltac:(canon) ltac:(discriminate) two_254 two_powers x). Qed.
Lemma a2_nonsquare x : (x * x <> f 486660)%F.
Proof. exact (nonsquare 254 486660 ltac:(canon) ltac:(discriminate) two_254 a2_powers x). Qed.
Lemma a2_eq : f 486660 = (f montgomery_a - (1 + 1))%F.
Proof. rewrite <- f_2. destruct (fsub_ok montgomery_a 2 ltac:(canon) ltac:(canon)) as [_ <-]. f_equal. Qed.
Lemma minus_one : f (p25519 - 1) = (- (1))%F.
Proof. rewrite <- f_one. destruct (fneg_ok 1 canon_one) as [_ <-]. f_equal. Qed.
Opaque f f0 f1 fplus ftimes fminus fopp fdiv finverse fpower sqrt_ratio.

Lemma euler_root a : fpower a half_order = f1 -> exists w, (w * w = a)%F.
Proof.
  intros E. rewrite <- quarter_half in E. replace (xO quarter) with (quarter + quarter)%positive in E by lia. rewrite power_add in E.
  apply one_square in E. rewrite quarter_power in E. set (g := fpower a root_power) in *. clearbody g. destruct E as [E|E].
  - exists (g * a)%F. transitivity ((g * g * a) * a)%F; [ring|]. rewrite E. ring.
  - exists (i * (g * a))%F. transitivity ((i * i) * (g * g * a) * a)%F; [ring|]. rewrite E, i_square. ring.
Qed.
Lemma euler a : a <> f0 -> fpower a half_order = f1 \/ fpower a half_order = (- (1))%F.
Proof. intros N. apply one_square. rewrite <- power_mul. apply square_power. exact N. Qed.
Lemma nonsquares a b : (forall x, x * x <> a)%F -> (forall x, x * x <> b)%F -> exists w, (w * w = a * b)%F.
Proof.
  intros A B.
  assert (P : forall c, (forall x, x * x <> c)%F -> fpower c half_order = (- (1))%F).
  { intros c C. destruct (euler c) as [E|E]; [|apply euler_root in E; destruct E as [w E]; destruct (C w E)|exact E].
    intros ->. apply (C f0). ring. }
  apply euler_root. rewrite power_mul, (P a A), (P b B). ring.
Qed.
Lemma denominator r : (1 + (1 + 1) * (r * r) <> 0)%F.
Proof.
  intros E. assert (N : r <> f0). { intros ->. apply (F_1_neq_0 field25519). rewrite <- E. ring. }
  apply (two_nonsquare (i / r)%F). rewrite f_2. transitivity ((i * i) / (r * r))%F; [field; exact N|]. rewrite i_square.
  replace (- (1))%F with ((1 + 1) * (r * r) - (1 + (1 + 1) * (r * r)))%F by ring. rewrite E. field. exact N.
Qed.
Definition curve_value (u : F) : F := (u * (u * u + f montgomery_a * u + 1))%F.
Lemma encode_on r : canon r -> canon (elligator_encode r) /\ exists v, (v * v = curve_value (f (elligator_encode r)))%F.
Proof.
  intros C. unfold elligator_encode. cbv zeta. assert (CA : canon montgomery_a) by canon. assert (C2 : canon 2) by canon.
  set (D := fmul (fneg montgomery_a) (finv (fadd 1 (fmul 2 (fmul r r))))).
  assert (CD : canon D) by (unfold D; auto 20 with canon).
  assert (ED : (f D * (1 + (1 + 1) * (f r * f r)) = - f montgomery_a)%F).
  { unfold D. rewrite f_mul, f_neg by auto 20 with canon. destruct (finv_ok (fadd 1 (fmul 2 (fmul r r)))) as [_ ->]; [auto 20 with canon|].
    rewrite f_add, !f_mul, f_one, f_2 by auto 20 with canon. generalize (denominator (f r)). generalize (f r) (f montgomery_a). intros. field. assumption. }
  clearbody D. set (eps := fmul D (fadd (fadd (fmul D D) (fmul montgomery_a D)) 1)).
  assert (CE : canon eps) by (unfold eps; auto 20 with canon).
  assert (EE : f eps = curve_value (f D)).
  { unfold eps, curve_value. rewrite f_mul, !f_add, !f_mul, f_one by auto 20 with canon. reflexivity. }
  clearbody eps. destruct (sqrt_ratio eps 1) as [b x] eqn:S. cbn [fst]. destruct b.
  - split; [exact CD|]. apply sqrt_sound in S; [|exact CE|exact canon_one]. destruct S as (_ & _ & S). exists (f x). rewrite <- EE, <- S, f_one. ring.
  - split; [auto with canon|]. rewrite f_neg, f_add by auto with canon.
    destruct (nonsquares (f 2) (f eps) two_nonsquare) as [w W].
    { intros w W. pose proof (sqrt_complete eps 1 w CE canon_one) as Q. rewrite S in Q. cbn [fst] in Q. rewrite f_one in Q.
      assert (T : false = true); [|discriminate T]. apply Q; [exact (F_1_neq_0 field25519)|]. rewrite <- W. ring. }
    exists (f r * w)%F. transitivity (f r * f r * (w * w))%F; [ring|]. rewrite W, EE, f_2. unfold curve_value.
    assert (U : (- (f D + f montgomery_a) = (1 + 1) * (f r * f r) * f D)%F).
    { transitivity (- f D + - f montgomery_a)%F; [ring|]. rewrite <- ED. ring. }
    generalize dependent (f D). generalize dependent (f montgomery_a). intros a d0 E _ U.
    replace (- (d0 + a) * - (d0 + a) + a * - (d0 + a) + 1)%F with (d0 * d0 + a * d0 + 1)%F by ring. rewrite U. ring.
Qed.
Lemma not_minus_one u v : (v * v = curve_value u)%F -> (u + 1 <> 0)%F.
Proof.
  intros E N. apply (a2_nonsquare v). rewrite E, a2_eq. unfold curve_value.
  replace u with ((u + 1) - 1)%F by ring. rewrite N. ring.
Qed.
Lemma birational u v : (v * v = curve_value u)%F -> exists x, let y := ((u - 1) / (u + 1))%F in ((d * (y * y) + 1) * (x * x) = y * y - 1)%F.
Proof.
  intros E. pose proof (not_minus_one u v E) as N.
  assert (DE : forall y, (n6 * (d * (y * y) + 1) = n6 * 1 + (1 - n6) * (y * y))%F). { intros y. rewrite <- n6_d. ring. }
  assert (CAN : forall a b, (n6 * a = n6 * b -> a = b)%F).
  { intros a b Q. transitivity (n6 * a / n6)%F; [field; exact n6_nonzero|]. rewrite Q. field. exact n6_nonzero. }
  destruct (f_dec u f0) as [->|NU].
  - exists f0. cbv zeta. field. exact N.
  - assert (NV : v <> f0).
    { intros ->. apply (y_denominator ((u - 1) / (u + 1))%F). apply CAN.
      transitivity (n6 * (d * ((u - 1) / (u + 1) * ((u - 1) / (u + 1))) + 1))%F; [ring|]. rewrite DE.
      unfold curve_value in E. rewrite a_n6 in E.
      assert (Z : (u * u + ((1 + 1) * (1 + 1) * n6 - (1 + 1)) * u + 1 = 0)%F).
      { symmetry in E. replace (f0 * f0)%F with f0 in E by ring. apply f_domain in E. destruct E as [E|E]; [contradiction|exact E]. }
      transitivity ((u * u + ((1 + 1) * (1 + 1) * n6 - (1 + 1)) * u + 1) / ((u + 1) * (u + 1)))%F; [field; exact N|]. rewrite Z. field. exact N. }
    exists (c6 * u / v)%F. cbv zeta. apply CAN.
    transitivity (n6 * (d * ((u - 1) / (u + 1) * ((u - 1) / (u + 1))) + 1) * (c6 * c6) * (u * u) / (v * v))%F; [field; split; assumption|].
    rewrite DE, c6_square.
    assert (NW : curve_value u <> f0). { rewrite <- E. intros Z. apply f_domain in Z. destruct Z; contradiction. }
    rewrite E. unfold curve_value in *. rewrite a_n6 in *. field. split; [exact N|].
    split; [intros Z|exact NU]. apply NW.
    assert (Z' : (u * u + ((1 + 1) * (1 + 1) * n6 - (1 + 1)) * u + 1 = 0)%F) by exact Z. rewrite Z'. ring.
Qed.
Lemma le_sign y (sign : bool) : canon y ->
  y_of (le_bytes 32 (Z.to_N (if sign then y + 2 ^ 255 else y))) = y.
Proof.
  intros C. assert (B := C). unfold canon in B. rewrite p_value in B. set (n := if sign then y + 2 ^ 255 else y).
  assert (NB : 0 <= n < 2 ^ 256). { change (2 ^ 256) with (2 ^ 255 + 2 ^ 255). unfold n. destruct sign; lia. }
  assert (NE : Z.of_N (le_num (le_bytes 32 (Z.to_N n))) = n).
  { rewrite le_num_bytes; [apply Z2N.id; lia|]. change (256 ^ N.of_nat 32)%N with (Z.to_N (2 ^ 256)). apply Z2N.inj_lt; lia. }
  assert (M : Z.land n low_bits = y).
  { rewrite land_low. unfold n. destruct sign.
    - rewrite <- (Z.mul_1_l (2 ^ 255)) at 1. rewrite Z.mod_add by discriminate. apply Z.mod_small. lia.
    - apply Z.mod_small. lia. }
  unfold y_of. rewrite NE, M. destruct (reduce_ok y) as [C' E].
  - change (2 ^ 510) with (2 ^ 255 * 2 ^ 255). lia.
  - apply f_inj; [exact C'|exact C|exact E].
Qed.
Lemma decompress_some s x : ((d * (f (y_of s) * f (y_of s)) + 1) * (x * x) = f (y_of s) * f (y_of s) - 1)%F -> edwards_decompress s <> None.
Proof.
  intros X E. unfold edwards_decompress in E. fold (y_of s) in E. cbv zeta in E. pose proof (y_canon s) as CY. set (y := y_of s) in *. clearbody y.
  pose proof (sqrt_complete (fsub (fmul y y) 1) (fadd (fmul edwards_d (fmul y y)) 1) x ltac:(auto 20 with canon) ltac:(auto 20 with canon)) as S.
  rewrite f_add, f_sub, !f_mul, f_one in S by auto 20 with canon. fold d in S.
  destruct (sqrt_ratio _ _) as [b z]. cbn [fst] in S. rewrite S in E; [discriminate E| |exact X].
  replace (d * (f y * f y) + 1)%F with (1 + d * (f y * f y))%F by ring. apply y_denominator.
Qed.
Lemma encode_defined r sign : canon r -> to_edwards (elligator_encode r) sign <> None.
Proof.
  intros C. destruct (encode_on r C) as [CU [v V]]. generalize dependent (elligator_encode r). intros u CU V.
  pose proof (not_minus_one _ _ V) as N. unfold to_edwards. destruct (Z.eqb_spec u (p25519 - 1)) as [E|_].
  { exfalso. apply N. rewrite E, minus_one. ring. }
  cbv zeta. destruct (birational _ _ V) as [x X]. cbv zeta in X.
  assert (CY : canon (fmul (fsub u 1) (finv (fadd u 1)))) by auto 20 with canon.
  apply decompress_some with x. rewrite le_sign by exact CY.
  replace (f (fmul (fsub u 1) (finv (fadd u 1)))) with ((f u - 1) / (f u + 1))%F; [exact X|].
  rewrite f_mul, f_sub, f_one by auto 20 with canon. destruct (finv_ok (fadd u 1)) as [_ ->]; [auto with canon|].
  rewrite f_add, f_one by auto with canon. field. exact N.
Qed.

(** ** Which numbers have one coordinate *)
Lemma value_nonzero u : u <> f0 -> curve_value u <> f0.
Proof.
  intros NU E. assert (V : (f0 * f0 = curve_value u)%F) by (rewrite E; ring). pose proof (not_minus_one _ _ V) as N.
  destruct (birational u f0 V) as [x _]. clear x. unfold curve_value in E. apply f_domain in E. destruct E as [E|E]; [contradiction|].
  apply (y_denominator ((u - 1) / (u + 1))%F).
  assert (CAN : forall a b, (n6 * a = n6 * b -> a = b)%F).
  { intros a b Q. transitivity (n6 * a / n6)%F; [field; exact n6_nonzero|]. rewrite Q. field. exact n6_nonzero. }
  apply CAN. transitivity (n6 + (n6 * d) * ((u - 1) / (u + 1) * ((u - 1) / (u + 1))))%F; [ring|]. rewrite n6_d. rewrite a_n6 in E.
  transitivity ((u * u + ((1 + 1) * (1 + 1) * n6 - (1 + 1)) * u + 1) / ((u + 1) * (u + 1)))%F; [field; exact N|]. rewrite E. field. exact N.
Qed.
(** One of the two candidates, the one that is on the curve *)
Definition candidate (r : F) : F := (- f montgomery_a / (1 + (1 + 1) * (r * r)))%F.
Lemma candidate_nonzero r : candidate r <> f0.
Proof.
  unfold candidate. intros E. apply a_nonzero.
  transitivity (- (- f montgomery_a / (1 + (1 + 1) * (r * r))) * (1 + (1 + 1) * (r * r)))%F; [field; apply denominator|]. rewrite E. ring.
Qed.
Lemma other_value u : (curve_value (- u - f montgomery_a) * u = curve_value u * (- u - f montgomery_a))%F.
Proof. unfold curve_value. ring. Qed.
Lemma candidate_other r : (- candidate r - f montgomery_a = (1 + 1) * (r * r) * candidate r)%F.
Proof. unfold candidate. field. apply denominator. Qed.
Lemma encode_candidate r : canon r ->
  (f (elligator_encode r) = candidate (f r) /\ (exists v, v * v = curve_value (candidate (f r)))%F) \/
  (f (elligator_encode r) = - candidate (f r) - f montgomery_a /\ forall v, v * v <> curve_value (candidate (f r)))%F.
Proof.
  intros C. unfold elligator_encode. cbv zeta. assert (CA : canon montgomery_a) by canon. assert (C2 : canon 2) by canon.
  set (D := fmul (fneg montgomery_a) (finv (fadd 1 (fmul 2 (fmul r r))))).
  assert (CD : canon D) by (unfold D; auto 20 with canon).
  assert (ED : f D = candidate (f r)).
  { unfold D, candidate. rewrite f_mul, f_neg by auto 20 with canon. destruct (finv_ok (fadd 1 (fmul 2 (fmul r r)))) as [_ ->]; [auto 20 with canon|].
    rewrite f_add, !f_mul, f_one, f_2 by auto 20 with canon. generalize (denominator (f r)). generalize (f r) (f montgomery_a). intros. field. assumption. }
  clearbody D. set (eps := fmul D (fadd (fadd (fmul D D) (fmul montgomery_a D)) 1)).
  assert (CE : canon eps) by (unfold eps; auto 20 with canon).
  assert (EE : f eps = curve_value (candidate (f r))).
  { rewrite <- ED. unfold eps, curve_value. rewrite f_mul, !f_add, !f_mul, f_one by auto 20 with canon. reflexivity. }
  clearbody eps. destruct (sqrt_ratio eps 1) as [b x] eqn:S. cbn [fst]. destruct b.
  - left. split; [exact ED|]. apply sqrt_sound in S; [|exact CE|exact canon_one]. destruct S as (_ & _ & S). exists (f x). rewrite <- EE, <- S, f_one. ring.
  - right. split; [rewrite f_neg, f_add, ED by auto with canon; ring|].
    intros w W. pose proof (sqrt_complete eps 1 w CE canon_one) as Q. rewrite S in Q. cbn [fst] in Q. rewrite f_one in Q.
    assert (T : false = true); [|discriminate T]. apply Q; [exact (F_1_neq_0 field25519)|]. rewrite EE, <- W. ring.
Qed.
Lemma candidate_eq r r' : candidate r = candidate r' <-> (r * r = r' * r')%F.
Proof.
  unfold candidate. pose proof (denominator r) as N. pose proof (denominator r') as N'. split.
  - intros E.
    assert (CAN : forall a b, ((1 + 1) * f montgomery_a * a = (1 + 1) * f montgomery_a * b -> a = b)%F).
    { pose proof a_nonzero. pose proof f_two as T. generalize dependent (f montgomery_a). intros A _ NA a b Q.
      transitivity ((1 + 1) * A * a / ((1 + 1) * A))%F; [field; split; assumption|]. rewrite Q. field. split; assumption. }
    apply CAN. generalize dependent (f montgomery_a). intros A E _.
    transitivity ((- A / (1 + (1 + 1) * (r * r))) * (1 + (1 + 1) * (r' * r')) * (1 + (1 + 1) * (r * r)) + A + (1 + 1) * A * (r' * r') + (1 + 1) * A * (r * r))%F; [field; exact N|].
    rewrite E. field. exact N'.
  - intros E. rewrite E. reflexivity.
Qed.
Lemma candidate_cross r r' : candidate r = (- candidate r' - f montgomery_a)%F <-> ((1 + 1) * (r * r) * ((1 + 1) * (r' * r')) = 1)%F.
Proof.
  rewrite candidate_other. unfold candidate. pose proof (denominator r) as N. pose proof (denominator r') as N'. split.
  - intros E. pose proof a_nonzero as NA. generalize dependent (f montgomery_a). intros A E NA.
    transitivity (- (((1 + 1) * (r' * r') * (- A / (1 + (1 + 1) * (r' * r')))) * (1 + (1 + 1) * (r * r)) * (1 + (1 + 1) * (r' * r')) / A) - (1 + 1) * (r' * r'))%F; [field; split; assumption|].
    rewrite <- E. field. split; assumption.
  - intros E. generalize (f montgomery_a). intros A.
    transitivity (- A * (1 + (1 + 1) * (r' * r')) / ((1 + (1 + 1) * (r * r)) * (1 + (1 + 1) * (r' * r'))))%F; [field; split; assumption|].
    transitivity (- A * ((1 + 1) * (r' * r') + (1 + 1) * (r * r) * ((1 + 1) * (r' * r'))) / ((1 + (1 + 1) * (r * r)) * (1 + (1 + 1) * (r' * r'))))%F; [|field; split; assumption].
    rewrite E. field. split; assumption.
Qed.
(** The value of the one is a square exactly if that of the other is none. *)
Lemma other_square r : (exists v, v * v = curve_value (- candidate r - f montgomery_a))%F -> r <> f0 -> forall v, (v * v <> curve_value (candidate r))%F.
Proof.
  intros [w W] N v V. apply (two_nonsquare (w / (r * v))%F). rewrite f_2.
  assert (NV : v <> f0). { intros ->. apply (value_nonzero _ (candidate_nonzero r)). rewrite <- V. ring. }
  transitivity ((w * w) / (r * r * (v * v)))%F; [field; split; assumption|]. rewrite W, V.
  assert (O : (curve_value (- candidate r - f montgomery_a) = (1 + 1) * (r * r) * curve_value (candidate r))%F).
  { pose proof (other_value (candidate r)) as Q. rewrite candidate_other in Q at 2. pose proof (candidate_nonzero r) as NC. clear - Q NC. generalize dependent (candidate r). intros c Q NC.
    transitivity (curve_value (- c - f montgomery_a) * c / c)%F; [generalize (curve_value (- c - f montgomery_a)%F); intros; field; exact NC|]. rewrite Q. generalize (curve_value c). intros. field. exact NC. }
  rewrite O. pose proof (value_nonzero _ (candidate_nonzero r)) as NW. clear - N NW. generalize dependent (curve_value (candidate r)). intros. field. split; assumption.
Qed.
Lemma encode_fibres r r' : canon r -> canon r' ->
  (elligator_encode r = elligator_encode r' <-> (f r * f r = f r' * f r' \/ (1 + 1) * (f r * f r) * ((1 + 1) * (f r' * f r')) = 1)%F).
Proof.
  intros C C'. destruct (encode_on r C) as [CU _]. destruct (encode_on r' C') as [CU' _].
  transitivity (f (elligator_encode r) = f (elligator_encode r')); [split; [intros ->; reflexivity|apply f_inj; assumption]|].
  assert (OPP : forall a b, (- a - f montgomery_a = - b - f montgomery_a -> a = b)%F).
  { intros a b E. transitivity (- (- a - f montgomery_a) - f montgomery_a)%F; [ring|]. rewrite E. ring. }
  destruct (encode_candidate r C) as [[-> S]|[-> S]], (encode_candidate r' C') as [[-> S']|[-> S']].
  - rewrite candidate_eq. split; [left; assumption|]. intros [E|E]; [exact E|]. exfalso.
    destruct S as [v V]. destruct S' as [v' V']. apply (other_square (f r') ) with v'; [|intros Z; rewrite Z in E; apply (F_1_neq_0 field25519); etransitivity; [symmetry; exact E|ring]|exact V'].
    apply candidate_cross in E. exists v. rewrite <- E. exact V.
  - rewrite candidate_cross. split; [right; assumption|]. intros [E|E]; [|exact E]. exfalso. apply candidate_eq in E. destruct S as [v V]. apply (S' v). rewrite <- E. exact V.
  - split.
    + intros E. symmetry in E. apply candidate_cross in E. right. etransitivity; [|exact E]. ring.
    + intros [E|E].
      * exfalso. apply candidate_eq in E. destruct S' as [v V]. apply (S v). rewrite E. exact V.
      * symmetry. apply candidate_cross. etransitivity; [|exact E]. ring.
  - split.
    + intros E. apply OPP in E. left. apply candidate_eq. exact E.
    + intros [E|E]; [apply candidate_eq in E; rewrite E; reflexivity|]. exfalso.
      assert (NS : forall t, (forall x, x * x <> curve_value (candidate t))%F -> exists w, (w * w = curve_value (- candidate t - f montgomery_a))%F).
      { intros t T. destruct (nonsquares _ _ two_nonsquare T) as [w W]. exists (t * w)%F. transitivity (t * t * (w * w))%F; [ring|]. rewrite W, f_2.
        pose proof (other_value (candidate t)) as Q. rewrite candidate_other in Q at 2. pose proof (candidate_nonzero t) as NC. clear - Q NC. generalize dependent (candidate t). intros c Q NC.
        transitivity (curve_value (- c - f montgomery_a) * c / c)%F; [rewrite Q; generalize (curve_value c); intros; field; exact NC|generalize (curve_value (- c - f montgomery_a)%F); intros; field; exact NC]. }
      destruct (NS (f r') S') as [w W]. apply candidate_cross in E. apply (S w). rewrite E. exact W.
Qed.
