(** Compression, and that edwards25519 is as [VrfSpec.curve_ok] says. *)
From Coq Require Import Znumtheory Field.
From Verif Require Import Base Digits ShaModel ShaProofs PrimeProofs FieldProofs AbelianProofs EdwardsProofs VrfModel VrfSpec CurveModel Field25519Proofs Points25519Proofs Order25519Proofs.
Local Open Scope Z_scope.

(** ** Square roots *)
Definition quarter : positive := xI root_power.
Lemma quarter_half : xO quarter = half_order. Proof. reflexivity. Qed.
Lemma quarter_eq : quarter = (root_power + root_power + 1)%positive. Proof. unfold quarter. lia. Qed.
Lemma power_1 a : fpower a 1 = a. Proof. reflexivity. Qed.
Opaque f f0 f1 fplus ftimes fminus fopp fdiv finverse fpower.
Lemma quarter_power w : fpower w quarter = (fpower w root_power * fpower w root_power * w)%F.
Proof. rewrite quarter_eq, !power_add, power_1. reflexivity. Qed.
Lemma root_formula u v g : (v * ((u * (v * v * v) * g) * (u * (v * v * v) * g)) = u * (g * g * (u * ((v * v * v) * (v * v * v) * v))))%F.
Proof. ring. Qed.
Lemma f_nonzero_opp a : (- a = 0 -> a = 0)%F.
Proof. intros E. transitivity (- - a)%F; [ring|]. rewrite E. ring. Qed.
Lemma one_square a : (a * a = 1 -> a = 1 \/ a = - (1))%F.
Proof. intros E. apply f_square_eq. rewrite E. ring. Qed.
Lemma square_quarter z : z <> f0 -> (fpower (z * z) quarter = 1 \/ fpower (z * z) quarter = - (1))%F.
Proof.
  intros N. apply one_square. rewrite power_square, quarter_half. rewrite <- power_add.
  replace (half_order + half_order)%positive with (xO half_order) by lia. rewrite <- power_square. apply square_power. exact N.
Qed.
(** [sqrt_ratio]: a success is an even root of u/v, and there is success if there is a root *)
Lemma even_choice r : canon r -> let x := if odd r then fneg r else r in canon x /\ odd x = false /\ (f x = f r \/ f x = - f r)%F.
Proof.
  intros C. cbv zeta. destruct (odd r) eqn:O.
  - split; [auto with canon|]. split; [|right; apply f_neg; exact C]. rewrite odd_neg, O; [reflexivity|exact C|]. intros ->. discriminate O.
  - split; [exact C|]. split; [exact O|left; reflexivity].
Qed.
Lemma root_of_root u v r x : (v * (r * r) = u -> x = r \/ x = - r -> v * (x * x) = u)%F.
Proof. intros E [-> | ->]; [exact E|]. rewrite <- E. ring. Qed.
Lemma sqrt_sound u v x : canon u -> canon v -> sqrt_ratio u v = (true, x) -> canon x /\ odd x = false /\ (f v * (f x * f x) = f u)%F.
Proof.
  intros U V. unfold sqrt_ratio. cbv zeta.
  set (r := fmul (fmul u (fmul (fmul v v) v)) (fpow (fmul u (fmul (fmul (fmul (fmul v v) v) (fmul (fmul v v) v)) v)) root_power)).
  assert (R : canon r) by (unfold r; auto 20 with canon). clearbody r.
  destruct (fmul v (fmul r r) =? u) eqn:A; cbn [orb].
  - intros E. apply (f_equal snd) in E. cbn [snd] in E. destruct (even_choice r R) as (C & O & S). rewrite E in *.
    split; [exact C|]. split; [exact O|]. apply (root_of_root _ _ (f r)); [|exact S]. apply Z.eqb_eq in A. rewrite <- A. push. reflexivity.
  - intros E. assert (B : (fmul v (fmul r r) =? fneg u) = true) by (apply (f_equal fst) in E; exact E).
    apply (f_equal snd) in E. cbn [snd] in E. assert (R' : canon (fmul r sqrt_m1)) by auto with canon.
    destruct (even_choice _ R') as (C & O & S). rewrite E in *.
    split; [exact C|]. split; [exact O|]. apply (root_of_root _ _ (f (fmul r sqrt_m1))); [|exact S].
    apply Z.eqb_eq in B. apply (f_equal f) in B. rewrite !f_mul, f_neg in B by auto with canon. rewrite f_mul by auto with canon. fold i.
    transitivity (f v * (f r * f r) * (i * i))%F; [ring|]. rewrite B, i_square. ring.
Qed.
Lemma sqrt_complete u v w : canon u -> canon v -> f v <> f0 -> (f v * (w * w) = f u)%F -> fst (sqrt_ratio u v) = true.
Proof.
  intros U V N W. unfold sqrt_ratio. cbv zeta. cbn [fst].
  set (v3 := fmul (fmul v v) v). set (v7 := fmul (fmul v3 v3) v). set (r := fmul (fmul u v3) (fpow (fmul u v7) root_power)).
  assert (C3 : canon v3) by (unfold v3; auto 20 with canon). assert (C7 : canon v7) by (unfold v7; auto 20 with canon).
  assert (R : canon r) by (unfold r; auto 20 with canon).
  assert (Q : (f v * (f r * f r) = f u * fpower (f u * ((f v * f v * f v) * (f v * f v * f v) * f v)) quarter)%F).
  { rewrite quarter_power, <- root_formula. unfold r, v7, v3. push. reflexivity. }
  clearbody r. clear C7 C3 v7 v3.
  assert (D : (fpower (f u * ((f v * f v * f v) * (f v * f v * f v) * f v)) quarter = 1 \/ fpower (f u * ((f v * f v * f v) * (f v * f v * f v) * f v)) quarter = - (1) \/ f u = 0)%F).
  { destruct (f_dec w f0) as [Z|NW]; [right; right; rewrite <- W, Z; ring|].
    replace (f u * ((f v * f v * f v) * (f v * f v * f v) * f v))%F with ((w * (f v * f v * f v * f v)) * (w * (f v * f v * f v * f v)))%F by (rewrite <- W; ring).
    assert (X : (w * (f v * f v * f v * f v) <> 0)%F) by (repeat apply f_ne_mul; assumption).
    destruct (square_quarter _ X) as [Y|Y]; [left; exact Y|right; left; exact Y]. }
  destruct D as [D|[D|D]].
  - rewrite D in Q. replace (fmul v (fmul r r) =? u) with true; [reflexivity|]. symmetry. apply Z.eqb_eq. apply f_inj; [auto with canon|auto with canon|].
    push. rewrite Q. ring.
  - rewrite D in Q. replace (fmul v (fmul r r) =? fneg u) with true; [apply orb_true_r|]. symmetry. apply Z.eqb_eq. apply f_inj; [auto with canon|auto with canon|].
    push. rewrite Q. ring.
  - rewrite D in Q. replace (fmul v (fmul r r) =? u) with true; [reflexivity|]. symmetry. apply Z.eqb_eq. apply f_inj; [auto with canon|auto with canon|].
    push. rewrite Q, D. ring.
Qed.

(** ** Compressed points *)
Definition acompress (P : apt) : bytes :=
  le_bytes 32 (Z.to_N (if parity (ax P) then val p25519 (ay P) + 2 ^ 255 else val p25519 (ay P))).
Lemma rep_compress P Q : rep P Q -> edwards_compress Q = acompress P.
Proof.
  intros [CX CY CZ CT Z X Y T]. unfold edwards_compress, acompress. cbv zeta.
  assert (EX : fmul (px Q) (finv (pz Q)) = val p25519 (ax P)).
  { apply f_inj; [auto with canon|apply val_canon|]. rewrite f_val. push. rewrite X. generalize (ax P). intros. field. exact Z. }
  assert (EY : fmul (py Q) (finv (pz Q)) = val p25519 (ay P)).
  { apply f_inj; [auto with canon|apply val_canon|]. rewrite f_val. push. rewrite Y. generalize (ay P). intros. field. exact Z. }
  rewrite EX, EY. reflexivity.
Qed.
(** the point with given coordinates, if they are those of a point *)
Definition lift (x y : Z) : option apt :=
  match f_dec (f y * f y - f x * f x)%F (1 + d * (f x * f x * (f y * f y)))%F with
  | left ON => Some (EdwardsProofs.mkPt F f1 fplus ftimes fminus d (f x) (f y) ON)
  | right _ => None
  end.
Lemma lift_on x y : on25519 (f x) (f y) -> exists P, lift x y = Some P /\ ax P = f x /\ ay P = f y.
Proof.
  intros O. unfold lift. destruct (f_dec _ _) as [E|E]; [|contradiction]. eexists. split; [reflexivity|]. split; reflexivity.
Qed.
Definition adecompress (s : bytes) : option apt :=
  match edwards_decompress s with Some Q => lift (px Q) (py Q) | None => None end.
Definition y_of (s : bytes) : Z := reduce (Z.land (Z.of_N (le_num s)) low_bits).
Lemma y_canon s : canon (y_of s).
Proof. apply reduce_ok. rewrite land_low. pose proof (Z.mod_pos_bound (Z.of_N (le_num s)) (2 ^ 255)). change (2 ^ 510) with (2 ^ 255 * 2 ^ 255). lia. Qed.
Lemma root_on x y : ((d * (y * y) + 1) * (x * x) = y * y - 1 -> on25519 x y)%F.
Proof.
  intros E. unfold on25519, EdwardsProofs.on.
  transitivity (y * y - x * x + ((d * (y * y) + 1) * (x * x) - (y * y - 1)))%F; [rewrite E; ring|ring].
Qed.
Lemma decompress_sound s Q : edwards_decompress s = Some Q ->
  exists P, adecompress s = Some P /\ rep P Q /\ ay P = f (y_of s) /\
    (parity (ax P) = negb (Z.of_N (le_num s) <=? low_bits) \/ ax P = f0).
Proof.
  intros E. unfold adecompress. rewrite E. unfold edwards_decompress in E. fold (y_of s) in E. pose proof (y_canon s) as CY.
  set (y := y_of s) in *. clearbody y. cbv zeta in E.
  destruct (sqrt_ratio (fsub (fmul y y) 1) (fadd (fmul edwards_d (fmul y y)) 1)) as [b x] eqn:S.
  destruct b; [|discriminate E]. apply sqrt_sound in S; auto 20 with canon. destruct S as (CX & O & S).
  rewrite f_sub, f_add, !f_mul, f_one in S by auto 20 with canon. fold d in S.
  set (x' := if Z.of_N (le_num s) <=? low_bits then x else fneg x) in E.
  assert (CX' : canon x') by (unfold x'; destruct (_ <=? _); auto with canon).
  assert (ON : on25519 (f x') (f y)).
  { apply root_on. unfold x'. destruct (_ <=? _); [exact S|]. rewrite f_neg by exact CX. rewrite <- S. ring. }
  assert (PA : parity (f x') = negb (Z.of_N (le_num s) <=? low_bits) \/ f x' = f0).
  { unfold x', parity. destruct (Z.of_N (le_num s) <=? low_bits); [left; rewrite val_f by exact CX; exact O|].
    destruct (Z.eq_dec x 0) as [->|NX]; [right; rewrite f_neg by exact canon_zero; rewrite f_zero; ring|].
    left. rewrite val_f by auto with canon. rewrite odd_neg, O by assumption. reflexivity. }
  clearbody x'. assert (Q' : Q = mkPoint x' y 1 (fmul x' y)) by congruence. rewrite Q'. cbn [px py].
  destruct (lift_on x' y ON) as (P & L & PX & PY). exists P. split; [exact L|]. split; [|split; [exact PY|rewrite PX; exact PA]].
  constructor; cbn [px py pz p_t]; auto with canon; rewrite ?f_mul, ?f_one, ?PX, ?PY by assumption; try ring. exact (F_1_neq_0 field25519).
Qed.
Lemma parity_zero : parity f0 = false. Proof. unfold parity. rewrite <- f_zero, val_f by exact canon_zero. reflexivity. Qed.
Lemma decompress_compress_ok P : adecompress (acompress P) = Some P.
Proof.
  pose proof (f_range (ay P)) as RY. pose proof p_value as PV.
  set (n := if parity (ax P) then val p25519 (ay P) + 2 ^ 255 else val p25519 (ay P)).
  assert (NB : 0 <= n < 2 ^ 256). { change (2 ^ 256) with (2 ^ 255 + 2 ^ 255). unfold n. destruct (parity (ax P)); lia. }
  assert (NE : Z.of_N (le_num (acompress P)) = n).
  { unfold acompress. fold n. rewrite le_num_bytes; [apply Z2N.id; lia|]. change (256 ^ N.of_nat 32)%N with (Z.to_N (2 ^ 256)). apply Z2N.inj_lt; lia. }
  assert (YE : y_of (acompress P) = val p25519 (ay P)).
  { assert (M : Z.land n low_bits = val p25519 (ay P)).
    { rewrite land_low. unfold n. destruct (parity (ax P)).
      - rewrite <- (Z.mul_1_l (2 ^ 255)) at 1. rewrite Z.mod_add by discriminate. apply Z.mod_small. lia.
      - apply Z.mod_small. lia. }
    unfold y_of. rewrite NE, M. destruct (reduce_ok (val p25519 (ay P))) as [C E].
    - change (2 ^ 510) with (2 ^ 255 * 2 ^ 255). lia.
    - apply f_inj; [exact C|exact RY|exact E]. }
  destruct (edwards_decompress (acompress P)) as [Q|] eqn:E.
  - destruct (decompress_sound _ _ E) as (P' & A & _ & Y & X). rewrite A. f_equal.
    rewrite YE, f_val in Y. rewrite NE in X.
    assert (L : negb (n <=? low_bits) = parity (ax P)).
    { change low_bits with (2 ^ 255 - 1). unfold n. destruct (parity (ax P)); [destruct (Z.leb_spec (val p25519 (ay P) + 2 ^ 255) (2 ^ 255 - 1))|destruct (Z.leb_spec (val p25519 (ay P)) (2 ^ 255 - 1))]; try reflexivity; lia. }
    rewrite L in X. apply same_point; [exact Y|]. destruct X as [X|X]; [exact X|].
    assert (Z2 : (ax P * ax P = 0)%F) by (rewrite x_squared, <- Y, <- x_squared, X; ring).
    apply f_domain in Z2. rewrite X. f_equal. destruct Z2; congruence.
  - exfalso. unfold edwards_decompress in E. fold (y_of (acompress P)) in E. rewrite YE in E. cbv zeta in E.
    pose proof (val_canon (ay P)) as CY. pose proof (f_val (ay P)) as FY. set (y := val p25519 (ay P)) in *.
    pose proof (sqrt_complete (fsub (fmul y y) 1) (fadd (fmul edwards_d (fmul y y)) 1) (ax P) ltac:(auto 20 with canon) ltac:(auto 20 with canon)) as S.
    rewrite f_add, f_sub, !f_mul, f_one, FY in S by auto 20 with canon. fold d in S.
    destruct (sqrt_ratio _ _) as [b x]. cbn [fst] in S. rewrite S in E; [discriminate E| |].
    + replace (d * (ay P * ay P) + 1)%F with (1 + d * (ay P * ay P))%F by ring. apply y_denominator.
    + rewrite x_squared. pose proof (y_denominator (ay P)) as ND. generalize dependent (ay P). intros a. intros. field. exact ND.
Qed.
Lemma decompress_none s : edwards_decompress s = None -> adecompress s = None. Proof. unfold adecompress. intros ->. reflexivity. Qed.

(** ** The curve *)
Definition aelligator (s : bytes) : apt :=
  let n := Z.of_N (le_num (firstn 32 s)) in
  let u := elligator_encode (reduce (Z.land n low_bits)) in
  let y := fmul (fsub u 1) (finv (fadd u 1)) in
  if u =? p25519 - 1 then azero else
  match adecompress (le_bytes 32 (Z.to_N (if low_bits <? n then y + 2 ^ 255 else y))) with
  | Some P => amul 8 P
  | None => azero
  end.
(** edwards25519 with points rather than coordinates *)
Definition points25519 : curve := {|
  pt := apt; padd := aplus; pneg := aneg; pzero := azero; pmul := amul; base := abase; order := base_order_25519;
  compress := acompress; decompress := adecompress; sha512 := ShaModel.sha512; elligator := aelligator
|}.
Lemma order_l : Z.of_N base_order_25519 = l25519. Proof. reflexivity. Qed.
Lemma aelligator_order s : amul l25519 (aelligator s) = azero.
Proof.
  unfold aelligator. cbv zeta. destruct (_ =? p25519 - 1); [apply amul_zero|]. destruct (adecompress _) as [P|]; [|apply amul_zero].
  rewrite <- amul_mul. rewrite Z.mul_comm. apply exponent_ok.
Qed.
Lemma points25519_ok : curve_ok points25519.
Proof.
  constructor; cbn [pt padd pneg pzero pmul base order compress decompress VrfModel.sha512 elligator points25519].
  - exact a_comm.
  - exact a_assoc.
  - exact a_add_zero.
  - exact a_add_neg.
  - exact amul_one.
  - exact amul_add.
  - exact amul_mul.
  - exact amul_dist.
  - exact l_prime.
  - reflexivity.
  - exact base_order_ok.
  - exact exponent_ok.
  - intros s. rewrite order_l. apply aelligator_order.
  - intros P. apply le_bytes_length.
  - exact decompress_compress_ok.
  - exact ShaProofs.sha512_length.
Qed.
