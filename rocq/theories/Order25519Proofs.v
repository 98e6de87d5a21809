(** The base point has the order it is said to have, and the exponent of the group divides 8 times that. *)
From Coq Require Import Znumtheory Field.
From Verif Require Import Base PrimeProofs FieldProofs AbelianProofs EdwardsProofs CurveModel Field25519Proofs Points25519Proofs.
Local Open Scope Z_scope.

Definition on_curve (x y : Z) : bool :=
  fsub (fmul y y) (fmul x x) =? fadd 1 (fmul edwards_d (fmul (fmul x x) (fmul y y))).
Lemma on_curve_ok x y : canon x -> canon y -> on_curve x y = true <-> on25519 (f x) (f y).
Proof.
  intros X Y. unfold on_curve, on25519, EdwardsProofs.on. rewrite Z.eqb_eq. rewrite <- f_one. unfold d.
  rewrite <- !f_mul, <- f_sub, <- f_add by auto 20 with canon. split; [intros ->; reflexivity|]. intros E. apply f_inj in E; auto 20 with canon.
Qed.
Definition affine (x y : Z) (C : canon x /\ canon y) (O : on_curve x y = true) : apt :=
  EdwardsProofs.mkPt F f1 fplus ftimes fminus d (f x) (f y) (proj1 (on_curve_ok x y (proj1 C) (proj2 C)) O).
Lemma affine_x x y C O : ax (affine x y C O) = f x. Proof. reflexivity. Qed.
Lemma affine_y x y C O : ay (affine x y C O) = f y. Proof. reflexivity. Qed.
Lemma rep3_affine x y C O : rep3 (affine x y C O) (x, y, 1).
Proof.
  destruct C as [X Y]. unfold rep3. rewrite affine_x, affine_y, f_one. split; [exact X|]. split; [exact Y|]. split; [exact canon_one|].
  split; [exact (F_1_neq_0 field25519)|]. split; ring.
Qed.
Definition is_origin (t : triple) : bool := let '(x, y, z) := t in (x =? 0) && (y =? z).
Lemma is_origin_ok P t : rep3 P t -> is_origin t = true <-> P = azero.
Proof.
  destruct t as [[x y] z]. intros (CX & CY & CZ & Z & X & Y). unfold is_origin. rewrite andb_true_iff, !Z.eqb_eq. split.
  - intros [-> ->]. apply a_eq; change (ax azero) with f0; change (ay azero) with f1.
    + symmetry in X. apply f_domain in X. tauto.
    + transitivity ((ay P * f z) / f z)%F; [field; exact Z|]. rewrite <- Y. field. exact Z.
  - intros ->. change (ax azero) with f0 in X. change (ay azero) with f1 in Y. split.
    + apply f_inj; [exact CX|exact canon_zero|]. rewrite X, f_zero. ring.
    + apply f_inj; [exact CY|exact CZ|]. rewrite Y. ring.
Qed.

(** ** The base point *)
Definition base_x : Z := Eval vm_compute in px base_point.
Definition base_y : Z := Eval vm_compute in py base_point.
Lemma base_canon : canon base_x /\ canon base_y. Proof. split; canon. Qed.
Lemma base_on : on_curve base_x base_y = true. Proof. vm_compute. reflexivity. Qed.
Definition abase : apt := affine base_x base_y base_canon base_on.
Definition l25519 : Z := Eval vm_compute in Z.of_N base_order_25519.
Lemma l_prime : prime l25519. Proof. exact prime_order. Qed.
Lemma base_multiple : is_origin (chain (Z.to_pos l25519) base_x base_y) = true.
Proof. vm_compute. reflexivity. Qed.

(** ** Multiples *)
Lemma amul_add a b P : amul (a + b) P = aplus (amul a P) (amul b P). Proof. apply times_add; [exact a_comm|exact a_assoc|exact a_add_zero|exact a_add_neg]. Qed.
Lemma amul_mul a b P : amul (a * b) P = amul a (amul b P). Proof. apply times_mul; [exact a_comm|exact a_assoc|exact a_add_zero|exact a_add_neg]. Qed.
Lemma amul_dist a P Q : amul a (aplus P Q) = aplus (amul a P) (amul a Q). Proof. apply times_dist; [exact a_comm|exact a_assoc|exact a_add_zero|exact a_add_neg]. Qed.
Lemma amul_zero a : amul a azero = azero. Proof. apply times_zero; [exact a_comm|exact a_assoc|exact a_add_zero|exact a_add_neg]. Qed.
Lemma amul_opp a P : amul (- a) P = aneg (amul a P). Proof. apply times_opp; exact a_comm || exact a_assoc || exact a_add_zero || exact a_add_neg. Qed.
Lemma amul_one P : amul 1 P = P. Proof. reflexivity. Qed.
Lemma a_zero_add P : aplus azero P = P. Proof. rewrite a_comm. apply a_add_zero. Qed.
Lemma a_cancel P Q R : aplus P Q = aplus P R -> Q = R.
Proof. apply cancel with (neg := aneg) (zero := azero); [exact a_comm|exact a_assoc|exact a_add_zero|exact a_add_neg]. Qed.

(** n kills P if and only if m does *)
Lemma gcd_kills n m P : amul n P = azero -> amul m P = azero -> amul (Z.gcd n m) P = azero.
Proof.
  intros N M. destruct (Z.gcd_bezout n m (Z.gcd n m) eq_refl) as (a & b & E). rewrite <- E, amul_add, !amul_mul, N, M, !amul_zero. apply a_add_zero.
Qed.
Lemma amul_pos n P : 0 < n -> amul n P = mul_pos apt aplus (Z.to_pos n) P.
Proof. destruct n; [lia|reflexivity|lia]. Qed.
Lemma base_killed : amul l25519 abase = azero.
Proof.
  rewrite amul_pos by reflexivity. apply (is_origin_ok _ _ (rep3_chain (Z.to_pos l25519) abase base_x base_y (rep3_affine _ _ _ _))). exact base_multiple.
Qed.
Lemma base_nonzero : abase <> azero.
Proof. intros E. apply (is_origin_ok _ _ (rep3_affine base_x base_y base_canon base_on)) in E. discriminate E. Qed.
Lemma base_order_ok n : amul n abase = azero <-> (l25519 | n).
Proof.
  split.
  - intros E. pose proof (gcd_kills n l25519 abase E base_killed) as G. pose proof (Z.gcd_divide_r n l25519) as D. pose proof (Z.gcd_nonneg n l25519) as P.
    destruct (prime_divisors l25519 l_prime (Z.gcd n l25519) D) as [A|[A|[A|A]]]; rewrite ?A in G; try lia.
    + exfalso. apply base_nonzero. exact G.
    + rewrite <- A. apply Z.gcd_divide_l.
    + pose proof l_prime as L. apply prime_ge_2 in L. lia.
  - intros [k ->]. rewrite amul_mul, base_killed. apply amul_zero.
Qed.

(** ** A point of order 8 *)
Definition eighth_x : Z := 43496726750457979451437558183816721346016168361625936758514574428539776020131.
Definition eighth_y : Z := 55188659117513257062467267217118295137698188065244968500265048394206261417927.
Lemma eighth_canon : canon eighth_x /\ canon eighth_y. Proof. split; canon. Qed.
Lemma eighth_on : on_curve eighth_x eighth_y = true. Proof. vm_compute. reflexivity. Qed.
Definition aeighth : apt := affine eighth_x eighth_y eighth_canon eighth_on.
Lemma eighth_multiples : is_origin (chain 8 eighth_x eighth_y) = true /\ is_origin (chain 4 eighth_x eighth_y) = false.
Proof. split; vm_compute; reflexivity. Qed.
Lemma eighth_killed : amul 8 aeighth = azero.
Proof. apply (is_origin_ok _ _ (rep3_chain 8 aeighth eighth_x eighth_y (rep3_affine _ _ _ _))). exact (proj1 eighth_multiples). Qed.
Lemma eighth_half : amul 4 aeighth <> azero.
Proof.
  intros E. apply (is_origin_ok _ _ (rep3_chain 4 aeighth eighth_x eighth_y (rep3_affine _ _ _ _))) in E. rewrite (proj2 eighth_multiples) in E. discriminate E.
Qed.
Lemma eighth_order n : amul n aeighth = azero -> (8 | n).
Proof.
  intros E. pose proof (gcd_kills n 8 aeighth E eighth_killed) as G. pose proof (Z.gcd_divide_r n 8) as D. pose proof (Z.gcd_nonneg n 8) as P.
  destruct (Z.eq_dec (Z.gcd n 8) 8) as [A|A]; [rewrite <- A; apply Z.gcd_divide_l|].
  exfalso. apply eighth_half. assert (L : Z.gcd n 8 <= 8) by (apply Z.divide_pos_le; [lia|exact D]).
  assert (Q : Z.gcd n 8 = 1 \/ Z.gcd n 8 = 2 \/ Z.gcd n 8 = 4).
  { destruct D as [k D]. generalize dependent (Z.gcd n 8). clear. intros g G D P A L.
    destruct (Z.eq_dec g 0) as [->|?]; [lia|]. destruct (Z.eq_dec g 3) as [->|?]; [lia|]. destruct (Z.eq_dec g 5) as [->|?]; [lia|].
    destruct (Z.eq_dec g 6) as [->|?]; [lia|]. destruct (Z.eq_dec g 7) as [->|?]; [lia|]. assert (0 <= g) by assumption. lia. }
  destruct Q as [Q|[Q|Q]]; rewrite Q in G.
  - replace 4 with (4 * 1) by reflexivity. rewrite amul_mul, G. apply amul_zero.
  - replace 4 with (2 * 2) by reflexivity. rewrite amul_mul, G. apply amul_zero.
  - exact G.
Qed.

(** ** At most two points have the same y: fewer than 2 p points *)
Lemma y_denominator y : (1 + d * (y * y) <> 0)%F.
Proof.
  intros E. assert (N : y <> f0). { intros ->. apply (F_1_neq_0 field25519). rewrite <- E. ring. }
  apply (d_nonsquare (i / y)%F). transitivity ((i * i) / (y * y))%F; [field; exact N|]. rewrite i_square.
  replace (- (1))%F with (d * (y * y) - (1 + d * (y * y)))%F by ring. rewrite E. field. exact N.
Qed.
Lemma x_squared P : (ax P * ax P = (ay P * ay P - 1) / (1 + d * (ay P * ay P)))%F.
Proof.
  pose proof (a_on P) as O. unfold on25519, EdwardsProofs.on in O. pose proof (y_denominator (ay P)) as N.
  generalize dependent (ax P). generalize dependent (ay P). clear. intros y N x O.
  replace (y * y - 1)%F with (x * x * (1 + d * (y * y)))%F; [field; exact N|].
  transitivity (y * y - 1 - (y * y - x * x - (1 + d * (x * x * (y * y)))))%F; [ring|]. rewrite O. ring.
Qed.
Lemma f_square_eq a b : (a * a = b * b -> a = b \/ a = - b)%F.
Proof.
  intros E. assert (Z : ((a - b) * (a + b) = 0)%F) by (transitivity (a * a - b * b)%F; [ring|rewrite E; ring]).
  apply f_domain in Z. destruct Z as [Z|Z]; [left|right].
  - transitivity (a - b + b)%F; [ring|rewrite Z; ring].
  - transitivity (a + b - b)%F; [ring|rewrite Z; ring].
Qed.
Definition parity (a : F) : bool := odd (val p25519 a).
Lemma val_canon a : canon (val p25519 a). Proof. exact (f_range a). Qed.
Lemma parity_neg a : a <> f0 -> parity (- a)%F = negb (parity a).
Proof.
  intros N. unfold parity. rewrite <- odd_neg; [|apply val_canon|].
  - f_equal. apply f_inj; [apply val_canon|apply canon_neg, val_canon|]. rewrite f_val, f_neg, f_val by apply val_canon. reflexivity.
  - intros E. apply N. rewrite <- (f_val a), E. apply f_zero.
Qed.
Lemma same_point P Q : ay P = ay Q -> parity (ax P) = parity (ax Q) -> P = Q.
Proof.
  intros Y X. apply a_eq; [|exact Y].
  assert (E : (ax P * ax P = ax Q * ax Q)%F) by (rewrite !x_squared, Y; reflexivity).
  apply f_square_eq in E. destruct E as [E|E]; [exact E|]. destruct (f_dec (ax Q) f0) as [Z|N].
  - rewrite E, Z. ring.
  - rewrite E, parity_neg in X by exact N. destruct (parity (ax Q)); discriminate.
Qed.
Definition number (P : apt) : Z := 2 * val p25519 (ay P) + (if parity (ax P) then 1 else 0).
Lemma number_range P : 0 <= number P < 2 * p25519.
Proof. unfold number. pose proof (f_range (ay P)). destruct (parity (ax P)); lia. Qed.
Lemma number_inj P Q : number P = number Q -> P = Q.
Proof.
  unfold number. intros E. apply same_point.
  - apply fe_eq. destruct (parity (ax P)), (parity (ax Q)); lia.
  - destruct (parity (ax P)), (parity (ax Q)); [reflexivity|lia|lia|reflexivity].
Qed.

(** *** Pigeons *)
Lemma pigeonhole (n m : Z) (g : Z -> Z) : 0 <= n -> 0 <= m -> (forall k, 0 <= k < n -> 0 <= g k < m) ->
  (forall j k, 0 <= j < n -> 0 <= k < n -> g j = g k -> j = k) -> n <= m.
Proof.
  intros N M R I.
  pose (L := map (fun k => g (Z.of_nat k)) (seq 0 (Z.to_nat n))).
  assert (D : NoDup L).
  { unfold L. assert (A : forall k, In k (seq 0 (Z.to_nat n)) -> 0 <= Z.of_nat k < n) by (intros k K; apply in_seq in K; lia).
    pose proof (seq_NoDup (Z.to_nat n) 0) as U. induction U as [|a l NI U IH]; cbn [map]; constructor.
    - intros X. apply in_map_iff in X. destruct X as (b & E & B). apply NI. apply I in E; [|apply A; right; exact B|apply A; left; reflexivity].
      apply Nat2Z.inj in E. rewrite <- E. exact B.
    - apply IH. intros k K. apply A. right. exact K. }
  assert (S : incl L (map Z.of_nat (seq 0 (Z.to_nat m)))).
  { intros x X. apply in_map_iff in X. destruct X as (k & <- & K). apply in_seq in K. specialize (R (Z.of_nat k) ltac:(lia)).
    apply in_map_iff. exists (Z.to_nat (g (Z.of_nat k))). split; [lia|]. apply in_seq. lia. }
  apply (NoDup_incl_length D) in S. unfold L in S. rewrite !map_length, !seq_length in S. lia.
Qed.

(** ** The exponent of the group *)
Definition combination (P : apt) (a b e : Z) : apt := aplus (aplus (amul a abase) (amul b aeighth)) (amul e P).
Lemma combination_sub P a b e a' b' e' : combination P a b e = combination P a' b' e' -> combination P (a - a') (b - b') (e - e') = azero.
Proof.
  intros E. apply (a_cancel (combination P a' b' e')). transitivity (combination P a b e); [|rewrite a_add_zero; exact E]. unfold combination.
  assert (S : forall X Y V W, aplus (aplus X Y) (aplus V W) = aplus (aplus X V) (aplus Y W)).
  { intros. apply swap4 with (1 := a_comm) (2 := a_assoc). }
  rewrite S, (S (amul a' abase)), <- !amul_add. f_equal; [f_equal|]; f_equal; ring.
Qed.
Lemma eight_combination P a b e : combination P a b e = azero -> aplus (amul (8 * a) abase) (amul (8 * e) P) = azero.
Proof.
  intros E. apply (f_equal (amul 8)) in E. rewrite amul_zero in E. unfold combination in E. rewrite !amul_dist, <- !amul_mul in E.
  replace (8 * b) with (b * 8) in E by ring. rewrite (amul_mul b 8), eighth_killed, amul_zero, a_add_zero in E. exact E.
Qed.
Lemma combination_e P a b e : combination P a b e = azero -> amul (8 * l25519 * e) P = azero.
Proof.
  intros E. apply eight_combination in E. apply (f_equal (amul l25519)) in E. rewrite amul_zero, amul_dist, <- !amul_mul in E.
  replace (l25519 * (8 * a)) with (8 * a * l25519) in E by ring. rewrite (amul_mul (8 * a)), base_killed, amul_zero, a_zero_add in E.
  rewrite <- E. f_equal. ring.
Qed.
Lemma combination_b P a b : combination P a b 0 = azero -> (l25519 | a) /\ (8 | b).
Proof.
  intros E. assert (A : (l25519 | a)).
  { pose proof (eight_combination _ _ _ _ E) as A. replace (8 * 0) with 0 in A by reflexivity. change (amul 0 P) with azero in A. rewrite a_add_zero in A.
    apply base_order_ok in A. apply prime_mult in A; [|exact l_prime]. destruct A as [A|A]; [|exact A].
    apply Z.divide_pos_le in A; [exfalso; apply A; reflexivity|reflexivity]. }
  split; [exact A|]. unfold combination in E. change (amul 0 P) with azero in E. apply base_order_ok in A. rewrite A, a_add_zero, a_zero_add in E.
  apply eighth_order. exact E.
Qed.
Lemma small_divisor n a : 0 < n -> (n | a) -> -n < a < n -> a = 0.
Proof.
  intros N [k ->] B. destruct (Z.lt_trichotomy k 0) as [K|[->|K]]; [|reflexivity|].
  - pose proof (Z.mul_le_mono_nonneg_r k (-1) n). lia.
  - pose proof (Z.mul_le_mono_nonneg_r 1 k n). lia.
Qed.
Lemma too_many : 2 * p25519 < 16 * l25519. Proof. rewrite p_value. reflexivity. Qed.
Lemma exponent_ok P : amul (8 * l25519) P = azero.
Proof.
  pose proof too_many as M. pose proof (prime_ge_2 _ l_prime) as L2.
  assert (D : forall Q R : apt, {Q = R} + {Q <> R}).
  { intros Q R. destruct (Z.eq_dec (number Q) (number R)) as [E|E]; [left; apply number_inj; exact E|right; intros ->; apply E; reflexivity]. }
  destruct (D (amul (8 * l25519) P) azero) as [E|N]; [exact E|exfalso].
  pose (g := fun k => number (combination P (k mod l25519) (k / l25519 mod 8) (k / l25519 / 8))).
  assert (H : 16 * l25519 <= 2 * p25519); [|lia].
  apply (pigeonhole _ _ g); [lia|pose proof (f_range f0); lia|intros; apply number_range|].
  intros j k J K E. apply number_inj in E. apply combination_sub in E.
  assert (Q : forall n, 0 <= n < 16 * l25519 -> 0 <= n / l25519 / 8 < 2).
  { intros n B. split; [apply Z.div_pos; [apply Z.div_pos; lia|lia]|]. apply Z.div_lt_upper_bound; [lia|]. apply Z.div_lt_upper_bound; lia. }
  pose proof (Q j J) as QJ. pose proof (Q k K) as QK. clear Q.
  assert (ED : j / l25519 / 8 - k / l25519 / 8 = 0).
  { pose proof (combination_e _ _ _ _ E) as C. destruct (Z.eq_dec (j / l25519 / 8) (k / l25519 / 8)) as [X|X]; [rewrite X; apply Z.sub_diag|]. exfalso. apply N.
    assert (Y : j / l25519 / 8 - k / l25519 / 8 = 1 \/ j / l25519 / 8 - k / l25519 / 8 = -1) by (clear -QJ QK X; generalize dependent (j / l25519 / 8); generalize dependent (k / l25519 / 8); intros; lia).
    destruct Y as [Y|Y]; rewrite Y in C.
    - rewrite Z.mul_1_r in C. exact C.
    - replace (8 * l25519 * -1) with (- (8 * l25519)) in C by ring. rewrite amul_opp in C. apply (f_equal aneg) in C.
      rewrite (neg_neg _ _ _ _ a_comm a_assoc a_add_zero a_add_neg), (neg_zero _ _ _ _ a_comm a_assoc a_add_zero a_add_neg) in C. exact C. }
  rewrite ED in E. apply combination_b in E. destruct E as [A B].
  pose proof (Z.mod_pos_bound j l25519 ltac:(lia)). pose proof (Z.mod_pos_bound k l25519 ltac:(lia)).
  pose proof (Z.mod_pos_bound (j / l25519) 8 ltac:(lia)). pose proof (Z.mod_pos_bound (k / l25519) 8 ltac:(lia)).
  apply small_divisor in A; [|lia|lia]. apply small_divisor in B; [|lia|lia].
  rewrite (Z.div_mod j l25519), (Z.div_mod k l25519) by lia.
  rewrite (Z.div_mod (j / l25519) 8), (Z.div_mod (k / l25519) 8) by lia.
  replace (j mod l25519) with (k mod l25519) by lia. replace (j / l25519 mod 8) with (k / l25519 mod 8) by lia. replace (j / l25519 / 8) with (k / l25519 / 8) by lia. reflexivity.
Qed.
