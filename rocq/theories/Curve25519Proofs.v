(** Coordinates that are valid are those of a point. *)
From Coq Require Import Znumtheory Field.
From Verif Require Import Base BaseFacts Digits Scheme FieldProofs VrfModel VrfSpec VrfProofs CurveModel OtsModel OtsSpec OtsProofs Curve25519Spec Field25519Proofs Points25519Proofs Order25519Proofs Real25519Proofs Transfer25519Proofs Scheme25519Proofs.
From Verif Require MultisigModel MultisigProofs DomainModel MsgpackModel TxModel TxProofs ShaModel.
Local Open Scope Z_scope.

Lemma q_p : q = p25519. Proof. reflexivity. Qed.
Lemma f_mod a b : a mod q = b mod q <-> f a = f b.
Proof. rewrite q_p. split; intros E; [apply fe_eq; exact E|apply (f_equal (val p25519)) in E; exact E]. Qed.
Lemma fm a b : f (a * b) = (f a * f b)%F. Proof. symmetry. apply mul_of. Qed.
Lemma fa a b : f (a + b) = (f a + f b)%F. Proof. symmetry. apply add_of. Qed.
Lemma fs a b : f (a - b) = (f a - f b)%F. Proof. symmetry. apply sub_of. Qed.
Opaque f f0 f1 fplus ftimes fminus fopp fdiv finverse fpower.
Lemma d_ratio : (f 121666 * d = - f 121665 /\ f 121666 <> 0)%F.
Proof.
  assert (C : canon 121666) by (canon). assert (C' : canon 121665) by canon. split.
  - unfold d. rewrite <- f_mul, <- f_neg by auto with canon. f_equal.
  - intros E. rewrite <- f_zero in E. apply f_inj in E; [discriminate E|exact C|exact canon_zero].
Qed.
Lemma affine_equation X Y Z n dd m : (n <> 0 -> Z <> 0 -> n * dd = - m ->
  n * ((Y * Y - X * X) * (Z * Z)) = n * (Z * Z * (Z * Z)) - m * (X * X * (Y * Y)) <->
  Y / Z * (Y / Z) - X / Z * (X / Z) = 1 + dd * (X / Z * (X / Z) * (Y / Z * (Y / Z))))%F.
Proof.
  intros N NZ D. replace m with (- (n * dd))%F by (rewrite D; ring). split; intros E.
  - transitivity ((n * ((Y * Y - X * X) * (Z * Z))) / (n * (Z * Z * (Z * Z))))%F; [field; split; assumption|]. rewrite E. field. split; assumption.
  - transitivity (n * (Z * Z * (Z * Z)) * (Y / Z * (Y / Z) - X / Z * (X / Z)))%F; [field; exact NZ|]. rewrite E. field. exact NZ.
Qed.
Lemma f_ne z : canon z -> (f z <> f0 <-> z <> 0).
Proof. intros C. rewrite <- f_zero. split; intros N E; apply N; [rewrite E; reflexivity|]. apply f_inj in E; [exact E|exact C|exact canon_zero]. Qed.
Lemma point_at x y : on25519 x y -> exists P, ax P = x /\ ay P = y.
Proof. intros O. exists (EdwardsProofs.mkPt F f1 fplus ftimes fminus d x y O). split; reflexivity. Qed.
Lemma valid_rep Q : valid Q <-> exists P, rep P Q.
Proof.
  destruct d_ratio as [DR DN]. split.
  - intros ((CX & CY & CZ & CT) & Z & T & E). rewrite f_mod in T, E. rewrite fs, !fm, ?fs, !fm in E. rewrite !fm in T. rewrite q_p in CX, CY, CZ, CT.
    apply (proj2 (f_ne _ CZ)) in Z. apply (affine_equation _ _ _ _ _ _ DN Z DR) in E.
    destruct (point_at _ _ E) as (P & PX & PY). exists P. constructor; try assumption; rewrite ?PX, ?PY; [field; exact Z|field; exact Z|].
    transitivity ((f (pz Q) * f (p_t Q)) / f (pz Q))%F; [field; exact Z|]. rewrite <- T. field. exact Z.
  - intros [P [CX CY CZ CT Z X Y T]]. unfold valid. rewrite q_p at 1 2 3 4. repeat (split; [assumption || (split; [assumption|split; [assumption|split; assumption]])|]).
    split; [apply (f_ne _ CZ); exact Z|]. rewrite !f_mod, fs, !fm, ?fs, !fm. split.
    + rewrite X, Y, T. ring.
    + apply (affine_equation _ _ _ _ _ _ DN Z DR). rewrite X, Y. pose proof (a_on P) as O. unfold on25519, EdwardsProofs.on in O.
      replace (ax P * f (pz Q) / f (pz Q))%F with (ax P) by (generalize (ax P); intros; field; exact Z).
      replace (ay P * f (pz Q) / f (pz Q))%F with (ay P) by (generalize (ay P); intros; field; exact Z). exact O.
Qed.
Lemma same_rep P Q P' Q' : rep P Q -> rep P' Q' -> same Q Q' <-> P = P'.
Proof.
  intros [CX CY CZ CT Z X Y T] [CX' CY' CZ' CT' Z' X' Y' T']. unfold same. rewrite !f_mod, !fm, X, Y, X', Y'. split.
  - intros [A B]. apply a_eq.
    + transitivity ((ax P * f (pz Q) * f (pz Q')) / (f (pz Q) * f (pz Q')))%F; [generalize (ax P); intros; field; split; assumption|].
      rewrite A. generalize (ax P'). intros. field. split; assumption.
    + transitivity ((ay P * f (pz Q) * f (pz Q')) / (f (pz Q) * f (pz Q')))%F; [generalize (ay P); intros; field; split; assumption|].
      rewrite B. generalize (ay P'). intros. field. split; assumption.
  - intros ->. split; ring.
Qed.
Lemma same_compress Q Q' : valid Q -> valid Q' -> (same Q Q' <-> edwards_compress Q = edwards_compress Q').
Proof.
  rewrite !valid_rep. intros [P R] [P' R']. rewrite (same_rep _ _ _ _ R R'), (rep_compress _ _ R), (rep_compress _ _ R'). split; [intros ->; reflexivity|apply acompress_inj].
Qed.

(** ** The group *)
Lemma valid_closed Q Q' n : valid Q -> valid Q' -> valid (edwards_add Q Q') /\ valid (edwards_neg Q) /\ valid (edwards_mul n Q) /\ valid identity /\ valid base_point.
Proof.
  rewrite !valid_rep. intros [P R] [P' R']. split; [exists (aplus P P'); apply rep_add; assumption|]. split; [exists (aneg P); apply rep_neg; assumption|].
  split; [exists (amul n P); apply rep_mul; assumption|]. split; [exists azero; exact rep_zero|exists abase; exact rep_base].
Qed.
Ltac by_points := eapply same_rep; eauto using rep_add, rep_neg, rep_mul, rep_zero, rep_base.
Lemma group_laws Q1 Q2 Q3 : valid Q1 -> valid Q2 -> valid Q3 ->
  same (edwards_add Q1 Q2) (edwards_add Q2 Q1) /\
  same (edwards_add Q1 (edwards_add Q2 Q3)) (edwards_add (edwards_add Q1 Q2) Q3) /\
  same (edwards_add Q1 identity) Q1 /\ same (edwards_add Q1 (edwards_neg Q1)) identity.
Proof.
  rewrite !valid_rep. intros [P1 R1] [P2 R2] [P3 R3]. split; [|split; [|split]].
  - by_points. apply a_comm.
  - by_points. apply a_assoc.
  - by_points. apply a_add_zero.
  - by_points. apply a_add_neg.
Qed.
Lemma multiples a b Q : valid Q ->
  same (edwards_mul 1 Q) Q /\ same (edwards_mul (a + b) Q) (edwards_add (edwards_mul a Q) (edwards_mul b Q)) /\
  same (edwards_mul (8 * Z.of_N base_order_25519) Q) identity.
Proof.
  rewrite valid_rep. intros [P R]. split; [|split].
  - by_points.
  - by_points. apply amul_add.
  - by_points. rewrite order_l. apply exponent_ok.
Qed.
Lemma base_point_order n : prime (Z.of_N base_order_25519) /\ (same (edwards_mul n base_point) identity <-> (Z.of_N base_order_25519 | n)).
Proof.
  split; [exact l_prime|]. rewrite (same_rep _ _ _ _ (rep_mul n _ _ rep_base) rep_zero). rewrite order_l. apply base_order_ok.
Qed.
Lemma round_trip Q : valid Q -> length (edwards_compress Q) = 32%nat /\ exists Q', edwards_decompress (edwards_compress Q) = Some Q' /\ valid Q' /\ same Q' Q.
Proof.
  rewrite valid_rep. intros [P R]. rewrite (rep_compress _ _ R). split; [apply acompress_length|].
  destruct (decompress_real P) as (Q' & D & R'). exists Q'. split; [exact D|]. split; [apply valid_rep; exists P; exact R'|].
  apply (same_rep _ _ _ _ R' R). reflexivity.
Qed.
Lemma decompressed_valid s Q : edwards_decompress s = Some Q -> valid Q.
Proof. intros E. apply valid_rep. destruct (decompress_sound _ _ E) as (P & _ & R & _). exists P. exact R. Qed.

(** ** Verifiable random functions *)
Lemma real_completeness seed data :
  exists out, to_output edwards25519 (prove_bytes edwards25519 (from_seed edwards25519 seed) data) = Some out /\
    verify_bytes edwards25519 (public_key (from_seed edwards25519 seed)) (prove_bytes edwards25519 (from_seed edwards25519 seed) data) data = Ok out.
Proof.
  destruct (completeness_lemma points25519 points25519_ok seed data) as (out & A & B). exists out.
  rewrite real_output, real_prove, real_seed in A. rewrite real_verify, real_prove, real_seed in B. split; [exact A|exact B].
Qed.
Lemma real_prove_length kp data : length (prove_bytes edwards25519 kp data) = 80%nat.
Proof. rewrite <- real_prove. apply prove_length. exact points25519_ok. Qed.
Lemma real_lucky pk data proof : lucky points25519 pk data proof -> lucky_hit pk data proof.
Proof.
  intros (y & gamma & c & s & D & E & L).
  pose proof (rep_decompress pk) as RD. cbn [decompress points25519] in D. rewrite D in RD. destruct (edwards_decompress pk) as [y'|] eqn:D'; [|contradiction].
  pose proof (r_decode points25519 edwards25519 rep eq_refl rep_decompress proof) as RE. rewrite E in RE.
  destruct (decode edwards25519 proof) as [[[g' c0] s0]|] eqn:E'; [|contradiction]. destruct RE as (RG & <- & <-).
  exists y', g', c, s. split; [exact D'|]. split; [exact E'|]. intros c' s' C S. cbv zeta. unfold answered. cbn [fst snd].
  assert (RH : rep (hash_to_curve points25519 pk data) (hash_to_curve edwards25519 pk data)).
  { apply (r_hash_to_curve points25519 edwards25519 rep); [reflexivity|exact rep_elligator]. }
  assert (RA : forall k m, rep (@psub points25519 (@smul points25519 k abase) (@smul points25519 m y)) (@psub edwards25519 (@smul edwards25519 k base_point) (@smul edwards25519 m y'))).
  { intros k m. apply rep_add; [apply rep_mul; exact rep_base|apply rep_neg, rep_mul; exact RD]. }
  assert (RB : forall k m, rep (@psub points25519 (@smul points25519 k (hash_to_curve points25519 pk data)) (@smul points25519 m gamma))
                               (@psub edwards25519 (@smul edwards25519 k (hash_to_curve edwards25519 pk data)) (@smul edwards25519 m g'))).
  { intros k m. apply rep_add; [apply rep_mul; exact RH|apply rep_neg, rep_mul; exact RG]. }
  intros A B. apply (same_rep _ _ _ _ (RA s' c') (RA s c)) in A. apply (same_rep _ _ _ _ (RB s' c') (RB s c)) in B.
  apply (L c' s' C S). unfold commitment. f_equal; assumption.
Qed.
Lemma real_uniqueness pk data p1 p2 o1 o2 :
  verify_bytes edwards25519 pk p1 data = Ok o1 -> verify_bytes edwards25519 pk p2 data = Ok o2 ->
  o1 = o2 \/ lucky_hit pk data p1 \/ lucky_hit pk data p2.
Proof.
  rewrite <- !real_verify. intros A B. destruct (uniqueness_lemma points25519 points25519_ok pk data p1 p2 o1 o2 A B) as [E|[E|E]];
    [left; exact E|right; left; apply real_lucky; exact E|right; right; apply real_lucky; exact E].
Qed.

(** ** Strings that are not the compressed form of their point *)
Lemma x_zero P : ax P = f0 <-> ay P = f1 \/ (ay P = - (1))%F.
Proof.
  pose proof (a_on P) as O. pose proof (y_denominator (ay P)) as N. unfold on25519, EdwardsProofs.on in O. split.
  - intros E. rewrite E in O. apply one_square. transitivity (ay P * ay P - 0 * 0)%F; [ring|]. rewrite O. ring.
  - intros E. assert (Y : (ay P * ay P = 1)%F) by (destruct E as [-> | ->]; ring).
    assert (Z : (ax P * ax P * (1 + d * (ay P * ay P)) = 0)%F).
    { transitivity (ay P * ay P - 1 - (ay P * ay P - ax P * ax P - (1 + d * (ax P * ax P * (ay P * ay P)))))%F; [ring|]. rewrite O, Y. ring. }
    apply f_domain in Z. destruct Z as [Z|Z]; [|contradiction]. apply f_domain in Z. destruct Z; assumption.
Qed.
Lemma real_canonical s Q : length s = 32%nat -> edwards_decompress s = Some Q ->
  (edwards_compress Q = s <->
   (le_num s mod 2 ^ 255 < 2 ^ 255 - 19)%N /\ (le_num s mod 2 ^ 255 = 1 \/ le_num s mod 2 ^ 255 = 2 ^ 255 - 20 -> le_num s < 2 ^ 255)%N).
Proof.
  intros L E. destruct (decompress_sound _ _ E) as (P & D & R & _). rewrite (rep_compress _ _ R), (canonical_form s P L D).
  destruct (decompressed_point s P D) as [Y _]. fold (y_part s). pose proof p_value as PV.
  assert (V : (Z.of_N (y_part s) < p25519)%Z <-> (y_part s < 2 ^ 255 - 19)%N) by (rewrite PV; lia). rewrite V.
  split; intros [A B]; (split; [exact A|]); apply V in A; assert (C : canon (Z.of_N (y_part s))) by (split; [lia|exact A]).
  - intros H. apply B. apply x_zero. rewrite Y. destruct H as [-> | ->]; [left; reflexivity|right].
    rewrite <- f_one, <- f_neg by exact canon_one. f_equal.
  - intros H. apply B. apply x_zero in H. rewrite Y in H. destruct H as [H|H].
    + left. rewrite <- f_one in H. apply f_inj in H; [lia|exact C|exact canon_one].
    + right. rewrite <- f_one, <- f_neg in H by exact canon_one. apply f_inj in H; [|exact C|auto with canon].
      replace (fneg 1) with (2 ^ 255 - 20)%Z in H by reflexivity. lia.
Qed.

(** ** Keys *)
Lemma real_key seed : ed_public seed <> default_key /\ exists Q, edwards_decompress (ed_public seed) = Some Q /\ small_order Q = false.
Proof.
  rewrite public_point. split.
  - intros E. assert (Z : acompress azero = default_key). { rewrite <- (rep_compress _ _ rep_zero). vm_compute. reflexivity. }
    rewrite <- Z in E. apply acompress_inj in E. apply (secret_indivisible seed). apply base_order_ok. exact E.
  - destruct (decompress_real (amul (secret seed) abase)) as (Q & D & R). exists Q. split; [exact D|].
    apply not_true_iff_false. rewrite (small_order_ok _ _ R), eight_base. apply secret_indivisible.
Qed.
(** the point whose compressed form is 32 zero bytes has order four *)
Lemma zero_point : exists Q, edwards_decompress zero32 = Some Q /\ small_order Q = true.
Proof.
  eexists. split; [vm_compute; reflexivity|]. vm_compute. reflexivity.
Qed.
Lemma key_not_zero seed : ed_public seed <> zero32.
Proof.
  intros E. destruct (real_key seed) as (_ & Q & D & S). rewrite E in D. destruct zero_point as (Q' & D' & S').
  assert (Q = Q') by congruence. subst Q'. congruence.
Qed.
Lemma null_refused key msg : ed_strict key msg null_sig = false.
Proof.
  unfold ed_strict. change (firstn 32 null_sig) with zero32. destruct zero_point as (Q & D & S). rewrite D.
  destruct (edwards_decompress key) as [A|]; [|reflexivity]. cbv zeta. rewrite S. cbn [negb]. rewrite andb_false_r. reflexivity.
Qed.
Opaque ed_check ed_strict ed_public ed_sign.
Lemma refuted_nonce o : self_refuted ed25519_strict o -> zero_nonce o.
Proof.
  intros (sk & m & C & D). exists sk, m. split; [|exact D]. cbn [check public sign_with ed25519_strict] in C.
  destruct (N.eq_dec (ed_nonce sk m) 0) as [E|E]; [exact E|]. apply strict_honest in E. congruence.
Qed.
Lemma real_usable md master start eks ds id msg fresh :
  (start + N.of_nat (length eks) <= two64)%N -> Forall del_ok ds -> id_ok id ->
  exists st0 st, generate ed25519_strict md master start eks = Some st0 /\ run ed25519_strict md ds st0 = Some st /\
    verifier st = verifier st0 /\
    (available start (N.of_nat (length eks)) ds id ->
       exists o, OtsModel.sign ed25519_strict md st id msg fresh = Some o /\
         (OtsModel.verify ed25519_strict o id msg (verifier st0) = true \/ zero_nonce o)) /\
    (~ available start (N.of_nat (length eks)) ds id -> OtsModel.sign ed25519_strict md st id msg fresh = Some null_ots).
Proof.
  intros Hn Hd Hi. destruct (usable_any ed25519_strict md master start eks ds id msg fresh Hn Hd Hi) as (st0 & st & G & R & V & A & N).
  exists st0, st. split; [exact G|]. split; [exact R|]. split; [exact V|]. split; [|exact N].
  intros X. destruct (A X) as (o & S & [K|K]); exists o; (split; [exact S|]); [left; exact K|right; apply refuted_nonce; exact K].
Qed.
Lemma key_properties seed : ed_public seed <> default_key /\ ed_public seed <> zero32 /\
  exists Q, edwards_decompress (ed_public seed) = Some Q /\ ~ same (edwards_mul 8 Q) identity.
Proof.
  destruct (real_key seed) as (A & Q & D & S). split; [exact A|]. split; [apply key_not_zero|]. exists Q. split; [exact D|].
  intros E. apply (same_compress _ _ (proj1 (proj2 (proj2 (valid_closed Q Q 8 (decompressed_valid _ _ D) (decompressed_valid _ _ D)))))) in E;
    [|apply valid_rep; exists azero; exact rep_zero].
  unfold small_order in S. rewrite E in S. rewrite bytes_eqb_refl in S. discriminate S.
Qed.
Lemma real_multisig msg t seeds addr : let keys := map ed_public seeds in
  forall pks, MultisigModel.from_pks ShaModel.sha512_256 1 t pks = Ok addr -> (length pks <= 255)%nat ->
  nth_error pks 0 <> Some default_key -> NoDup keys -> Forall (fun key => In key pks) keys ->
  (2 <= length seeds)%nat -> (t <= N.of_nat (length seeds))%N ->
  exists parts m, Forall2 (fun seed p => MultisigModel.sign ShaModel.sha512_256 ed25519 addr msg 1 t pks seed = Ok p) seeds parts /\
    MultisigModel.assemble parts = Ok m /\ MultisigModel.verify ShaModel.sha512_256 ed25519 m msg addr = Ok true.
Proof.
  intros keys pks A L D N F T U. apply MultisigProofs.completeness_lemma; try assumption; [exact ed25519_correct|].
  unfold keys in F. apply Forall_map in F. exact F.
Qed.
Lemma real_transaction seed t :
  let s := TxModel.sign ed25519 seed t in
  TxModel.authorizer s = ed_public seed /\ TxModel.stx_tx s = t /\
  (TxModel.stx_auth s = zero32 <-> ed_public seed = TxModel.sender (TxModel.tx_head t)) /\
  ed_check (ed_public seed) (DomainModel.id_bytes DomainModel.TRANSACTION ++ MsgpackModel.encode (TxModel.tx_value t)) (TxModel.stx_sig s) = true /\
  TxModel.stx_msig s = None /\ TxModel.stx_lsig s = None.
Proof. apply (TxProofs.sign_lemma ShaModel.sha512_256 ed25519 seed t ed25519_correct). apply key_not_zero. Qed.
