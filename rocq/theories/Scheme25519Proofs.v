(** The curve of [CurveModel] is the real one up to coordinates; Ed25519 signatures. *)
From Coq Require Import Znumtheory Field.
From Verif Require Import Base BaseFacts Digits ShaModel ShaProofs Scheme FieldProofs VrfModel VrfSpec VrfProofs CurveModel Field25519Proofs Points25519Proofs Order25519Proofs Real25519Proofs Transfer25519Proofs.
Local Open Scope Z_scope.
Opaque f f0 f1 fplus ftimes fminus fopp fdiv finverse fpower.

Lemma rep_base : rep abase base_point.
Proof.
  assert (X : ax abase = f (px base_point)) by reflexivity. assert (Y : ay abase = f (py base_point)) by reflexivity.
  assert (T : p_t base_point = fmul (px base_point) (py base_point)) by (vm_compute; reflexivity).
  assert (Z : pz base_point = 1) by reflexivity.
  assert (CX : canon (px base_point)) by exact (proj1 base_canon). assert (CY : canon (py base_point)) by exact (proj2 base_canon).
  generalize dependent base_point. intros B X Y T Z CX CY.
  constructor; rewrite ?T, ?Z; auto with canon; rewrite ?f_mul, ?f_one, ?X, ?Y by assumption; try ring. exact (F_1_neq_0 field25519).
Qed.
Lemma rep_decompress s :
  match adecompress s, edwards_decompress s with Some P, Some Q => rep P Q | None, None => True | _, _ => False end.
Proof.
  destruct (edwards_decompress s) as [Q|] eqn:E.
  - destruct (decompress_sound _ _ E) as (P & -> & R & _). exact R.
  - rewrite (decompress_none _ E). exact I.
Qed.
Lemma rep_elligator s : rep (aelligator s) (elligator_25519 s).
Proof.
  unfold aelligator, elligator_25519, to_edwards. cbv zeta.
  generalize (elligator_encode (reduce (Z.land (Z.of_N (le_num (firstn 32 s))) low_bits))). intros u.
  destruct (u =? p25519 - 1); [exact rep_zero|].
  pose proof (rep_decompress (le_bytes 32 (Z.to_N
    (if low_bits <? Z.of_N (le_num (firstn 32 s)) then fmul (fsub u 1) (finv (fadd u 1)) + 2 ^ 255 else fmul (fsub u 1) (finv (fadd u 1)))))) as D.
  destruct (adecompress _) as [P|], (edwards_decompress _) as [Q|]; try contradiction; [apply rep_mul; exact D|exact rep_zero].
Qed.
Ltac transfer := first
  [ exact rep_add | exact rep_neg | exact rep_mul | exact rep_base | reflexivity | (intros P Q E; symmetry; apply rep_compress; exact E)
  | exact rep_decompress | exact rep_elligator ].
Lemma real_seed s : from_seed points25519 s = from_seed edwards25519 s.
Proof. apply same_seed with (R := rep); transfer. Qed.
Lemma real_prove kp data : prove_bytes points25519 kp data = prove_bytes edwards25519 kp data.
Proof. apply same_prove with (R := rep); transfer. Qed.
Lemma real_output s : to_output points25519 s = to_output edwards25519 s.
Proof. apply same_output with (R := rep); transfer. Qed.
Lemma real_verify pk proof data : verify_bytes points25519 pk proof data = verify_bytes edwards25519 pk proof data.
Proof. apply same_verify with (R := rep); transfer. Qed.

(** ** Signatures *)
Lemma base_congr n m : amul n abase = amul m abase <-> (l25519 | n - m).
Proof.
  rewrite <- base_order_ok. assert (E : amul n abase = aplus (amul m abase) (amul (n - m) abase)) by (rewrite <- amul_add; f_equal; ring). split.
  - intros H. rewrite H in E. apply (a_cancel (amul m abase)). rewrite <- E. symmetry. apply a_add_zero.
  - intros H. rewrite E, H. apply a_add_zero.
Qed.
Lemma l_positive : 0 < l25519. Proof. reflexivity. Qed.
Lemma mod_congr n : (l25519 | n - n mod l25519).
Proof. exists (n / l25519). pose proof (Z.div_mod n l25519). pose proof l_positive. lia. Qed.
Lemma acompress_inj P Q : acompress P = acompress Q -> P = Q.
Proof. intros E. apply (f_equal adecompress) in E. rewrite !decompress_compress_ok in E. congruence. Qed.
Lemma acompress_length P : length (acompress P) = 32%nat. Proof. apply le_bytes_length. Qed.
Lemma decompress_real P : exists Q, edwards_decompress (acompress P) = Some Q /\ rep P Q.
Proof.
  pose proof (rep_decompress (acompress P)) as D. rewrite decompress_compress_ok in D. destruct (edwards_decompress _) as [Q|]; [|contradiction].
  exists Q. split; [reflexivity|exact D].
Qed.
Definition secret (seed : bytes) : Z := Z.of_N (expand edwards25519 seed).
Lemma public_point seed : ed_public seed = acompress (amul (secret seed) abase).
Proof. unfold ed_public, from_seed. cbn [public_key]. apply rep_compress, rep_mul, rep_base. Qed.
Definition answer (seed msg : bytes) : N :=
  let R := acompress (amul (Z.of_N (ed_nonce seed msg)) abase) in
  ((ed_nonce seed msg + (scalar_hash (R ++ ed_public seed ++ msg) * expand edwards25519 seed) mod base_order_25519) mod base_order_25519)%N.
Lemma sign_parts seed msg : ed_sign seed msg = acompress (amul (Z.of_N (ed_nonce seed msg)) abase) ++ le_bytes 32 (answer seed msg).
Proof.
  unfold ed_sign, answer. cbv zeta. rewrite (rep_compress _ _ (rep_mul (Z.of_N (ed_nonce seed msg)) _ _ rep_base)). reflexivity.
Qed.
Lemma answer_small seed msg : (answer seed msg < base_order_25519)%N.
Proof. apply N.mod_lt. discriminate. Qed.
Lemma small_256 n : (n < base_order_25519)%N -> (n < 256 ^ N.of_nat 32)%N.
Proof. intros L. apply (N.lt_trans _ _ _ L). reflexivity. Qed.
Lemma order_positive : (base_order_25519 <> 0)%N. Proof. discriminate. Qed.
Lemma answer_eq seed msg k : k = scalar_hash (acompress (amul (Z.of_N (ed_nonce seed msg)) abase) ++ ed_public seed ++ msg) ->
  aplus (amul (Z.of_N (answer seed msg)) abase) (aneg (amul (Z.of_N k) (amul (secret seed) abase))) = amul (Z.of_N (ed_nonce seed msg)) abase.
Proof.
  intros E. unfold answer. cbv zeta. rewrite <- E. rewrite <- amul_mul, <- amul_opp, <- amul_add. apply base_congr.
  rewrite N2Z.inj_mod, N2Z.inj_add, N2Z.inj_mod, N2Z.inj_mul by exact order_positive. rewrite order_l. unfold secret.
  generalize (Z.of_N (ed_nonce seed msg)) (Z.of_N k) (Z.of_N (expand edwards25519 seed)). intros r c a.
  destruct (mod_congr (r + (c * a) mod l25519)) as [u U]. destruct (mod_congr (c * a)) as [v V]. exists (- u - v). lia.
Qed.
Lemma check_points key msg sig A : adecompress key = Some A -> length sig = 64%nat ->
  ed_check key msg sig = true <->
  (le_num (skipn 32 sig) < base_order_25519)%N /\
  firstn 32 sig = acompress (aplus (amul (Z.of_N (le_num (skipn 32 sig))) abase) (aneg (amul (Z.of_N (scalar_hash (firstn 32 sig ++ key ++ msg))) A))).
Proof.
  intros D L. unfold ed_check. pose proof (rep_decompress key) as R. rewrite D in R. destruct (edwards_decompress key) as [A'|]; [|contradiction]. cbv zeta.
  rewrite !andb_true_iff, Nat.eqb_eq, N.ltb_lt, bytes_eqb_spec.
  rewrite (rep_compress _ _ (rep_add _ _ _ _ (rep_mul _ _ _ rep_base) (rep_neg _ _ (rep_mul (Z.of_N (scalar_hash (firstn 32 sig ++ key ++ msg))) _ _ R)))).
  tauto.
Qed.
Lemma sign_length seed msg : length (ed_sign seed msg) = 64%nat.
Proof. rewrite sign_parts, app_length, acompress_length, le_bytes_length. reflexivity. Qed.
Lemma sign_first seed msg : firstn 32 (ed_sign seed msg) = acompress (amul (Z.of_N (ed_nonce seed msg)) abase).
Proof. rewrite sign_parts. rewrite <- (acompress_length (amul (Z.of_N (ed_nonce seed msg)) abase)) at 1. rewrite firstn_app, Nat.sub_diag, firstn_all. apply app_nil_r. Qed.
Lemma sign_second seed msg : le_num (skipn 32 (ed_sign seed msg)) = answer seed msg.
Proof.
  rewrite sign_parts. rewrite <- (acompress_length (amul (Z.of_N (ed_nonce seed msg)) abase)) at 1. rewrite skipn_app, Nat.sub_diag, skipn_all. cbn [app skipn].
  apply le_num_bytes, small_256, answer_small.
Qed.
Lemma ed25519_correct : scheme_correct ed25519.
Proof.
  intros seed msg. cbn [check public sign_with ed25519].
  apply (check_points _ _ _ (amul (secret seed) abase)); [rewrite public_point; apply decompress_compress_ok|apply sign_length|].
  rewrite sign_first, sign_second. split; [apply answer_small|]. rewrite (answer_eq seed msg _ eq_refl). reflexivity.
Qed.
Lemma check_key key msg sig : ed_check key msg sig = true -> length sig = 64%nat /\ exists A, adecompress key = Some A.
Proof.
  unfold ed_check. pose proof (rep_decompress key) as R. destruct (edwards_decompress key) as [A'|]; [|discriminate].
  destruct (adecompress key) as [A|]; [|contradiction]. cbv zeta. rewrite !andb_true_iff, Nat.eqb_eq. intros [[L _] _]. split; [exact L|exists A; reflexivity].
Qed.
(** one answer for each commitment *)
Lemma check_unique key msg sig sig' : ed_check key msg sig = true -> ed_check key msg sig' = true -> firstn 32 sig = firstn 32 sig' -> sig = sig'.
Proof.
  intros C C' E. destruct (check_key _ _ _ C) as (L & A & D). destruct (check_key _ _ _ C') as (L' & _).
  apply (check_points _ _ _ _ D L) in C. apply (check_points _ _ _ _ D L') in C'. destruct C as [S P], C' as [S' P'].
  rewrite <- E in P'. rewrite P' in P at 1. apply acompress_inj in P. rewrite !(a_comm (amul _ abase)) in P. apply a_cancel in P.
  apply base_congr in P. assert (N : le_num (skipn 32 sig) = le_num (skipn 32 sig')).
  { apply N2Z.inj. apply small_divisor in P; [lia|exact l_positive|]. apply N2Z.inj_lt in S, S'. rewrite order_l in S, S'. lia. }
  apply le_num_inj in N; [|rewrite !skipn_length, L, L'; reflexivity].
  rewrite <- (firstn_skipn 32 sig), <- (firstn_skipn 32 sig'), E, N. reflexivity.
Qed.

(** ** Secrets *)
Local Open Scope N_scope.
Definition byte_all (g : byte -> bool) : bool := forallb (fun n => g (b8 (N.of_nat n))) (seq 0 256).
Lemma byte_all_ok g b : byte_all g = true -> g b = true.
Proof.
  unfold byte_all. rewrite forallb_forall. intros A. specialize (A (N.to_nat (Byte.to_N b))).
  rewrite N2Nat.id in A. replace (b8 (Byte.to_N b)) with b in A.
  - apply A. apply in_seq. pose proof (Byte.to_N_bounded b). lia.
  - destruct b; reflexivity.
Qed.
Lemma low_bits_clear b : Byte.to_N (b8 (N.land (Byte.to_N b) 248)) mod 8 = 0.
Proof. apply N.eqb_eq. revert b. intros b. apply (byte_all_ok (fun b => Byte.to_N (b8 (N.land (Byte.to_N b) 248)) mod 8 =? 0)). vm_compute. reflexivity. Qed.
Lemma top_bits b : 64 <= Byte.to_N (b8 (N.lor (N.land (Byte.to_N b) 63) 64)) < 128.
Proof.
  pose proof (byte_all_ok (fun b => (64 <=? Byte.to_N (b8 (N.lor (N.land (Byte.to_N b) 63) 64))) && (Byte.to_N (b8 (N.lor (N.land (Byte.to_N b) 63) 64)) <? 128)) b) as A.
  cbv beta in A. rewrite andb_true_iff, N.leb_le, N.ltb_lt in A. apply A. vm_compute. reflexivity.
Qed.
Lemma le_num_cons b s : le_num (b :: s) = Byte.to_N b + 256 * le_num s. Proof. reflexivity. Qed.
Lemma le_num_app s t : le_num (s ++ t) = le_num s + 256 ^ N.of_nat (length s) * le_num t.
Proof. unfold le_num. rewrite map_app, le_val_app, map_length. reflexivity. Qed.
Lemma clamp_range s : length s = 32%nat -> exists k, le_num (clamp s) = 8 * k /\ 2 ^ 251 <= k < 2 ^ 252.
Proof.
  intros L. destruct s as [|b0 r]; [discriminate|]. cbn [length] in L. unfold clamp. rewrite le_num_cons, le_num_app.
  assert (LM : length (removelast r) = 30%nat).
  { rewrite removelast_firstn_len, firstn_length. lia. }
  rewrite LM. change (256 ^ N.of_nat 30) with (2 ^ 240). rewrite le_num_cons. change (le_num []) with 0. rewrite N.mul_0_r, N.add_0_r.
  pose proof (le_num_lt (removelast r)) as B. rewrite LM in B. change (256 ^ N.of_nat 30) with (2 ^ 240) in B.
  pose proof (low_bits_clear b0) as Z. pose proof (top_bits (last r x00)) as T.
  pose proof (Byte.to_N_bounded (b8 (N.land (Byte.to_N b0) 248))) as B0.
  generalize dependent (Byte.to_N (b8 (N.land (Byte.to_N b0) 248))). intros x Z B0.
  generalize dependent (Byte.to_N (b8 (N.lor (N.land (Byte.to_N (last r x00)) 63) 64))). intros t T.
  generalize dependent (le_num (removelast r)). intros m B. clear -Z B0 T B.
  exists (x / 8 + 32 * (m + 2 ^ 240 * t)). split; [|lia]. pose proof (N.div_mod x 8). lia.
Qed.
Lemma secret_range seed : exists k, secret seed = (8 * k)%Z /\ (0 < k < l25519)%Z.
Proof.
  unfold secret, expand. cbn [VrfModel.sha512 edwards25519]. destruct (clamp_range (firstn 32 (ShaModel.sha512 seed))) as (k & E & B).
  - rewrite firstn_length, ShaProofs.sha512_length. reflexivity.
  - exists (Z.of_N k). rewrite E. split; [lia|]. split; [lia|]. apply Z.lt_trans with (Z.of_N (2 ^ 252)); [lia|]. reflexivity.
Qed.
Lemma eight_base n : amul 8 (amul n abase) = azero <-> (l25519 | n)%Z.
Proof.
  rewrite <- amul_mul. rewrite base_order_ok. split.
  - intros D. apply prime_mult in D; [|exact l_prime]. destruct D as [D|D]; [|exact D].
    apply Z.divide_pos_le in D; [exfalso; apply D; reflexivity|reflexivity].
  - intros D. apply Z.divide_mul_r. exact D.
Qed.
Lemma secret_indivisible seed : ~ (l25519 | secret seed)%Z.
Proof.
  destruct (secret_range seed) as (k & -> & B). intros D. apply prime_mult in D; [|exact l_prime]. destruct D as [D|D].
  - apply Z.divide_pos_le in D; [apply D; reflexivity|reflexivity].
  - apply small_divisor in D; [lia|exact l_positive|lia].
Qed.
Lemma small_order_ok P Q : rep P Q -> small_order Q = true <-> amul 8 P = azero.
Proof.
  intros R. unfold small_order. rewrite bytes_eqb_spec, (rep_compress _ _ (rep_mul 8 _ _ R)), (rep_compress _ _ rep_zero). split; [apply acompress_inj|intros ->; reflexivity].
Qed.
Lemma nonce_small seed msg : ed_nonce seed msg < base_order_25519. Proof. apply N.mod_lt. discriminate. Qed.
Lemma nonce_divides seed msg : (l25519 | Z.of_N (ed_nonce seed msg))%Z <-> ed_nonce seed msg = 0.
Proof.
  pose proof (nonce_small seed msg) as B. apply N2Z.inj_lt in B. rewrite order_l in B. split.
  - intros D. apply small_divisor in D; [lia|exact l_positive|lia].
  - intros ->. exists 0%Z. reflexivity.
Qed.
Lemma strict_points key msg sig A R : adecompress key = Some A -> adecompress (firstn 32 sig) = Some R -> length sig = 64%nat ->
  ed_strict key msg sig = true <->
  amul 8 A <> azero /\ amul 8 R <> azero /\ le_num (skipn 32 sig) < base_order_25519 /\
  R = aplus (amul (Z.of_N (le_num (skipn 32 sig))) abase) (aneg (amul (Z.of_N (scalar_hash (firstn 32 sig ++ key ++ msg))) A)).
Proof.
  intros D DR L. unfold ed_strict. pose proof (rep_decompress key) as RA. rewrite D in RA. destruct (edwards_decompress key) as [A'|]; [|contradiction].
  pose proof (rep_decompress (firstn 32 sig)) as RR. rewrite DR in RR. destruct (edwards_decompress (firstn 32 sig)) as [R'|]; [|contradiction]. cbv zeta.
  rewrite !andb_true_iff, !negb_true_iff, Nat.eqb_eq, N.ltb_lt, bytes_eqb_spec, <- !not_true_iff_false.
  rewrite (small_order_ok _ _ RA), (small_order_ok _ _ RR), (rep_compress _ _ RR).
  rewrite (rep_compress _ _ (rep_add _ _ _ _ (rep_mul _ _ _ rep_base) (rep_neg _ _ (rep_mul (Z.of_N (scalar_hash (firstn 32 sig ++ key ++ msg))) _ _ RA)))).
  split; intros H; repeat split; try tauto; [apply acompress_inj; tauto|]. f_equal. tauto.
Qed.
Lemma strict_honest seed msg : ed_strict (ed_public seed) msg (ed_sign seed msg) = true <-> ed_nonce seed msg <> 0.
Proof.
  rewrite (strict_points _ _ _ (amul (secret seed) abase) (amul (Z.of_N (ed_nonce seed msg)) abase));
    [|rewrite public_point; apply decompress_compress_ok|rewrite sign_first; apply decompress_compress_ok|apply sign_length].
  rewrite !eight_base, nonce_divides. rewrite sign_first, sign_second. rewrite (answer_eq seed msg _ eq_refl).
  pose proof (secret_indivisible seed). pose proof (answer_small seed msg). tauto.
Qed.
(** strict acceptance is acceptance, with more demanded *)
Lemma strict_check key msg sig : ed_strict key msg sig = true -> (forall R, adecompress (firstn 32 sig) = Some R -> acompress R = firstn 32 sig) -> ed_check key msg sig = true.
Proof.
  intros S C. assert (X : length sig = 64%nat /\ (exists A, adecompress key = Some A) /\ exists R, adecompress (firstn 32 sig) = Some R).
  { unfold ed_strict in S. pose proof (rep_decompress key) as RA. pose proof (rep_decompress (firstn 32 sig)) as RR.
    destruct (edwards_decompress key) as [A'|]; [|discriminate]. destruct (edwards_decompress (firstn 32 sig)) as [R'|]; [|discriminate].
    destruct (adecompress key) as [A|]; [|contradiction]. destruct (adecompress (firstn 32 sig)) as [R|]; [|contradiction].
    cbv zeta in S. rewrite !andb_true_iff, Nat.eqb_eq in S. split; [tauto|]. split; eexists; reflexivity. }
  destruct X as (L & (A & D) & (R & DR)). apply (strict_points _ _ _ A R D DR L) in S. apply (check_points _ _ _ A D L).
  split; [tauto|]. rewrite <- (C R DR). f_equal. rewrite (C R DR). tauto.
Qed.

(** ** Which strings are not the compressed form of the point they stand for *)
Definition y_part (s : bytes) : N := le_num s mod 2 ^ 255.
Lemma decompressed_point s P : adecompress s = Some P -> ay P = f (Z.of_N (y_part s)) /\
  (parity (ax P) = (2 ^ 255 <=? le_num s) \/ ax P = f0).
Proof.
  intros D. pose proof (rep_decompress s) as R. rewrite D in R. destruct (edwards_decompress s) as [Q|] eqn:E; [|contradiction].
  destruct (decompress_sound _ _ E) as (P' & D' & _ & Y & X). assert (P' = P) by congruence. subst P'.
  assert (L : negb (Z.of_N (le_num s) <=? low_bits)%Z = (2 ^ 255 <=? le_num s)).
  { change low_bits with (2 ^ 255 - 1)%Z. destruct (Z.leb_spec (Z.of_N (le_num s)) (2 ^ 255 - 1)), (N.leb_spec (2 ^ 255) (le_num s)); try reflexivity; lia. }
  rewrite L in X. split; [|exact X]. rewrite Y. unfold y_of. rewrite land_low. unfold y_part. rewrite N2Z.inj_mod by discriminate.
  change (Z.of_N (2 ^ 255)) with (2 ^ 255)%Z. apply reduce_ok. pose proof (Z.mod_pos_bound (Z.of_N (le_num s)) (2 ^ 255)).
  change (2 ^ 510)%Z with (2 ^ 255 * 2 ^ 255)%Z. lia.
Qed.
Lemma canonical_form s P : length s = 32%nat -> adecompress s = Some P ->
  (acompress P = s <-> (Z.of_N (y_part s) < p25519)%Z /\ (ax P = f0 -> le_num s < 2 ^ 255)).
Proof.
  intros L D. destruct (decompressed_point s P D) as [Y X]. pose proof (f_range (ay P)) as RY. pose proof p_value as PV.
  assert (Q : acompress P = s <-> Z.of_N (le_num s) = if parity (ax P) then (val p25519 (ay P) + 2 ^ 255)%Z else val p25519 (ay P)).
  { unfold acompress. set (n := if parity (ax P) then (val p25519 (ay P) + 2 ^ 255)%Z else val p25519 (ay P)).
    assert (NB : (0 <= n < 2 ^ 256)%Z). { change (2 ^ 256)%Z with (2 ^ 255 + 2 ^ 255)%Z. unfold n. destruct (parity (ax P)); lia. }
    assert (B : Z.to_N n < 256 ^ N.of_nat 32) by (change (256 ^ N.of_nat 32) with (Z.to_N (2 ^ 256)); apply Z2N.inj_lt; lia).
    split.
    - intros E. rewrite <- E, le_num_bytes by exact B. apply Z2N.id. lia.
    - intros E. rewrite <- E, N2Z.id. rewrite <- L. apply le_bytes_num. }
  rewrite Q. clear Q. pose proof (le_num_lt s) as LT. rewrite L in LT. change (256 ^ N.of_nat 32) with (2 ^ 255 + 2 ^ 255) in LT.
  assert (YP : y_part s = if 2 ^ 255 <=? le_num s then le_num s - 2 ^ 255 else le_num s).
  { unfold y_part. destruct (N.leb_spec (2 ^ 255) (le_num s)).
    - replace (le_num s) with (le_num s - 2 ^ 255 + 1 * 2 ^ 255) at 1 by lia. rewrite N.mod_add by discriminate. apply N.mod_small. lia.
    - apply N.mod_small. assumption. }
  split.
  - intros E. assert (V : (Z.of_N (y_part s) < p25519)%Z).
    { rewrite YP. destruct (parity (ax P)); destruct (N.leb_spec (2 ^ 255) (le_num s)); lia. }
    split; [exact V|]. intros Z0. rewrite Z0, parity_zero in E. lia.
  - intros [V Z0]. rewrite Y, val_f by (split; [lia|exact V]). rewrite YP.
    destruct X as [-> | X].
    + destruct (N.leb_spec (2 ^ 255) (le_num s)); lia.
    + rewrite X, parity_zero. specialize (Z0 X). destruct (N.leb_spec (2 ^ 255) (le_num s)); lia.
Qed.
