(** Proofs about the VRF. *)
From Coq Require Import Znumtheory.
From Verif Require Import Base BaseFacts Digits VrfModel VrfSpec.
Local Open Scope N_scope.

Section Curve.
  Context (C : curve) (OK : curve_ok C).
  Local Notation q := (Z.of_N (order C)).
  Implicit Types P Q R : pt C.

  Lemma zero_add P : padd pzero P = P.
  Proof. rewrite (add_comm C OK). apply (add_zero C OK). Qed.
  Lemma cancel P Q R : padd P Q = padd P R -> Q = R.
  Proof.
    intros E. apply (f_equal (padd (pneg P))) in E. rewrite !(add_assoc C OK), !(add_comm C OK (pneg P)), (add_neg C OK), !zero_add in E.
    exact E.
  Qed.
  Lemma mul_zero P : pmul 0 P = pzero.
  Proof.
    apply (cancel (pmul 0 P)). rewrite <- (mul_add C OK), (add_zero C OK). reflexivity.
  Qed.
  Lemma mul_neg a P : pmul (- a) P = pneg (pmul a P).
  Proof.
    apply (cancel (pmul a P)). rewrite <- (mul_add C OK), (add_neg C OK), Z.add_opp_diag_r. apply mul_zero.
  Qed.
  Lemma psub_mul a b P : psub (pmul a P) (pmul b P) = pmul (a - b) P.
  Proof. unfold psub. rewrite <- mul_neg, <- (mul_add C OK). reflexivity. Qed.
  Lemma mul_pzero a : pmul a (@pzero C) = pzero.
  Proof.
    rewrite <- (mul_zero pzero) at 1. rewrite <- (mul_mul C OK), Z.mul_0_r. apply mul_zero.
  Qed.
  Lemma sub_eq_move P Q R S : psub P Q = psub R S -> psub P R = psub Q S.
  Proof.
    unfold psub. intros E. apply (f_equal (padd Q)) in E.
    assert (E1 : padd Q (padd P (pneg Q)) = P).
    { rewrite (add_comm C OK P), (add_assoc C OK), (add_neg C OK). apply zero_add. }
    rewrite E1 in E. rewrite E, (add_comm C OK R), (add_assoc C OK), <- (add_assoc C OK), (add_neg C OK), (add_zero C OK). reflexivity.
  Qed.

  Lemma congruent a b P : pmul q P = pzero -> (q | a - b)%Z -> pmul a P = pmul b P.
  Proof.
    intros Hq [t Ht]. replace a with (b + t * q)%Z by lia.
    rewrite (mul_add C OK), (mul_mul C OK), Hq, mul_pzero. apply (add_zero C OK).
  Qed.
  Lemma base_killed : pmul q (base C) = pzero.
  Proof. apply (base_order C OK). exists 1%Z. lia. Qed.
  Lemma order_pos : 0 < order C.
  Proof. pose proof (prime_ge_2 _ (order_prime C OK)). lia. Qed.

  Lemma le_num_zeros s k : le_num (s ++ repeat x00 k) = le_num s.
  Proof.
    unfold le_num. rewrite map_app, le_val_app.
    assert (le_val 256 (map Byte.to_N (repeat x00 k)) = 0) as ->; [|lia].
    induction k as [|k IH]; cbn [repeat map le_val]; [reflexivity|]. rewrite IH. reflexivity.
  Qed.

  Lemma le_bytes_app a b : forall v, v < 256 ^ N.of_nat a -> le_bytes (a + b) v = le_bytes a v ++ repeat x00 b.
  Proof.
    induction a as [|a IH]; intros v Hv; cbn [plus le_bytes app].
    - cbn in Hv. assert (v = 0) as -> by lia. clear. induction b as [|b IH]; cbn [le_bytes repeat]; [reflexivity|].
      f_equal. rewrite N.div_0_l by lia. exact IH.
    - f_equal. apply IH. rewrite Nat2N.inj_succ, N.pow_succ_r' in Hv. apply N.div_lt_upper_bound; lia.
  Qed.

  Lemma challenge_bytes c : c < 2 ^ 128 -> firstn 16 (le_bytes 32 c) = le_bytes 16 c.
  Proof.
    intros Hc. change 32%nat with (16 + 16)%nat. rewrite le_bytes_app by (cbn; exact Hc).
    rewrite firstn_app, le_bytes_length, Nat.sub_diag, firstn_O, app_nil_r.
    apply firstn_all2. rewrite le_bytes_length. lia.
  Qed.

  Lemma hash_points_small ps : hash_points C ps < 2 ^ 128 /\ hash_points C ps < order C.
  Proof.
    unfold hash_points. rewrite le_num_zeros. set (b := firstn 16 _).
    assert (Hb : le_num b < 2 ^ 128).
    { eapply N.lt_le_trans; [apply le_num_lt|]. assert (length b <= 16)%nat by (unfold b; rewrite firstn_length; lia).
      change (2 ^ 128) with (256 ^ 16). apply N.pow_le_mono_r; lia. }
    pose proof order_pos. split; [|apply N.mod_lt; lia].
    eapply N.le_lt_trans; [apply N.mod_le; lia|exact Hb].
  Qed.

  Lemma decode_encode gamma c s : c < 2 ^ 128 -> c < order C -> s < order C ->
    decode C (encode_proof C gamma c s) = Some (gamma, c, s).
  Proof.
    intros Hc Hc' Hs. unfold encode_proof, decode. rewrite challenge_bytes by exact Hc.
    set (g := compress C gamma). assert (Hg : length g = 32%nat) by apply (compress_length C OK).
    assert (E1 : firstn 32 (g ++ le_bytes 16 c ++ le_bytes 32 s) = g).
    { rewrite <- Hg, firstn_app, Nat.sub_diag, firstn_O, app_nil_r, firstn_all. reflexivity. }
    assert (E2 : skipn 32 (g ++ le_bytes 16 c ++ le_bytes 32 s) = le_bytes 16 c ++ le_bytes 32 s).
    { rewrite <- Hg at 1. rewrite skipn_app, Nat.sub_diag, skipn_all. reflexivity. }
    assert (E3 : skipn 48 (g ++ le_bytes 16 c ++ le_bytes 32 s) = le_bytes 32 s).
    { rewrite app_assoc, skipn_app, app_length, Hg, le_bytes_length.
      rewrite skipn_all2 by (rewrite app_length, Hg, le_bytes_length; lia). reflexivity. }
    assert (E4 : firstn 16 (le_bytes 16 c ++ le_bytes 32 s) = le_bytes 16 c).
    { rewrite firstn_app, le_bytes_length, Nat.sub_diag, firstn_O, app_nil_r. apply firstn_all2. rewrite le_bytes_length. lia. }
    rewrite E1, E2, E3, E4. unfold g. rewrite (decompress_compress C OK). unfold canonical.
    rewrite le_num_zeros, le_num_bytes by (cbn; exact Hc).
    destruct (N.ltb_spec c (order C)); [|lia].
    rewrite le_num_bytes by (pose proof (order_small C OK); cbn in *; lia).
    destruct (N.ltb_spec s (order C)); [|lia]. reflexivity.
  Qed.

  Lemma prove_length kp data : length (prove_bytes C kp data) = 80%nat.
  Proof.
    unfold prove_bytes. rewrite !app_length, (compress_length C OK), firstn_length, !le_bytes_length. reflexivity.
  Qed.

  Lemma completeness_lemma seed data :
    exists out, to_output C (prove_bytes C (from_seed C seed) data) = Some out /\
      verify_bytes C (public_key (from_seed C seed)) (prove_bytes C (from_seed C seed) data) data = Ok out.
  Proof.
    set (kp := from_seed C seed). unfold prove_bytes.
    set (Hp := hash_to_curve C (public_key kp) data).
    set (x := expand C (private kp)). set (k := gen_nonce C (private kp) (compress C Hp)).
    set (c := hash_points C [Hp; smul x Hp; smul k (base C); smul k Hp]).
    set (s := (k + (c * x) mod order C) mod order C).
    assert (Hc := hash_points_small [Hp; smul x Hp; smul k (base C); smul k Hp]). fold c in Hc. destruct Hc as [Hc1 Hc2].
    pose proof order_pos as Hpos.
    assert (Hs : s < order C) by (apply N.mod_lt; lia).
    fold (encode_proof C (smul x Hp) c s).
    assert (Hd := decode_encode (smul x Hp) c s Hc1 Hc2 Hs).
    unfold to_output at 1, verify_bytes. rewrite Hd. eexists. split; [reflexivity|].
    assert (Hpk : decompress C (public_key kp) = Some (smul x (base C))).
    { apply (decompress_compress C OK). }
    rewrite Hpk. fold Hp.
    assert (Hdiv : (q | Z.of_N s - Z.of_N c * Z.of_N x - Z.of_N k)%Z).
    { unfold s. clear - Hpos.
      pose proof (N.div_mod (c * x) (order C) ltac:(lia)) as D1.
      pose proof (N.div_mod (k + (c * x) mod order C) (order C) ltac:(lia)) as D2.
      exists (- Z.of_N ((c * x) / order C) - Z.of_N ((k + (c * x) mod order C) / order C))%Z.
      set (a := (c * x) mod order C) in *. set (b := (k + a) mod order C) in *.
      set (a' := (c * x) / order C) in *. set (b' := (k + a) / order C) in *. nia. }
    assert (Hu : forall P, pmul q P = pzero -> psub (smul s P) (smul c (smul x P)) = smul k P).
    { intros P HP. unfold smul. rewrite <- (mul_mul C OK), psub_mul. apply congruent; [exact HP|exact Hdiv]. }
    rewrite (Hu (base C) base_killed). rewrite (Hu Hp (elligator_order C OK _)).
    fold c. rewrite N.eqb_refl. unfold to_output. rewrite Hd. reflexivity.
  Qed.

  (** Two answers to one commitment determine gamma up to cofactor. *)
  Lemma extract y Hp gamma c s c' s' :
    c < order C -> c' < order C -> c' <> c ->
    commitment C y Hp gamma c' s' = commitment C y Hp gamma c s ->
    exists w, pmul (8 * w) (base C) = pmul 8 y /\ pmul (8 * w) Hp = pmul 8 gamma.
  Proof.
    intros Hc Hc' Hne E. unfold commitment in E. injection E as E1 E2.
    apply sub_eq_move in E1, E2. unfold smul in E1, E2. rewrite !psub_mul in E1, E2.
    set (d := (Z.of_N c' - Z.of_N c)%Z) in *. set (t := (Z.of_N s' - Z.of_N s)%Z) in *.
    assert (Hrp : rel_prime d q).
    { apply rel_prime_sym, prime_rel_prime; [apply (order_prime C OK)|].
      intros [z Hz]. assert (z = 0)%Z by nia. nia. }
    destruct (rel_prime_bezout _ _ Hrp) as [u v Huv].
    exists (u * t)%Z.
    assert (Hgen : forall P, pmul (8 * u) (pmul d P) = pmul 8 P).
    { intros P. rewrite <- (mul_mul C OK). replace (8 * u * d)%Z with (8 + (- v) * (8 * q))%Z by nia.
      rewrite (mul_add C OK), (mul_mul C OK (- v)), (exponent C OK), mul_pzero. apply (add_zero C OK). }
    rewrite !Z.mul_assoc, !(mul_mul C OK (8 * u)), E1, E2, !Hgen. auto.
  Qed.

  Lemma bounded_dec (A : N -> Prop) (Ad : forall i, A i \/ ~ A i) n :
    (exists i, i < n /\ A i) \/ (forall i, i < n -> ~ A i).
  Proof.
    induction n as [|n IH] using N.peano_ind; [right; lia|].
    destruct IH as [(i & Hi & Ha)|IH]; [left; exists i; split; [lia|exact Ha]|].
    destruct (Ad n) as [Ha|Ha]; [left; exists n; split; [lia|exact Ha]|].
    right. intros i Hi. destruct (N.eq_dec i n) as [->|Hne]; [exact Ha|]. apply IH. lia.
  Qed.

  Lemma pt_dec P Q : P = Q \/ P <> Q.
  Proof.
    destruct (bytes_eq_dec (compress C P) (compress C Q)) as [E|E].
    - left. apply (f_equal (decompress C)) in E. rewrite !(decompress_compress C OK) in E. congruence.
    - right. congruence.
  Qed.

  Lemma lucky_dec y Hp gamma c s :
    (exists c' s', c' < order C /\ c' <> c /\ commitment C y Hp gamma c' s' = commitment C y Hp gamma c s) \/
    (forall c' s', c' < order C -> s' < order C -> commitment C y Hp gamma c' s' = commitment C y Hp gamma c s -> c' = c).
  Proof.
    set (A c' := c' <> c /\ exists s', s' < order C /\ commitment C y Hp gamma c' s' = commitment C y Hp gamma c s).
    assert (Ad : forall c', A c' \/ ~ A c').
    { intros c'. unfold A. destruct (N.eq_dec c' c) as [->|Hne]; [right; tauto|].
      destruct (bounded_dec (fun s' => commitment C y Hp gamma c' s' = commitment C y Hp gamma c s)) with (n := order C) as [H|H].
      - intros s'. unfold commitment.
        destruct (pt_dec (psub (smul s' (base C)) (smul c' y)) (psub (smul s (base C)) (smul c y))) as [E1|E1];
        destruct (pt_dec (psub (smul s' Hp) (smul c' gamma)) (psub (smul s Hp) (smul c gamma))) as [E2|E2];
          [left; congruence|right; congruence|right; congruence|right; congruence].
      - left. auto.
      - right. intros (_ & s' & Hs & E). exact (H s' Hs E). }
    destruct (bounded_dec A Ad (order C)) as [(c' & Hc & Hne & s' & _ & E)|H].
    - left. exists c', s'. auto.
    - right. intros c' s' Hc Hs E. destruct (N.eq_dec c' c) as [->|Hne]; [reflexivity|].
      exfalso. apply (H c' Hc). split; [exact Hne|]. eauto.
  Qed.

  Lemma decode_bounds proof gamma c s : decode C proof = Some (gamma, c, s) -> c < order C /\ s < order C.
  Proof.
    unfold decode, canonical. destruct (decompress C _); [|discriminate].
    destruct (N.ltb_spec (le_num (firstn 16 (skipn 32 proof) ++ repeat x00 16)) (order C)); [|discriminate].
    destruct (N.ltb_spec (le_num (skipn 48 proof)) (order C)); [|discriminate].
    intros E. injection E as _ <- <-. auto.
  Qed.

  Lemma verify_inv pk proof data out : verify_bytes C pk proof data = Ok out ->
    exists y gamma c s, decompress C pk = Some y /\ decode C proof = Some (gamma, c, s) /\
      out = sha512 C (SUITE_STRING ++ [x03] ++ compress C (smul COFACTOR gamma)).
  Proof.
    unfold verify_bytes, to_output. destruct (decode C proof) as [[[gamma c] s]|]; [|discriminate].
    destruct (decompress C pk) as [y|]; [|discriminate]. destruct (_ =? _); [|discriminate].
    intros E. injection E as <-. exists y, gamma, c, s. auto.
  Qed.

  Lemma uniqueness_lemma pk data p1 p2 o1 o2 :
    verify_bytes C pk p1 data = Ok o1 -> verify_bytes C pk p2 data = Ok o2 ->
    o1 = o2 \/ lucky C pk data p1 \/ lucky C pk data p2.
  Proof.
    intros V1 V2. apply verify_inv in V1 as (y & g1 & c1 & s1 & Hy & D1 & ->), V2 as (y' & g2 & c2 & s2 & Hy' & D2 & ->).
    assert (y' = y) as -> by congruence.
    set (Hp := hash_to_curve C pk data).
    destruct (decode_bounds _ _ _ _ D1) as [B1 _]. destruct (decode_bounds _ _ _ _ D2) as [B2 _].
    destruct (lucky_dec y Hp g1 c1 s1) as [(c1' & s1' & H1 & N1 & E1)|L1].
    2:{ right. left. exists y, g1, c1, s1. auto. }
    destruct (lucky_dec y Hp g2 c2 s2) as [(c2' & s2' & H2 & N2 & E2)|L2].
    2:{ right. right. exists y, g2, c2, s2. auto. }
    left. destruct (extract _ _ _ _ _ _ _ B1 H1 N1 E1) as (w1 & W1 & G1).
    destruct (extract _ _ _ _ _ _ _ B2 H2 N2 E2) as (w2 & W2 & G2).
    unfold smul, COFACTOR. change (Z.of_N 8) with 8%Z. rewrite <- G1, <- G2. do 4 f_equal.
    apply congruent; [apply (elligator_order C OK)|].
    apply (base_order C OK). rewrite <- psub_mul, W1, W2. unfold psub. apply (add_neg C OK).
  Qed.

  (** Components determine the scalar bytes, and the point bytes if decompression is
      canonical. *)
  Lemma canonical_scalars_lemma proof gamma c s : length proof = 80%nat ->
    decode C proof = Some (gamma, c, s) ->
    skipn 32 proof = firstn 16 (le_bytes 32 c) ++ le_bytes 32 s.
  Proof.
    intros Hl. unfold decode, canonical. destruct (decompress C _) as [g|]; [|discriminate].
    rewrite le_num_zeros. destruct (_ <? _); [|discriminate]. destruct (_ <? _); [|discriminate].
    intros E. assert (Ec : c = le_num (firstn 16 (skipn 32 proof))) by congruence.
    assert (Es : s = le_num (skipn 48 proof)) by congruence. clear E. rewrite Ec, Es.
    assert (L1 : length (firstn 16 (skipn 32 proof)) = 16%nat) by (rewrite firstn_length, skipn_length; lia).
    assert (L2 : length (skipn 48 proof) = 32%nat) by (rewrite skipn_length; lia).
    rewrite challenge_bytes.
    2:{ pose proof (le_num_lt (firstn 16 (skipn 32 proof))) as X. rewrite L1 in X. exact X. }
    pose proof (le_bytes_num (firstn 16 (skipn 32 proof))) as X1. rewrite L1 in X1. rewrite X1.
    pose proof (le_bytes_num (skipn 48 proof)) as X2. rewrite L2 in X2. rewrite X2.
    rewrite <- (firstn_skipn 16 (skipn 32 proof)) at 1. f_equal.
    clear. revert proof. intros l.
    assert (G : forall a b (l : bytes), skipn a (skipn b l) = skipn (b + a) l).
    { intros a b. induction b as [|b IH]; intros [|x l']; cbn [skipn plus]; try reflexivity.
      - destruct a; reflexivity.
      - apply IH. }
    apply G.
  Qed.

  Lemma canonical_lemma proof gamma c s :
    (forall b P, length b = 32%nat -> decompress C b = Some P -> compress C P = b) ->
    length proof = 80%nat -> decode C proof = Some (gamma, c, s) -> encode_proof C gamma c s = proof.
  Proof.
    intros Hcan Hl D. unfold encode_proof. rewrite <- (canonical_scalars_lemma _ _ _ _ Hl D).
    assert (E : compress C gamma = firstn 32 proof).
    { apply Hcan; [rewrite firstn_length; lia|]. unfold decode in D.
      destruct (decompress C (firstn 32 proof)) as [g|]; [|discriminate].
      destruct (canonical _ _); [|discriminate]. destruct (canonical _ _); [|discriminate].
      injection D as <- _ _. reflexivity. }
    rewrite E. apply firstn_skipn.
  Qed.
End Curve.
