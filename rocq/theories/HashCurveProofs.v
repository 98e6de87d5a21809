(** Hashing to the curve, in terms of coordinates. *)
From Coq Require Import Znumtheory Field.
From Verif Require Import Base Digits FieldProofs VrfModel VrfSpec CurveModel Curve25519Spec Field25519Proofs Points25519Proofs Order25519Proofs Real25519Proofs Scheme25519Proofs
  Curve25519Proofs Elligator25519Proofs.
Local Open Scope Z_scope.

Lemma f_1 : f 1 = f1. Proof. reflexivity. Qed.
Lemma f_4 : f 4 = ((1 + 1) * (1 + 1))%F. Proof. rewrite <- f_2, <- fm. reflexivity. Qed.
Opaque f f0 f1 fplus ftimes fminus fopp fdiv finverse fpower sqrt_ratio edwards_add edwards_mul.
Lemma decompressed_z s P : edwards_decompress s = Some P -> pz P = 1.
Proof. unfold edwards_decompress. cbv zeta. destruct (sqrt_ratio _ _) as [[|] x]; [|intros E; discriminate E]. intros E. injection E as <-. reflexivity. Qed.
Lemma montgomery_on r : 0 <= r < q -> let u := elligator_encode r in
  0 <= u < q /\ exists v, (v * v) mod q = (u * u * u + 486662 * (u * u) + u) mod q.
Proof.
  intros C. cbv zeta. rewrite q_p in C. destruct (encode_on r C) as [CU [v V]]. split; [rewrite q_p; exact CU|].
  exists (val p25519 v). apply f_mod. rewrite !fa, !fm, f_val, V. unfold curve_value. change montgomery_a with 486662. ring.
Qed.
Lemma edwards_at r sign P : 0 <= r < q -> to_edwards (elligator_encode r) sign = Some P -> let u := elligator_encode r in
  valid P /\ pz P = 1 /\ (py P * (u + 1)) mod q = (u - 1) mod q /\ (px P = 0 \/ Z.odd (px P) = sign).
Proof.
  intros C E. cbv zeta. rewrite q_p in C. destruct (encode_on r C) as [CU [v V]]. generalize dependent (elligator_encode r). intros u E CU V.
  pose proof (not_minus_one _ _ V) as N. unfold to_edwards in E. destruct (u =? p25519 - 1); [discriminate E|]. cbv zeta in E.
  set (y := fmul (fsub u 1) (finv (fadd u 1))) in *. assert (CY : canon y) by (unfold y; auto 20 with canon).
  assert (FY : f y = ((f u - 1) / (f u + 1))%F).
  { unfold y. rewrite f_mul, f_sub, f_one by auto 20 with canon. destruct (finv_ok (fadd u 1)) as [_ ->]; [auto with canon|].
    rewrite f_add, f_one by auto with canon. field. exact N. }
  clearbody y. pose proof (decompressed_z _ _ E) as Z1. destruct (decompress_sound _ _ E) as (A & _ & R & AY & AX). rewrite le_sign in AY by exact CY.
  split; [apply valid_rep; exists A; exact R|]. split; [exact Z1|]. destruct R as [CX CPY CZ CT NZ X Y T]. rewrite Z1, f_one in X, Y. split.
  - apply f_mod. rewrite fm, fa, fs, f_1, Y, AY, FY. field. exact N.
  - assert (XE : f (px P) = ax A). { rewrite X. generalize (ax A). intros. ring. }
    destruct AX as [AX|AX]; [right|left; apply f_inj; [exact CX|exact canon_zero|]; rewrite XE, AX; symmetry; apply f_zero].
    rewrite <- (val_f _ CX), XE. unfold parity in AX. change (Z.odd (val p25519 (ax A))) with (odd (val p25519 (ax A))). rewrite AX.
    assert (B := CY). unfold canon in B. rewrite p_value in B.
    rewrite le_num_bytes.
    + rewrite Z2N.id by (destruct sign; lia). change low_bits with (2 ^ 255 - 1). destruct sign;
      [destruct (Z.leb_spec (y + 2 ^ 255) (2 ^ 255 - 1))|destruct (Z.leb_spec y (2 ^ 255 - 1))]; try reflexivity; lia.
    + change (256 ^ N.of_nat 32)%N with (Z.to_N (2 ^ 256)). change (2 ^ 256) with (2 ^ 255 + 2 ^ 255). apply Z2N.inj_lt; destruct sign; lia.
Qed.
Lemma hashed_point s : let n := Z.of_N (le_num (firstn 32 s)) in let r := n mod 2 ^ 255 mod q in let u := elligator_encode r in
  exists P, valid P /\ pz P = 1 /\ (py P * (u + 1)) mod q = (u - 1) mod q /\ (px P = 0 \/ Z.odd (px P) = (2 ^ 255 <=? n)) /\
  elligator_25519 s = edwards_mul 8 P.
Proof.
  cbv zeta. set (n := Z.of_N (le_num (firstn 32 s))).
  assert (RR : reduce (Z.land n low_bits) = n mod 2 ^ 255 mod q).
  { rewrite land_low. pose proof (Z.mod_pos_bound n (2 ^ 255)) as B. destruct (reduce_ok (n mod 2 ^ 255)) as [C E].
    - change (2 ^ 510) with (2 ^ 255 * 2 ^ 255). lia.
    - apply f_mod in E. unfold canon in C. rewrite <- E. symmetry. apply Z.mod_small. rewrite q_p. exact C. }
  assert (RC : 0 <= n mod 2 ^ 255 mod q < q) by (apply Z.mod_pos_bound; reflexivity).
  unfold elligator_25519. fold n. cbv zeta. rewrite RR. generalize dependent (n mod 2 ^ 255 mod q). intros r _ RC.
  destruct (to_edwards (elligator_encode r) (low_bits <? n)) as [P|] eqn:E.
  - destruct (edwards_at _ _ _ RC E) as (V & Z1 & Y & X). exists P. repeat (split; [assumption|]). split; [|reflexivity].
    replace (2 ^ 255 <=? n) with (low_bits <? n); [exact X|]. change low_bits with (2 ^ 255 - 1). destruct (Z.ltb_spec (2 ^ 255 - 1) n), (Z.leb_spec (2 ^ 255) n); try reflexivity; lia.
  - exfalso. revert E. apply encode_defined. exact RC.
Qed.
Lemma hashed_order s : valid (elligator_25519 s) /\ same (edwards_mul (Z.of_N base_order_25519) (elligator_25519 s)) identity.
Proof.
  pose proof (rep_elligator s) as R. split; [apply valid_rep; exists (aelligator s); exact R|].
  apply (same_rep _ _ _ _ (rep_mul _ _ _ R) rep_zero). rewrite order_l. apply aelligator_order.
Qed.
Lemma fibres r r' : 0 <= r < q -> 0 <= r' < q ->
  (elligator_encode r = elligator_encode r' <-> (r * r) mod q = (r' * r') mod q \/ (4 * (r * r) * (r' * r')) mod q = 1 mod q).
Proof.
  rewrite q_p at 1 2. intros C C'. rewrite (encode_fibres r r' C C'), !f_mod, !fm, f_1, f_4.
  replace ((1 + 1) * (f r * f r) * ((1 + 1) * (f r' * f r')))%F with ((1 + 1) * (1 + 1) * (f r * f r) * (f r' * f r'))%F by ring. reflexivity.
Qed.
Lemma always_some r sign : 0 <= r < q -> exists P, to_edwards (elligator_encode r) sign = Some P.
Proof.
  intros C. destruct (to_edwards (elligator_encode r) sign) as [P|] eqn:E; [exists P; reflexivity|]. exfalso. revert E. apply encode_defined. exact C.
Qed.
