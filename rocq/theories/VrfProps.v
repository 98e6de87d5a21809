(** Properties C27 to C29: the verifiable random function. *)
From Verif Require Import Base BaseFacts Digits Toy VrfModel VrfSpec VrfProofs ToyCurve Ed25519.
Local Open Scope N_scope.

(** C27.  Honest proofs are accepted and give the output computed from the proof. *)
Theorem c27_honest_proof_accepted :
  forall C, curve_ok C -> forall seed data,
  exists out, to_output C (prove_bytes C (from_seed C seed) data) = Some out /\
    verify_bytes C (public_key (from_seed C seed)) (prove_bytes C (from_seed C seed) data) data = Ok out.
Proof. exact completeness_lemma. Qed.
Print Assumptions c27_honest_proof_accepted.

Theorem c27_proof_length :
  forall C, curve_ok C -> forall kp data, length (prove_bytes C kp data) = 80%nat.
Proof. exact prove_length. Qed.
Print Assumptions c27_proof_length.

(** C28.  Accepted proofs for one key and message agree on the output, or one of them is
    a lucky hit: its challenge hash came out as the only value its commitment allowed. *)
Theorem c28_output_unique :
  forall C, curve_ok C -> forall pk data p1 p2 o1 o2,
  verify_bytes C pk p1 data = Ok o1 -> verify_bytes C pk p2 data = Ok o2 ->
  o1 = o2 \/ lucky C pk data p1 \/ lucky C pk data p2.
Proof. exact uniqueness_lemma. Qed.
Print Assumptions c28_output_unique.

(** C29, full statement: an 80-byte string that decodes is the byte form of its
    components.  Proved for the two scalars; for the point it needs that decompression
    accepts only compressed points, which the curve library does not guarantee. *)
Theorem c29_scalars_canonical_partial :
  forall C proof gamma c s, length proof = 80%nat -> decode C proof = Some (gamma, c, s) ->
  skipn 32 proof = firstn 16 (le_bytes 32 c) ++ le_bytes 32 s.
Proof. exact canonical_scalars_lemma. Qed.
Print Assumptions c29_scalars_canonical_partial.

Theorem c29_canonical_partial :
  forall C proof gamma c s,
  (forall b P, length b = 32%nat -> decompress C b = Some P -> compress C P = b) ->
  length proof = 80%nat -> decode C proof = Some (gamma, c, s) -> encode_proof C gamma c s = proof.
Proof. exact canonical_lemma. Qed.
Print Assumptions c29_canonical_partial.

(** The other half: components decode from their byte form. *)
Theorem c29_decode_encode :
  forall C, curve_ok C -> forall gamma c s, c < 2 ^ 128 -> c < order C -> s < order C ->
  decode C (encode_proof C gamma c s) = Some (gamma, c, s).
Proof. exact decode_encode. Qed.
Print Assumptions c29_decode_encode.

(** With the library's decompression a second byte form exists: the y coordinate 1 may be
    written as 1 or as p + 1. *)
Definition pi_reduced : bytes := (x01 :: repeat x00 31) ++ repeat x00 48.
Definition pi_unreduced : bytes := (xee :: repeat xff 30 ++ [x7f]) ++ repeat x00 48.
Theorem c29_canonical_refuted :
  exists proof proof', length proof = 80%nat /\ length proof' = 80%nat /\ proof <> proof' /\
  decode ed25519 proof = decode ed25519 proof' /\ decode ed25519 proof <> None.
Proof.
  exists pi_reduced, pi_unreduced. split; [reflexivity|]. split; [reflexivity|].
  split; [discriminate|]. split; vm_compute; [reflexivity|discriminate].
Qed.
Print Assumptions c29_canonical_refuted.

(** ** Concrete cases *)

Definition ex_key : keypair := from_seed toy_curve (str "b seed").
Definition ex_proof : bytes := prove_bytes toy_curve ex_key (str "round 17").
Definition same_out (a b : outcome vrf_error bytes) : bool :=
  match a, b with Ok x, Ok y => bytes_eqb x y | _, _ => false end.
Example c27_case :
  curve_ok toy_curve /\
  verify_bytes toy_curve (public_key ex_key) ex_proof (str "round 17") <> Err InvalidProof /\
  (exists data, verify_bytes toy_curve (public_key ex_key) ex_proof data = Err InvalidProof).
Proof.
  split; [exact toy_curve_ok|]. split; [vm_compute; discriminate|].
  exists (str "round 1"). vm_compute. reflexivity.
Qed.

(** A second accepted proof, made with another nonce. *)
Definition other_proof (k : N) : bytes :=
  let H := hash_to_curve toy_curve (public_key ex_key) (str "round 17") in
  let x := expand toy_curve (private ex_key) in
  let c := hash_points toy_curve [H; smul (C := toy_curve) x H; smul (C := toy_curve) k (base toy_curve); smul (C := toy_curve) k H] in
  encode_proof toy_curve (smul (C := toy_curve) x H) c ((k + c * x) mod 7).
Example c28_case :
  exists k, other_proof k <> ex_proof /\
    same_out (verify_bytes toy_curve (public_key ex_key) (other_proof k) (str "round 17"))
             (verify_bytes toy_curve (public_key ex_key) ex_proof (str "round 17")) = true.
Proof. exists 4. split; vm_compute; [discriminate|reflexivity]. Qed.

Example c29_case :
  length ex_proof = 80%nat /\ decode toy_curve ex_proof <> None /\
  forall b P, length b = 32%nat -> decompress toy_curve b = Some P -> compress toy_curve P = b.
Proof.
  split; [vm_compute; reflexivity|]. split; [vm_compute; discriminate|].
  intros [|b r] P _ E; cbn [decompress toy_curve] in E; [discriminate|].
  destruct (N.ltb_spec (Byte.to_N b) 7) as [Hb|Hb]; cbn [andb] in E; [|discriminate].
  destruct (bytes_eqb_reflect r (repeat x00 31)) as [->|]; [|discriminate]. injection E as <-.
  cbn [compress toy_curve]. rewrite to_of, Z.mod_small by lia. rewrite N2Z.id, b8_to_N. reflexivity.
Qed.
