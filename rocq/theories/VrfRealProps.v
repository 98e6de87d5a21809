(** Property C142: proofs of the verifiable random function and credentials, with the curve the code uses. *)
From Verif Require Import Base Digits ShaModel VrfModel VrfSpec VrfBindSpec CurveModel Curve25519Spec BasicsModel CommitteeModel CommitteeSpec VrfRealProofs.
From Verif Require ConsensusModel.
Local Open Scope N_scope.

(** C142.  A proof accepted twice: for the same key and message, or two strings hashed go to one point of the
    curve, or two have one challenge. *)
Theorem c142_one_key_one_message :
  forall pk pk' p data data' o o', length pk = 32%nat -> length pk' = 32%nat ->
  verify_bytes edwards25519 pk p data = Ok o -> verify_bytes edwards25519 pk' p data' = Ok o' ->
  (pk = pk' /\ data = data') \/
  (point_string pk data <> point_string pk' data' /\ same (point_of edwards25519 (point_string pk data)) (point_of edwards25519 (point_string pk' data'))) \/
  exists g c s U V U' V', decode edwards25519 p = Some (g, c, s) /\
    same_challenge edwards25519 c (challenge_string edwards25519 (point_of edwards25519 (point_string pk data)) g U V)
                                  (challenge_string edwards25519 (point_of edwards25519 (point_string pk' data')) g U' V').
Proof. exact real_binding. Qed.
Print Assumptions c142_one_key_one_message.

(** Proofs with one output have the same point up to the cofactor, unless the digests collide. *)
Theorem c142_output_names_the_point :
  forall pk pk' p p' data data' o, verify_bytes edwards25519 pk p data = Ok o -> verify_bytes edwards25519 pk' p' data' = Ok o ->
  exists g c s g' c' s', decode edwards25519 p = Some (g, c, s) /\ decode edwards25519 p' = Some (g', c', s') /\
    (same (edwards_mul 8 g) (edwards_mul 8 g') \/
     collision_in (VrfModel.sha512 edwards25519) [output_string edwards25519 (edwards_mul 8 g)] [output_string edwards25519 (edwards_mul 8 g')]).
Proof. exact real_output_point. Qed.
Print Assumptions c142_output_names_the_point.

(** The byte strings that are not the byte form of the proof they decode to are those whose first 32 bytes hold a
    number of 255 bits that is not below 2^255 - 19, or the sign bit with a number whose point has no sign. *)
Theorem c142_byte_forms :
  forall proof g c s, length proof = 80%nat -> decode edwards25519 proof = Some (g, c, s) ->
  (encode_proof edwards25519 g c s = proof <->
   le_num (firstn 32 proof) mod 2 ^ 255 < 2 ^ 255 - 19 /\
   (le_num (firstn 32 proof) mod 2 ^ 255 = 1 \/ le_num (firstn 32 proof) mod 2 ^ 255 = 2 ^ 255 - 20 -> le_num (firstn 32 proof) < 2 ^ 255)).
Proof. exact real_forms. Qed.
Print Assumptions c142_byte_forms.

(** The credential a member makes is accepted unless it is of weight zero. *)
Theorem c142_own_credential :
  forall cdf H proto seed sel mem, mem_selector mem = sel ->
  selection_id (mem_data mem) = public_key (from_seed edwards25519 seed) ->
  total_money mem <= 2 ^ 64 -> totals_ok (voting_stake (mem_data mem)) (total_money mem) (committee_size sel proto) ->
  (exists c, verify cdf edwards25519 H proto (new_credential edwards25519 H (from_seed edwards25519 seed) sel) mem = Ok c) \/
  verify cdf edwards25519 H proto (new_credential edwards25519 H (from_seed edwards25519 seed) sel) mem = Err ZeroWeight.
Proof. exact real_credential. Qed.
Print Assumptions c142_own_credential.

(** ** Concrete cases *)
(** A proof made and accepted; the same for another key or another message is refused.  The proof of no point: one
    string of 80 bytes that is the byte form of what it decodes to, and another that decodes to the same. *)
Definition seed1 : bytes := repeat x07 32.
Definition keys1 : keypair := Eval vm_compute in from_seed edwards25519 seed1.
Definition proof1 : bytes := Eval vm_compute in prove_bytes edwards25519 keys1 (str "m").
Definition accepted (pk p data : bytes) : bool := match verify_bytes edwards25519 pk p data with Ok _ => true | _ => false end.
Definition form_of (p : bytes) : bytes := match decode edwards25519 p with Some (g, c, s) => encode_proof edwards25519 g c s | None => [] end.
Definition with_point (n : N) : bytes := le_bytes 32 n ++ repeat x00 48.
Definition real_case : bool := Eval vm_compute in
  accepted (public_key keys1) proof1 (str "m") && negb (accepted (public_key keys1) proof1 (str "n")) &&
  negb (accepted (x58 :: repeat x66 31) proof1 (str "m")) && bytes_eqb (form_of proof1) proof1 &&
  bytes_eqb (form_of (with_point (2 ^ 255 - 18))) (with_point 1) && bytes_eqb (form_of (with_point 1)) (with_point 1) &&
  bytes_eqb (form_of (with_point (2 ^ 255 + 1))) (with_point 1).
Example c142_case : real_case = true.
Proof. reflexivity. Qed.

(** A member with 10 of 1000 units, of which 500 are selected. *)
Definition real_selector : selector := mkSelector (str "AS" ++ repeat x05 20) (fun _ => 500).
Definition real_member : membership :=
  mkMembership (mkAccount Online 10 0 0 [] (public_key (from_seed edwards25519 seed1)) 0 0 0 [] [] [] [] [] (mkSchema 0 0) 0) (repeat x2a 32) real_selector 1000.
Example c142_member_case : total_money real_member <= 2 ^ 64 /\
  totals_ok (voting_stake (mem_data real_member)) (total_money real_member) (committee_size real_selector ConsensusModel.v7_base).
Proof. split; [cbn; lia|unfold totals_ok; cbn; lia]. Qed.
