(** C105: a VRF proof is for one key and one message. *)
From Verif Require Import Base BaseFacts Digits Toy VrfModel VrfSpec VrfBindSpec VrfBindProofs VrfProps ToyCurve.
Local Open Scope N_scope.

(** A proof accepted twice: for the same key and message, or two strings hashed go to one point of the
    curve, or two have one challenge. *)
Theorem c105_one_key_one_message :
  forall C, curve_ok C -> forall pk pk' p data data' o o', length pk = 32%nat -> length pk' = 32%nat ->
  verify_bytes C pk p data = Ok o -> verify_bytes C pk' p data' = Ok o' ->
  (pk = pk' /\ data = data') \/ same_point C (point_string pk data) (point_string pk' data') \/
  exists g c s U V U' V', decode C p = Some (g, c, s) /\
    same_challenge C c (challenge_string C (point_of C (point_string pk data)) g U V) (challenge_string C (point_of C (point_string pk' data')) g U' V').
Proof. exact binding_lemma. Qed.
Print Assumptions c105_one_key_one_message.
(** Proofs with one output have the same point up to the cofactor, unless the digests collide. *)
Theorem c105_output_names_the_point :
  forall C, curve_ok C -> forall pk pk' p p' data data' o, verify_bytes C pk p data = Ok o -> verify_bytes C pk' p' data' = Ok o ->
  exists g c s g' c' s', decode C p = Some (g, c, s) /\ decode C p' = Some (g', c', s') /\
    (smul 8 g = smul 8 g' \/ collision_in (sha512 C) [output_string C (smul 8 g)] [output_string C (smul 8 g')]).
Proof. exact output_lemma. Qed.
Print Assumptions c105_output_names_the_point.
Example c105_case : curve_ok toy_curve /\ length (public_key ex_key) = 32%nat /\
  (exists o, verify_bytes toy_curve (public_key ex_key) ex_proof (str "round 17") = Ok o) /\
  verify_bytes toy_curve (public_key (from_seed toy_curve (str "seed"))) ex_proof (str "round 17") = Err InvalidProof.
Proof.
  split; [exact toy_curve_ok|]. split; [vm_compute; reflexivity|]. split; [|vm_compute; reflexivity].
  eexists. vm_compute. reflexivity.
Qed.
