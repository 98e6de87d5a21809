(** What the VRF hashes: the strings of the draft-irtf-cfrg-vrf-03 suite ECVRF-ED25519-SHA512-Elligator2. *)
From Verif Require Import Base Digits VrfModel.
Local Open Scope N_scope.

(** ECVRF_hash_to_curve_elligator2_25519 (5.4.1.2): suite octet, 1, the public key, the message;
    the digest without its top bit is mapped to the curve. *)
Definition point_string (pk data : bytes) : bytes := [x04; x01] ++ pk ++ data.
Definition without_top_bit (h : bytes) : bytes :=
  map (fun i => if (i =? 31)%nat then b8 (Byte.to_N (nth i h x00) mod 128) else nth i h x00) (seq 0 (length h)).
Definition point_of (C : curve) (s : bytes) : pt C := elligator C (without_top_bit (sha512 C s)).
(** ECVRF_hash_points (5.4.3): suite octet, 2, the points; the first 16 bytes of the digest. *)
Definition challenge_string (C : curve) (H gamma U V : pt C) : bytes :=
  [x04; x02] ++ compress C H ++ compress C gamma ++ compress C U ++ compress C V.
Definition challenge_of (C : curve) (s : bytes) : N := le_num (firstn 16 (sha512 C s)) mod order C.
(** Section 5.2: the string whose digest is the output. *)
Definition output_string (C : curve) (P : pt C) : bytes := [x04; x03] ++ compress C P.

(** Two different strings among those hashed for these keys and messages go to one point. *)
Definition same_point (C : curve) (s s' : bytes) : Prop := s <> s' /\ point_of C s = point_of C s'.
(** Two different strings have one challenge, that of the proof. *)
Definition same_challenge (C : curve) (c : N) (s s' : bytes) : Prop :=
  s <> s' /\ challenge_of C s = c /\ challenge_of C s' = c.
