(** What is assumed of the curve, and the vocabulary of the statements about VRFs. *)
From Coq Require Import Znumtheory.
From Verif Require Import Base Digits VrfModel.
Local Open Scope N_scope.

(** A commutative group whose exponent divides 8 * order, with a base point of exactly
    that prime order; compression is 32 bytes and can be undone; Elligator's values
    have had the cofactor cleared. *)
Record curve_ok (C : curve) : Prop := {
  add_comm : forall P Q : pt C, padd P Q = padd Q P;
  add_assoc : forall P Q R : pt C, padd P (padd Q R) = padd (padd P Q) R;
  add_zero : forall P : pt C, padd P pzero = P;
  add_neg : forall P : pt C, padd P (pneg P) = pzero;
  mul_one : forall P : pt C, pmul 1 P = P;
  mul_add : forall a b (P : pt C), pmul (a + b) P = padd (pmul a P) (pmul b P);
  mul_mul : forall a b (P : pt C), pmul (a * b) P = pmul a (pmul b P);
  mul_dist : forall a (P Q : pt C), pmul a (padd P Q) = padd (pmul a P) (pmul a Q);
  order_prime : prime (Z.of_N (order C));
  order_small : order C < 2 ^ 256;
  base_order : forall n, pmul n (base C) = pzero <-> (Z.of_N (order C) | n)%Z;
  exponent : forall P : pt C, pmul (8 * Z.of_N (order C)) P = pzero;
  elligator_order : forall s, pmul (Z.of_N (order C)) (elligator C s) = pzero;
  compress_length : forall P, length (compress C P) = 32%nat;
  decompress_compress : forall P, decompress C (compress C P) = Some P;
  sha512_length : forall s, length (sha512 C s) = 64%nat
}.

(** The verifier's commitment in an accepted proof: the two points hashed into the
    challenge next to the hash point and gamma. *)
Definition commitment (C : curve) (y hash_point gamma : pt C) (c s : N) : pt C * pt C :=
  (psub (smul s (base C)) (smul c y), psub (smul s hash_point) (smul c gamma)).

(** The proof is a lucky hit: for its commitment, its own challenge is the only one that
    could have been answered. *)
Definition lucky (C : curve) (pk data proof : bytes) : Prop :=
  exists y gamma c s,
    decompress C pk = Some y /\ decode C proof = Some (gamma, c, s) /\
    forall c' s', c' < order C -> s' < order C ->
      commitment C y (hash_to_curve C pk data) gamma c' s' =
      commitment C y (hash_to_curve C pk data) gamma c s -> c' = c.

(** Byte form of proof components (as written at the end of proving). *)
Definition encode_proof (C : curve) (gamma : pt C) (c s : N) : bytes :=
  compress C gamma ++ firstn 16 (le_bytes 32 c) ++ le_bytes 32 s.
