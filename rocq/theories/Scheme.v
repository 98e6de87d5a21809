(** Signature schemes, shared by multisignatures and one-time signatures. *)
From Verif Require Import Base.

(** A signature scheme (ed25519-dalek in the code): key derivation, signing, checking. *)
Record scheme := {
  public : bytes -> bytes;
  sign_with : bytes -> bytes -> bytes;
  check : bytes -> bytes -> bytes -> bool
}.

(** The default [PublicKey] of ed25519-dalek: the identity point, compressed to 1 followed
    by zeros. *)
Definition default_key : bytes := x01 :: repeat x00 31.
(** The all-zero signature, [Signature::new(\[0; 64\])]. *)
Definition null_sig : bytes := repeat x00 64.

(** Signatures made with a secret check under its public key. *)
Definition scheme_correct (sc : scheme) : Prop :=
  forall sk m, check sc (public sc sk) m (sign_with sc sk m) = true.
