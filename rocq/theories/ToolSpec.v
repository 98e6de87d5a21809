(** Vocabulary for the statements about the key tool. *)
From Verif Require Import Base.
From Verif Require VrfModel.

(** The random values of a generated participation have their sizes: the master secret, the
    secrets of the batches and the selection key pair. *)
Definition random_ok (master : bytes) (rng : N -> bytes) (vk : VrfModel.keypair) : Prop :=
  length master = 32 /\ (forall i, length (rng i) = 32) /\ length (VrfModel.private vk) = 32 /\ length (VrfModel.public_key vk) = 32.
(** The number of groups of [d] rounds that meet the interval. *)
Definition groups (first last d : N) : N := (last / d - first / d + 1)%N.
