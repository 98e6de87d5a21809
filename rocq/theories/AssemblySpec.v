(** What an assembled multisignature carries. *)
From Verif Require Import Base MultisigModel MultisigSpec.

Definition unsigned (m : multisig) (i : nat) : Prop := forall s, ~ slot_sig m i s.
(** [s] is the signature in slot [i] of the last of [us] that has one there. *)
Definition latest (us : list multisig) (i : nat) (s : bytes) : Prop :=
  exists before u after, us = before ++ u :: after /\ slot_sig u i s /\ Forall (fun v => unsigned v i) after.
