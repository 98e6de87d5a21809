(** Vocabulary for C167. *)
From Verif Require Import Base MsgpackModel ConsensusModel TxModel DecodedSpec.
Local Open Scope N_scope.

(** The number of bytes of a serialized transaction, without and with its signature, and of a group. *)
Definition tx_bytes (t : transaction) : N := len (encode (tx_value t)).
Definition signed_bytes (s : signed_tx) : N := len (encode (signed_tx_value s)).
Definition group_bytes (g : list signed_tx) : N := fold_right (fun s n => signed_bytes s + n) 0 g.
(** Signed by one key: no multisignature and no program. *)
Definition plainly_signed (s : signed_tx) : Prop := stx_msig s = None /\ stx_lsig s = None.
(** Acceptable in a block of this context: well-formed by itself, and valid in the round, on the network. *)
Definition acceptable (H : bytes -> bytes) (m : mode) (spec : special_addresses) (c : context) (t : transaction) : Prop :=
  is_well_formed H m spec (ctx_proto c) t = Ok tt /\ alive (tx_head t) c = Ok tt.
