(** Vocabulary for decoding transactions. *)
From Verif Require Import Base TxDecodeModel TxCodecSpec JsonModel.
From Verif Require MultisigModel.
Local Open Scope N_scope.

(** The transaction names an account: its encoding contains an address. *)
Definition mentions_address (t : transaction) : Prop :=
  sender (tx_head t) <> zero32 \/ rekey_to (tx_head t) <> zero32 \/
  match fields t with
  | Payment f => receiver f <> zero32 \/ close_remainder_to f <> None
  | AppCall f => app_accounts f <> []
  | AssetConfig _ | AssetTransfer _ | AssetFreeze _ => True
  | Keyreg _ | CompactCert _ => False
  end.
(** A transaction as it exists in memory: hashes of 32 bytes, strings that are UTF-8, keys that are
    valid, numbers of 64 or 32 bits. *)
Definition h32 (s : bytes) : Prop := length s = 32%nat.
Definition is_utf8 (s : bytes) : Prop := utf8 s = true.
Definition in_memory (valid_key : bytes -> bool) (t : transaction) : Prop :=
  tx_fits t /\
  (let h := tx_head t in is_utf8 (tx_genesis_id h) /\ h32 (tx_genesis_hash h) /\ h32 (group h) /\ h32 (lease h)) /\
  match fields t with
  | Keyreg f => valid_key (vote_pk f) = true /\ h32 (selection_pk f)
  | AppCall f => extra_program_pages f < 2 ^ 32
  | _ => True
  end.
(** At most one kind of signature, as in every signed transaction that verifies. *)
Definition one_signature (s : signed_tx) : Prop :=
  stx_sig s = repeat x00 64 \/ stx_msig s = None \/ stx_lsig s = None.
(** A multisignature as it exists in memory, and a transaction with all three kinds of signature. *)
Definition msig_in_memory (valid_key valid_sig : bytes -> bool) (m : MultisigModel.multisig) : Prop :=
  MultisigModel.version m < 256 /\ MultisigModel.threshold m < 256 /\
  Forall (fun s => valid_key (MultisigModel.key s) = true /\
    match MultisigModel.sig s with Some g => length g = 64%nat /\ valid_sig g = true | None => True end) (MultisigModel.subsigs m).
Definition all_signatures (valid_key valid_sig : bytes -> bool) (s : signed_tx) : Prop :=
  (length (stx_sig s) = 64%nat /\ valid_sig (stx_sig s) = true /\ stx_sig s <> repeat x00 64) /\
  (exists m, stx_msig s = Some m /\ msig_in_memory valid_key valid_sig m) /\
  (exists l, stx_lsig s = Some l /\ length (lsig_sig l) = 64%nat /\ valid_sig (lsig_sig l) = true /\ msig_in_memory valid_key valid_sig (lsig_msig l)).
