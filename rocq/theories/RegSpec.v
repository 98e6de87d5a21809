(** Vocabulary for registering participation keys. *)
From Verif Require Import Base ConsensusModel OtsModel AccountModel.
From Verif Require TxModel VrfModel Scheme.
Local Open Scope N_scope.

(** The transaction with this genesis hash. *)
Definition naming (hash : bytes) (t : TxModel.transaction) : TxModel.transaction :=
  let h := TxModel.tx_head t in
  TxModel.mkTx (TxModel.mkTxHeader (TxModel.sender h) (TxModel.fee h) (TxModel.first_valid h) (TxModel.last_valid h) (TxModel.note h)
    (TxModel.tx_genesis_id h) hash (TxModel.group h) (TxModel.lease h) (TxModel.rekey_to h)) (TxModel.fields t).
(** A participation as it is generated: nothing in it is zero. *)
Definition registers (p : participation) : Prop :=
  part_first p <= part_last p /\ part_last p <> 0 /\ part_dilution p <> 0 /\
  verifier (voting p) <> Scheme.default_key /\ VrfModel.public_key (vrf p) <> repeat x00 32.
(** The choices that make its registration acceptable: enough fee, a window of allowed length that ends no earlier than right
    before the keys start, an account that is neither special nor missing, and a lease only where there are leases. *)
Definition acceptable (proto : params) (spec : TxModel.special_addresses) (p : participation) (fee first last : N) (lease : bytes) : Prop :=
  (enable_fee_pooling proto = true \/ min_tx_fee proto < fee) /\ first <= last <= first + max_tx_life proto /\
  (enable_keyreg_coherency_check proto = true -> part_first p <= last + 1) /\
  parent p <> TxModel.rewards_pool spec /\ parent p <> zero32 /\ (lease <> zero32 -> support_transaction_leases proto = true).
(** The hash is the one of the chain, or none where none is required. *)
Definition names_genesis (proto : params) (chain hash : bytes) : Prop :=
  (hash = chain /\ chain <> zero32 /\ support_genesis_hash proto = true) \/ (hash = zero32 /\ require_genesis_hash proto = false).
