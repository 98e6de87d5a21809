(** Decoding of multisignatures and logic signatures by themselves. *)
From Verif Require Import Base.
From Verif Require Export TxDecodeModel.
From Verif Require MultisigModel.
Local Open Scope N_scope.

Section Read.
Variables (valid_key : bytes -> bool) (bins : bool) (valid_sig : bytes -> bool).
(** [protocol::decode::<MultisigSubsig>]; src/protocol/codec.rs:10-12 for src/crypto/multisig.rs:21-25 *)
Definition decode_subsig (s : bytes) : option MultisigModel.subsig := v <- decode s ;; get_subsig valid_key bins valid_sig v.
(** [protocol::decode::<MultisigSignature>]; src/protocol/codec.rs:10-12 for src/crypto/multisig.rs:27-32 *)
Definition decode_multisig (s : bytes) : option MultisigModel.multisig := v <- decode s ;; get_multisig valid_key bins valid_sig v.
(** [protocol::decode::<LogicSig>]; src/protocol/codec.rs:10-12 for src/data/transactions/logicsig.rs:14-25 *)
Definition decode_lsig (s : bytes) : option logic_sig := v <- decode s ;; get_lsig valid_key bins valid_sig v.
End Read.
