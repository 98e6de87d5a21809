(** Model of the encoded lengths (src/data/transactions/signed_tx.rs:61-64,78-83). *)
From Verif Require Import Base MsgpackModel TxModel.

(** src/data/transactions/signed_tx.rs:61-64 *)
Definition signed_encoded_length (s : signed_tx) : nat := length (encode (signed_tx_value s)).
(** src/data/transactions/signed_tx.rs:79-82 *)
Definition stib_encoded_length (s : signed_tx_in_block) : nat := length (encode (stib_value s)).
