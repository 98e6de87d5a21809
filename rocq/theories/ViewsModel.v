(** Small functions on transactions. *)
From Verif Require Import Base.
From Verif Require Export TxModel.
Local Open Scope N_scope.

(** src/data/transactions/transaction.rs:568-578: the body is a comment and a constant *)
Definition estimate_encoded_size (t : transaction) : N := 200.
