(** Vocabulary for C106-C110. *)
From Verif Require Import Base ViewsModel CommitteeModel.
Local Open Scope N_scope.

(** A transaction with a plain signature, and the length of its encoding. *)
Definition plainly_signed (sig : bytes) (t : transaction) : signed_tx := mkSigned sig None None t zero32.
Definition signed_size (sig : bytes) (t : transaction) : N := N.of_nat (length (encode (signed_tx_value (plainly_signed sig t)))).

(** Credentials of one member under one protocol. *)
Definition same_kind (c d : credential) : Prop :=
  domain_separation_enabled c = domain_separation_enabled d /\
  (domain_separation_enabled c = true -> exists h h', hashable c = Some h /\ hashable d = Some h' /\ member h = member h').
