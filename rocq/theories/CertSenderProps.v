(** C190. *)
From Verif Require Import Base Toy Scheme ConsensusModel TxModel TxSpec MultisigModel MultisigSpec ExtrasModel CertSenderSpec CertSenderProofs.
From Verif Require TxProps.
Local Open Scope N_scope.

(** C190.  Whoever has a multisignature that is accepted for the sender of an acceptable certificate, has keys whose multisignature
    address is this sender, or has an application with this address, has two different strings with the same hash. *)
Theorem c190_multisig H m spec proto t sc ms msg : limits_fit proto -> last_valid (tx_head t) < 2 ^ 64 - 1 -> is_certificate t ->
  is_well_formed H m spec proto t = Ok tt -> verify H sc ms msg (sender (tx_head t)) = Ok true ->
  collision_in H [cert_sender_string] [address_string (MultisigModel.version ms) (threshold ms) (keys ms)].
Proof. exact (cert_multisig H m spec proto t sc ms msg). Qed.
Print Assumptions c190_multisig.
Theorem c190_keys H m spec proto t v n pks : limits_fit proto -> last_valid (tx_head t) < 2 ^ 64 - 1 -> is_certificate t ->
  is_well_formed H m spec proto t = Ok tt -> from_pks H v n pks = Ok (sender (tx_head t)) -> collision_in H [cert_sender_string] [address_string v n pks].
Proof. exact (cert_pks H m spec proto t v n pks). Qed.
Print Assumptions c190_keys.
Theorem c190_application H m spec proto t app : limits_fit proto -> last_valid (tx_head t) < 2 ^ 64 - 1 -> is_certificate t ->
  is_well_formed H m spec proto t = Ok tt -> app_address H app = sender (tx_head t) -> collision_in H [cert_sender_string] [app_string app].
Proof. exact (cert_app H m spec proto t app). Qed.
Print Assumptions c190_application.
(** A key signs it in the name of its sender exactly if the key is the hash of the reserved string. *)
Theorem c190_signed H m spec proto t sc sk : limits_fit proto -> last_valid (tx_head t) < 2 ^ 64 - 1 -> is_certificate t ->
  is_well_formed H m spec proto t = Ok tt -> scheme_correct sc -> public sc sk <> zero32 ->
  authorizer (TxModel.sign sc sk t) = sender (tx_head t) <-> public sc sk = H cert_sender_string.
Proof. exact (cert_signed H m spec proto t sc sk). Qed.
Print Assumptions c190_signed.

(** An acceptable certificate; with a hash that collides, a multisignature address with its sender. *)
Definition future : params := match lookup Future built_in with Some p => p | None => v7_base end.
Definition cert_from (a : bytes) : transaction := mkTx (mkTxHeader a 0 10 20 [] [] TxProps.genesis_x zero32 zero32 zero32) (CompactCert (mkCert 3)).
Definition one_hash (s : bytes) : bytes := repeat x09 32.
Example c190_example :
  limits_fit future /\ is_certificate (cert_from (toy_hash cert_sender_string)) /\
  is_well_formed toy_hash Debug TxProps.ex_spec future (cert_from (toy_hash cert_sender_string)) = Ok tt /\
  is_well_formed toy_hash Debug TxProps.ex_spec future (cert_from TxProps.alice) = Err CCInvalidSender /\
  is_well_formed one_hash Debug TxProps.ex_spec future (cert_from (repeat x09 32)) = Ok tt /\
  from_pks one_hash 1 1 [TxProps.alice] = Ok (sender (tx_head (cert_from (repeat x09 32)))) /\
  app_address one_hash 7 = sender (tx_head (cert_from (repeat x09 32))).
Proof.
  split; [apply (TxProps.c42_limits Future); vm_compute; reflexivity|]. split; [eexists; reflexivity|].
  repeat split; vm_compute; reflexivity.
Qed.
