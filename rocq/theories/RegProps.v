(** C189. *)
From Verif Require Import Base Toy ConsensusModel Scheme AddressModel TxModel TxSpec BlockModel OtsModel AccountModel RegSpec RegProofs BasicsProps AccountProps.
From Verif Require UpgradeModel TxProps.
Local Open Scope N_scope.

(** C189, full statement: for keys as they are generated, the registration transaction the participation gives, with acceptable
    choices, is well formed, can be applied in the rounds of its window and can be put into blocks.  False on all
    protocols that require transactions to name the genesis, since it does not. *)
Theorem c189_dead_refuted p amount from upto lock c : support_genesis_hash (ctx_proto c) = true -> require_genesis_hash (ctx_proto c) = true ->
  alive (tx_head (generate_registration_transaction p amount from upto lock)) c <> Ok tt.
Proof. exact (reg_dead p amount from upto lock c). Qed.
Print Assumptions c189_dead_refuted.
Theorem c189_stored_refuted table h sc sk ad proto p amount from upto lock :
  params_of table h = Some proto -> support_signed_tx_in_block proto = true -> require_genesis_hash proto = true ->
  encode_signed_tx table h (TxModel.sign sc sk (generate_registration_transaction p amount from upto lock)) ad = Err UpgradeModel.MissingGenesisHash.
Proof. exact (reg_not_stored table h sc sk ad proto p amount from upto lock). Qed.
Print Assumptions c189_stored_refuted.
(** These are all from V16 on. *)
Theorem c189_protocols v p : lookup v built_in = Some p ->
  (require_genesis_hash p = true <-> ~ In v [V7; V8; V9; V10; V11; V12; V13; V14; V15]) /\
  (require_genesis_hash p = true -> support_genesis_hash p = true /\ support_signed_tx_in_block p = true).
Proof.
  intros L. destruct v; vm_compute in L; try discriminate L; injection L as <-; cbn [require_genesis_hash support_genesis_hash support_signed_tx_in_block In];
    (split; [split; [intros A; try discriminate A; intros B; repeat destruct B as [B|B]; try discriminate B; contradiction|intros A; try reflexivity; exfalso; tauto]|intros A; try discriminate A; split; reflexivity]).
Qed.
Print Assumptions c189_protocols.
(** What holds: it is well formed exactly with acceptable choices, whatever genesis hash is put into it; *)
Theorem c189_well_formed p amount from upto lock hash H m spec proto : registers p -> limits_fit proto -> upto < 2 ^ 64 - 1 ->
  is_well_formed H m spec proto (naming hash (generate_registration_transaction p amount from upto lock)) = Ok tt <->
  acceptable proto spec p amount from upto lock.
Proof. exact (reg_well_formed p amount from upto lock hash H m spec proto). Qed.
Print Assumptions c189_well_formed.
(** and with the genesis hash of the chain, or none where none is required, it can be applied exactly in the rounds of its
    window and, signed by anyone, be put into blocks and taken out again. *)
Theorem c189_alive_partial p amount from upto lock hash c : names_genesis (ctx_proto c) (ctx_genesis_hash c) hash ->
  alive (tx_head (naming hash (generate_registration_transaction p amount from upto lock))) c = Ok tt <-> from <= ctx_round c <= upto.
Proof. exact (reg_alive p amount from upto lock hash c). Qed.
Print Assumptions c189_alive_partial.
Theorem c189_stored_partial p amount from upto lock hash table h sc sk ad proto : params_of table h = Some proto -> names_genesis proto (genesis_hash h) hash ->
  exists s, encode_signed_tx table h (TxModel.sign sc sk (naming hash (generate_registration_transaction p amount from upto lock))) ad = Ok s /\
    decode_signed_tx table h s = Ok (TxModel.sign sc sk (naming hash (generate_registration_transaction p amount from upto lock)), ad).
Proof. exact (reg_stored p amount from upto lock hash table h sc sk ad proto). Qed.
Print Assumptions c189_stored_partial.

(** The participation of C68 for the rounds 1005 to 1031, registered in the rounds 990 to 1004. *)
Example c189_example : registers ex_p /\
  acceptable v30 TxProps.ex_spec ex_p 2000 990 1004 zero32 /\ limits_fit v30 /\
  ~ acceptable v30 TxProps.ex_spec ex_p 2000 990 1003 zero32 /\ ~ acceptable v30 TxProps.ex_spec ex_p 2000 990 1991 zero32 /\
  names_genesis v30 TxProps.genesis_x TxProps.genesis_x /\ require_genesis_hash v30 = true /\
  alive (tx_head (naming TxProps.genesis_x (generate_registration_transaction ex_p 2000 990 1004 zero32))) (mkContext 1000 v30 (str "net-v1") TxProps.genesis_x) = Ok tt /\
  alive (tx_head (generate_registration_transaction ex_p 2000 990 1004 zero32)) (mkContext 1000 v30 (str "net-v1") TxProps.genesis_x) = Err GenesisHashMissing.
Proof.
  split. { split; [vm_compute; discriminate|]. split; [vm_compute; discriminate|]. split; [vm_compute; discriminate|]. split; vm_compute; discriminate. }
  split. { split; [left; vm_compute; reflexivity|]. split; [split; vm_compute; discriminate|]. split; [intros _; vm_compute; discriminate|]. split; [vm_compute; discriminate|]. split; [vm_compute; discriminate|]. intros A. exfalso. apply A. reflexivity. }
  split; [apply (TxProps.c42_limits V30); vm_compute; reflexivity|].
  split. { intros (_ & _ & A & _). specialize (A (eq_refl : enable_keyreg_coherency_check v30 = true)). vm_compute in A. apply A. reflexivity. }
  split. { intros (_ & [_ A] & _). vm_compute in A. apply A. reflexivity. }
  split. { left. split; [reflexivity|]. split; [vm_compute; discriminate|reflexivity]. }
  split; [reflexivity|]. split; vm_compute; reflexivity.
Qed.
