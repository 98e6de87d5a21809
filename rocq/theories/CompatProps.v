(** C169 and C170. *)
From Coq Require Import Relations.
From Verif Require Import Base Toy ConsensusModel BasicsModel TxModel TxSpec BasicsProps TxProps IdsModel AccountSizeModel AccountSizeSpec AccountSizeProofs AccountSizeProps ConfigSpec ConfigProofs CompatProofs.
Local Open Scope N_scope.

(** C169.  A transaction that is well formed under a built-in protocol is so under every one that this can be upgraded to,
    except registrations that neither go offline nor online, where these are refused. *)
Theorem c169_form :
  forall H m spec v w p q t, upgrades built_in v w -> lookup v built_in = Some p -> lookup w built_in = Some q ->
  last_valid (tx_head t) < 2 ^ 64 - 1 -> is_well_formed H m spec p t = Ok tt ->
  (is_well_formed H m spec q t = Ok tt <->
   forall f, fields t = Keyreg f -> enable_keyreg_coherency_check q = true -> goes_offline f \/ goes_online (tx_head t) f).
Proof. exact form_lemma. Qed.
Print Assumptions c169_form.

(** It can still be in a block of the same round and network, except without genesis hash, where that is required. *)
Theorem c169_alive :
  forall h round id hash v w p q, upgrades built_in v w -> lookup v built_in = Some p -> lookup w built_in = Some q ->
  alive h (mkContext round p id hash) = Ok tt ->
  (alive h (mkContext round q id hash) = Ok tt <-> require_genesis_hash q = false \/ set (tx_genesis_hash h)).
Proof. exact alive_upgrade. Qed.
Print Assumptions c169_alive.

(** C170.  From version 9 on, upgrades change neither the minimum balance of an account nor that it keeps to the limits. *)
Theorem c170_account :
  forall v w p q a, upgrades built_in v w -> lookup v built_in = Some p -> lookup w built_in = Some q -> v <> V7 -> v <> V8 ->
  account_within p a -> books_kept a ->
  account_within q a /\ account_min_balance q (as_account a) = account_min_balance p (as_account a) /\ (affordable p a -> affordable q a).
Proof. exact path_account. Qed.
Print Assumptions c170_account.

(** Hypotheses met: a call of an application and a payment, from version 24 to the current one. *)
Definition protocol (v : version) : params := match lookup v built_in with Some p => p | None => v7_base end.
Definition call_24 : transaction :=
  mkTx (ex_header 2000) (AppCall (mkAppCall 0 OptInOC [str "a"; str "bc"] [bob] [4] [5] (mkSchema 1 2) (mkSchema 3 4) (str "prog") (str "clear") 0)).
Example c169_case :
  upgrades built_in V24 V30 /\ lookup V24 built_in = Some (protocol V24) /\ lookup V30 built_in = Some (protocol V30) /\
  is_well_formed toy_hash Debug ex_spec (protocol V24) call_24 = Ok tt /\ is_well_formed toy_hash Debug ex_spec (protocol V30) call_24 = Ok tt /\
  is_well_formed toy_hash Debug ex_spec (protocol V23) call_24 = Err AppTxsNotSupported /\
  alive (ex_header 2000) (mkContext 150 (protocol V24) (str "net-v1") genesis_x) = Ok tt.
Proof. split; [apply (leads_lemma V24 (protocol V24)); [reflexivity|discriminate]|]. repeat split; vm_compute; reflexivity. Qed.
(** The exceptions are there: a registration with only some keys, and a transaction without genesis hash. *)
Definition half_keyreg : transaction := mkTx (ex_header 2000) (Keyreg (mkKeyreg bob sink 5 100 0 false)).
Definition no_hash : tx_header := mkTxHeader alice 2000 100 200 [] [] zero32 zero32 zero32 zero32.
Example c169_exceptions :
  is_well_formed toy_hash Debug ex_spec (protocol V27) half_keyreg = Ok tt /\
  is_well_formed toy_hash Debug ex_spec (protocol V28) half_keyreg = Err KeyregNonCoherentVotingKeys /\
  alive no_hash (mkContext 150 (protocol V15) (str "net-v1") genesis_x) = Ok tt /\
  alive no_hash (mkContext 150 (protocol V16) (str "net-v1") genesis_x) = Err GenesisHashMissing.
Proof. repeat split; vm_compute; reflexivity. Qed.

(** An account under version 23 that holds three assets and created two; and what version 9 changed. *)
Definition account_23 : account_data :=
  mkAccountData NotParticipating huge huge huge (ff 32) (ff 32) huge huge huge (copies 2 (mkAssetParams huge 19 true (letters 8) (letters 32) (letters 32) (ff 32) (ff 32) (ff 32) (ff 32) (ff 32)))
    (copies 3 (mkHolding huge true)) (ff 32) [] [] (mkSchema 0 0) 0.
Example c170_case :
  upgrades built_in V23 V30 /\ account_within (protocol V23) account_23 /\ books_kept account_23 /\ affordable (protocol V23) account_23 /\
  map (fun v => account_min_balance (protocol v) (as_account account_23)) [V23; V24; V30] = [400000; 400000; 400000] /\
  map (fun v => ConsensusModel.min_balance (protocol v)) [V7; V8; V9; V30] = [10000; 10000; 100000; 100000].
Proof.
  split; [apply (leads_lemma V23 (protocol V23)); [reflexivity|discriminate]|].
  split; [|split; [|split; [left; reflexivity|split; vm_compute; reflexivity]]].
  - split; [vm_compute; discriminate|]. split; [vm_compute; discriminate|]. split; [vm_compute; discriminate|]. split; [vm_compute; discriminate|].
    split; [|split; apply Forall_nil]. apply (copies_forall (asset_within (protocol V23))). unfold asset_within. conjs; vm_compute; discriminate.
  - split; [intros x Hx; cbn in *; tauto|]. split; [apply Forall_nil|]. split; [apply Forall_nil|]. repeat split; reflexivity.
Qed.
