(** What the transaction checks should mean, per kind of transaction. *)
From Verif Require Import Base TxModel.
Local Open Scope N_scope.

Definition set (a : bytes) : Prop := a <> zero32.
Definition unset (a : bytes) : Prop := a = zero32.

(** The header can be applied in the context: its round is in the interval, it names this
    chain or none, and carries this chain's hash, no hash where it may be left out, or no
    hash where the protocol knows none. *)
Definition lives (h : tx_header) (c : context) : Prop :=
  first_valid h <= ctx_round c <= last_valid h /\
  (tx_genesis_id h = [] \/ tx_genesis_id h = ctx_genesis_id c) /\
  if support_genesis_hash (ctx_proto c) then
    (set (tx_genesis_hash h) /\ tx_genesis_hash h = ctx_genesis_hash c) \/
    (unset (tx_genesis_hash h) /\ require_genesis_hash (ctx_proto c) = false)
  else unset (tx_genesis_hash h).

(** ** Per kind *)
Definition payment_ok (spec : special_addresses) (h : tx_header) (f : payment) : Prop :=
  close_remainder_to f <> Some (sender h) /\
  (sender h = fee_sink spec -> receiver f = rewards_pool spec /\ close_remainder_to f = None).

(** Going offline: nothing set.  Going online: everything set, starting in time. *)
Definition goes_offline (f : keyreg) : Prop :=
  vote_pk f = default_key /\ unset (selection_pk f) /\ kr_key_dilution f = 0 /\ vote_first f = 0 /\ vote_last f = 0.
Definition sets_keys (f : keyreg) : Prop :=
  vote_pk f <> default_key /\ set (selection_pk f) /\ kr_key_dilution f <> 0 /\ vote_first f <= vote_last f /\ vote_last f <> 0.
Definition goes_online (h : tx_header) (f : keyreg) : Prop := sets_keys f /\ vote_first f <= last_valid h + 1.
Definition keyreg_ok (proto : params) (h : tx_header) (f : keyreg) : Prop :=
  (enable_keyreg_coherency_check proto = true -> goes_offline f \/ goes_online h f) /\
  (nonparticipation f = true ->
     support_become_non_participating_transactions proto = true /\ (vote_pk f = default_key \/ unset (selection_pk f))).

Definition total_length (l : list bytes) : N := fold_right (fun a s => len a + s) 0 l.
(** How many pages the programs may fill. *)
Definition pages (proto : params) (f : app_call) : N :=
  1 + if negb (called_app f =? 0) && enable_extra_pages_on_app_update proto then max_extra_app_program_pages proto
      else extra_program_pages f.
Definition app_call_ok (proto : params) (f : app_call) : Prop :=
  application proto = true /\
  (* an existing application is only called or its programs replaced *)
  (called_app f <> 0 ->
     (on_completion f <> UpdateApplicationOC -> approval_program f = [] /\ clear_state_program f = []) /\
     local_state_schema f = mkSchema 0 0 /\ global_state_schema f = mkSchema 0 0 /\ extra_program_pages f = 0) /\
  (* counts *)
  len (application_args f) <= max_app_args proto /\ total_length (application_args f) <= max_app_total_arg_len proto /\
  len (app_accounts f) <= max_app_tx_accounts proto /\ len (app_foreign_apps f) <= max_app_tx_foreign_apps proto /\
  len (foreign_assets f) <= max_app_tx_foreign_assets proto /\
  len (app_accounts f) + len (app_foreign_apps f) + len (foreign_assets f) <= max_app_total_tx_references proto /\
  (* programs and schemas *)
  extra_program_pages f <= max_extra_app_program_pages proto /\
  len (approval_program f) <= pages proto f * max_app_program_len proto /\
  len (clear_state_program f) <= pages proto f * max_app_program_len proto /\
  len (approval_program f) + len (clear_state_program f) <= pages proto f * max_app_total_program_len proto /\
  num_uint (local_state_schema f) + num_byte_slice (local_state_schema f) <= max_local_schema_entries proto /\
  num_uint (global_state_schema f) + num_byte_slice (global_state_schema f) <= max_global_schema_entries proto.

Definition asset_config_ok (proto : params) (p : asset_parameters) : Prop :=
  len (asset_name p) <= max_asset_name_bytes proto /\ len (unit_name p) <= max_asset_unit_name_bytes proto /\
  len (url p) <= max_asset_url_bytes proto /\ decimals p <= max_asset_decimals proto.

(** A certificate comes from the reserved address and carries nothing else. *)
Definition cert_ok (reserved : bytes) (proto : params) (h : tx_header) : Prop :=
  compact_cert_rounds proto <> 0 /\ sender h = reserved /\ fee h = 0 /\ note h = [] /\
  unset (group h) /\ unset (rekey_to h) /\ unset (lease h).

Definition fields_ok (reserved : bytes) (spec : special_addresses) (proto : params) (t : transaction) : Prop :=
  match fields t with
  | Payment f => payment_ok spec (tx_head t) f
  | Keyreg f => keyreg_ok proto (tx_head t) f
  | AssetConfig f => asset proto = true /\ asset_config_ok proto (config_params f)
  | AssetTransfer _ | AssetFreeze _ => asset proto = true
  | AppCall f => app_call_ok proto f
  | CompactCert _ => cert_ok reserved proto (tx_head t)
  end.

(** The fee: more than the minimum (see C43), unless pooled or a certificate. *)
Definition fee_ok (proto : params) (t : transaction) : Prop :=
  enable_fee_pooling proto = true \/ (exists c, fields t = CompactCert c) \/ min_tx_fee proto < fee (tx_head t).
Definition validity_ok (proto : params) (h : tx_header) : Prop :=
  first_valid h <= last_valid h <= first_valid h + max_tx_life proto /\ len (note h) <= max_tx_note_bytes proto.
Definition features_ok (proto : params) (h : tx_header) : Prop :=
  (set (lease h) -> support_transaction_leases proto = true) /\
  (set (group h) -> support_tx_groups proto = true) /\
  (set (rekey_to h) -> support_rekeying proto = true).

(** Everything but the sender and the features. *)
Definition sound_body (reserved : bytes) (spec : special_addresses) (proto : params) (t : transaction) : Prop :=
  fields_ok reserved spec proto t /\ fee_ok proto t /\ validity_ok proto (tx_head t).
Definition well_formed (reserved : bytes) (spec : special_addresses) (proto : params) (t : transaction) : Prop :=
  sound_body reserved spec proto t /\
  sender (tx_head t) <> rewards_pool spec /\ set (sender (tx_head t)) /\ features_ok proto (tx_head t).

(** Limits for which the size arithmetic of the check cannot overflow. *)
Definition limits_fit (proto : params) : Prop :=
  (1 + max_extra_app_program_pages proto) * max_app_program_len proto < 2 ^ 32 /\
  (1 + max_extra_app_program_pages proto) * max_app_total_program_len proto < 2 ^ 32 /\
  1 + max_extra_app_program_pages proto < 2 ^ 32 /\ max_app_total_arg_len proto < 2 ^ 32 /\
  max_local_schema_entries proto < 2 ^ 64 - 1 /\ max_global_schema_entries proto < 2 ^ 64 - 1.

(** An online key registration valid up to the very last round number. *)
Definition keyreg_at_the_end (proto : params) (t : transaction) : Prop :=
  exists f, fields t = Keyreg f /\ enable_keyreg_coherency_check proto = true /\ sets_keys f /\ last_valid (tx_head t) = 2 ^ 64 - 1.

(** ** Groups *)
Definition fee_bearing (s : signed_tx) : bool := match fields (stx_tx s) with CompactCert _ => false | _ => true end.
Definition fees (g : list signed_tx) : N := fold_right (fun s n => fee (tx_head (stx_tx s)) + n) 0 g.
(** What the credit should be. *)
Definition credit (g : list signed_tx) (min_fee : N) : option N :=
  let needed := min_fee * len (filter fee_bearing g) in
  if fees g <? needed then None else Some (fees g - needed).

(** The addresses a transaction touches besides the fee sink. *)
Definition touches (t : transaction) (a : bytes) : Prop :=
  a = sender (tx_head t) \/
  match fields t with
  | Payment f => a = receiver f \/ close_remainder_to f = Some a
  | AssetTransfer f => a = asset_receiver f \/ (a = asset_close_to f /\ set a) \/ (a = asset_sender f /\ set a)
  | _ => False
  end.
