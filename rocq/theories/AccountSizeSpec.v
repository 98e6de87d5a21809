(** Vocabulary for C166 and C168. *)
From Verif Require Import Base MsgpackModel ConsensusModel BasicsModel TxModel IdsModel AccountSizeModel.
Local Open Scope N_scope.

Definition upto {A} (n : N) (l : list A) : Prop := N.of_nat (length l) <= n.

(** An entry of the state of an application, as the virtual machine makes them, within the limits of the protocol. *)
Definition entry_within (p : params) (e : bytes * teal_value) : Prop :=
  upto (max_app_key_len p) (fst e) /\
  match ttype (snd e) with
  | TBytes => upto (max_app_bytes_value_len p) (teal_bytes (snd e)) /\
              upto (max_app_sum_key_value_lens p) (fst e ++ teal_bytes (snd e)) /\ teal_uint (snd e) = 0
  | TUint => teal_bytes (snd e) = []
  end.
Definition state_within (p : params) (n : N) (l : list (bytes * teal_value)) : Prop := upto n l /\ Forall (entry_within p) l.
(** An asset within the limits of the protocol. *)
Definition asset_within (p : params) (a : asset_parameters) : Prop :=
  decimals a <= max_asset_decimals p /\ upto (max_asset_unit_name_bytes p) (unit_name a) /\
  upto (max_asset_name_bytes p) (asset_name a) /\ upto (max_asset_url_bytes p) (url a).
(** An application within the limits of the protocol. *)
Definition app_within (p : params) (a : app_params) : Prop :=
  ap_pages a <= max_extra_app_program_pages p /\
  upto ((1 + ap_pages a) * max_app_program_len p) (ap_approval a) /\ upto ((1 + ap_pages a) * max_app_program_len p) (ap_clear a) /\
  upto ((1 + ap_pages a) * max_app_total_program_len p) (ap_approval a ++ ap_clear a) /\
  state_within p (max_global_schema_entries p) (ap_state a).
(** An account that holds, created and opted in to no more than the protocol allows. *)
Definition account_within (p : params) (a : account_data) : Prop :=
  upto (max_assets_per_account p) (ad_asset_params a) /\ upto (max_assets_per_account p) (ad_assets a) /\
  upto (max_apps_opted_in p) (ad_locals a) /\ upto (max_apps_created p) (ad_apps a) /\
  Forall (fun e => asset_within p (snd e)) (ad_asset_params a) /\
  Forall (fun e => state_within p (max_local_schema_entries p) (al_values (snd e))) (ad_locals a) /\
  Forall (fun e => app_within p (snd e)) (ad_apps a).

(** The sum of numbers taken from the entries of a map. *)
Definition sum_of {A} (f : A -> N) (l : list (N * A)) : N := fold_right (fun e n => f (snd e) + n) 0 l.
(** How many entries of a state are numbers, and how many are byte strings. *)
Definition is_uint (e : bytes * teal_value) : bool := match ttype (snd e) with TUint => true | TBytes => false end.
Definition keeps_schema (s : schema) (l : list (bytes * teal_value)) : Prop :=
  upto (num_uint s) (filter is_uint l) /\ upto (num_byte_slice s) (filter (fun e => negb (is_uint e)) l).
(** The books of the account are kept as documented: created assets are also held, states keep to their schemas,
    and schemas and additional pages are added up. *)
Definition books_kept (a : account_data) : Prop :=
  incl (map fst (ad_asset_params a)) (map fst (ad_assets a)) /\
  Forall (fun e => keeps_schema (al_schema (snd e)) (al_values (snd e))) (ad_locals a) /\
  Forall (fun e => keeps_schema (ap_global (snd e)) (ap_state (snd e))) (ad_apps a) /\
  num_uint (ad_schema a) = sum_of (fun x => num_uint (al_schema x)) (ad_locals a) + sum_of (fun x => num_uint (ap_global x)) (ad_apps a) /\
  num_byte_slice (ad_schema a) =
    sum_of (fun x => num_byte_slice (al_schema x)) (ad_locals a) + sum_of (fun x => num_byte_slice (ap_global x)) (ad_apps a) /\
  ad_pages a = sum_of ap_pages (ad_apps a).
(** Its minimum balance is not more than the protocol allows, if it limits minimum balances at all. *)
Definition affordable (p : params) (a : account_data) : Prop :=
  maximum_minimum_balance p = 0 \/ account_min_balance p (as_account a) <= maximum_minimum_balance p.

(** The number of bytes that address and account take when serialized. *)
Definition stored_account (addr : bytes) (a : account_data) : N := N.of_nat (length (encode (balance_record_value addr a))).
