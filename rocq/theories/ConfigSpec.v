(** What the built-in table and merging promise. *)
From Coq Require Export Relations.
From Verif Require Import Base ConsensusModel.
Local Open Scope N_scope.

(** [t] lists [w] among the upgrades of [v]. *)
Definition upgrade (t : list (version * params)) (v w : version) : Prop :=
  exists p delay, lookup v t = Some p /\ lookup w (approved_upgrades p) = Some delay.
Definition upgrades (t : list (version * params)) : version -> version -> Prop := clos_refl_trans _ (upgrade t).

(** Constraints other code relies on. *)
Record sane (p : params) : Prop := {
  sane_reward_unit : 0 < reward_unit p;
  sane_refresh : 0 < rewards_rate_refresh_interval p;
  sane_dilution : 0 < default_key_dilution p;
  sane_vote_rounds : 0 < upgrade_vote_rounds p;
  sane_threshold : 0 < upgrade_threshold p <= upgrade_vote_rounds p;
  sane_group : 0 < max_tx_group_size p;
  sane_timestamps : 0 < max_timestamp_increment p;
  sane_soft : 0 < soft_committee_threshold p <= soft_committee_size p;
  sane_cert : 0 < cert_committee_threshold p <= cert_committee_size p;
  sane_next : 0 < next_committee_threshold p <= next_committee_size p;
  sane_late : 0 < late_committee_threshold p <= late_committee_size p;
  sane_redo : 0 < redo_committee_threshold p <= redo_committee_size p;
  sane_down : 0 < down_committee_threshold p <= down_committee_size p;
  sane_commit : apply_data p = true \/ support_signed_tx_in_block p = true -> payset_commit p <> Unsupported;
  sane_require : require_genesis_hash p = true -> support_genesis_hash p = true
}.

(** Delays of approved upgrades lie in the window, and are zero where there is none. *)
Definition delays_fit (p : params) : Prop :=
  min_upgrade_wait_rounds p <= max_upgrade_wait_rounds p /\
  forall w delay, In (w, delay) (approved_upgrades p) ->
    if (min_upgrade_wait_rounds p =? 0) && (max_upgrade_wait_rounds p =? 0) then delay = 0
    else delay <> 0 /\ min_upgrade_wait_rounds p <= delay <= max_upgrade_wait_rounds p.

(** Numbers fit the types of their fields. *)
Definition fields64 (p : params) : list N :=
  [upgrade_vote_rounds p; upgrade_threshold p; default_upgrade_wait_rounds p; min_upgrade_wait_rounds p;
   max_upgrade_wait_rounds p; max_tx_life p; default_key_dilution p; ConsensusModel.min_balance p; min_tx_fee p;
   reward_unit p; rewards_rate_refresh_interval p; seed_lookback p; seed_refresh_interval p;
   max_bal_lookback p; num_proposers p; soft_committee_size p; cert_committee_size p;
   next_committee_size p; late_committee_size p; redo_committee_size p; down_committee_size p;
   max_timestamp_increment p; logic_sig_version p; logic_sig_max_size p; logic_sig_max_cost p;
   app_flat_params_min_balance p; app_flat_opt_in_min_balance p; schema_min_balance_per_entry p;
   schema_uint_min_balance p; schema_bytes_min_balance p; max_local_schema_entries p;
   max_global_schema_entries p; maximum_minimum_balance p; compact_cert_rounds p;
   compact_cert_top_voters p; compact_cert_voters_lookback p].
Definition fields32 (p : params) : list N :=
  [max_version_string_len p; max_tx_bytes_per_block p; max_tx_note_bytes p; max_assets_per_account p;
   max_asset_name_bytes p; max_asset_unit_name_bytes p; max_asset_url_bytes p; max_tx_group_size p;
   max_asset_decimals p; max_app_args p; max_app_total_arg_len p; max_app_program_len p;
   max_app_total_program_len p; max_extra_app_program_pages p; max_app_tx_accounts p;
   max_app_tx_foreign_apps p; max_app_tx_foreign_assets p; max_app_total_tx_references p;
   max_app_program_cost p; max_app_key_len p; max_app_bytes_value_len p; max_app_sum_key_value_lens p;
   max_inner_transactions p; max_apps_created p; max_apps_opted_in p; compact_cert_weight_threshold p;
   compact_cert_sec_kq p].
Definition fits (p : params) : Prop :=
  (forall n, In n (fields64 p) -> n < 2 ^ 64) /\ (forall n, In n (fields32 p) -> n < 2 ^ 32).

(** ** Merging *)

Definition deleted (conf : list (version * params)) (v : version) : Prop :=
  exists p, lookup v conf = Some p /\ approved_upgrades p = [].

(** [t] is [self] with [conf] applied: overridden versions, deleted versions, and the rest
    without upgrades to deleted versions. *)
Definition merged (self conf t : list (version * params)) : Prop :=
  forall v,
    match lookup v conf with
    | Some p => match approved_upgrades p with
                | [] => lookup v t = None
                | _ => lookup v t = Some p
                end
    | None =>
        match lookup v self with
        | None => lookup v t = None
        | Some p =>
            exists q, lookup v t = Some q /\
              set_approved_upgrades (approved_upgrades p) q = p /\
              forall w, lookup w (approved_upgrades q)
                = match lookup w conf with
                  | Some c => match approved_upgrades c with [] => None | _ => lookup w (approved_upgrades p) end
                  | None => lookup w (approved_upgrades p)
                  end
        end
    end.

(** No configured version has, in [self], an upgrade to a version to be deleted. *)
Definition independent (self conf : list (version * params)) : Prop :=
  forall v d p, lookup v self = Some p -> lookup v conf <> None -> deleted conf d -> v <> d ->
  lookup d (approved_upgrades p) = None.

(** A configured version that has, in [self], an upgrade to a version to be deleted is not
    deleted itself, and its new parameters have no such upgrade. *)
Definition untangled (self conf : list (version * params)) : Prop :=
  forall v d p c, lookup v self = Some p -> lookup v conf = Some c -> deleted conf d -> v <> d ->
  lookup d (approved_upgrades p) <> None ->
  approved_upgrades c <> [] /\ lookup d (approved_upgrades c) = None.

(** The entry of [a] comes before that of [b]. *)
Definition comes_before (conf : list (version * params)) (a b : version) : Prop :=
  exists l1 p l2 q l3, conf = l1 ++ (a, p) :: l2 ++ (b, q) :: l3.
