(** Independent descriptions for rounds, accounts, schemas and references. *)
From Verif Require Import Base BasicsModel.
Local Open Scope N_scope.

(** [m] is the least multiple of [r] that is at least [n]. *)
Definition least_multiple (n r m : N) : Prop :=
  (exists k, m = k * r) /\ n <= m /\ forall k, n <= k * r -> m <= k * r.

(** What an account earns up to [level]: whole units times the increase of the level. *)
Definition earned (proto : params) (a : account) (level : N) : N :=
  micro_algos a / reward_unit proto * (level - rewards_base a).
(** The account with [r] credited at [level], nothing else changed. *)
Definition credited (a : account) (r level : N) : account :=
  {| acc_status := acc_status a;
     micro_algos := micro_algos a + r;
     rewards_base := level;
     rewarded_micro_algos := (rewarded_micro_algos a + r) mod 2 ^ 64;
     vote_id := vote_id a; selection_id := selection_id a; vote_first_valid := vote_first_valid a;
     vote_last_valid := vote_last_valid a; vote_key_dilution := vote_key_dilution a;
     asset_params := asset_params a; assets := assets a; auth_addr := auth_addr a;
     app_local_states := app_local_states a; app_params := app_params a;
     total_app_schema := total_app_schema a; total_extra_app_pages := total_extra_app_pages a |}.
(** The account with its balance taken modulo 2^64, nothing else changed. *)
Definition wrapped (a : account) : account :=
  {| acc_status := acc_status a;
     micro_algos := micro_algos a mod 2 ^ 64;
     rewards_base := rewards_base a; rewarded_micro_algos := rewarded_micro_algos a;
     vote_id := vote_id a; selection_id := selection_id a; vote_first_valid := vote_first_valid a;
     vote_last_valid := vote_last_valid a; vote_key_dilution := vote_key_dilution a;
     asset_params := asset_params a; assets := assets a; auth_addr := auth_addr a;
     app_local_states := app_local_states a; app_params := app_params a;
     total_app_schema := total_app_schema a; total_extra_app_pages := total_extra_app_pages a |}.
(** Nothing overflows and the level does not go back. *)
Definition in_range (proto : params) (a : account) (level : N) : Prop :=
  reward_unit proto <> 0 /\ rewards_base a <= level /\ micro_algos a + earned proto a level < 2 ^ 64.

(** The uncapped charges. *)
Definition charges (proto : params) (a : account) : N :=
  let count {A} (l : list A) := N.of_nat (length l) in
  let s := total_app_schema a in
  ConsensusModel.min_balance proto * (1 + count (assets a)) +
  app_flat_params_min_balance proto * (count (app_params a) + total_extra_app_pages a) +
  app_flat_opt_in_min_balance proto * count (app_local_states a) +
  schema_min_balance_per_entry proto * (num_uint s + num_byte_slice s) +
  schema_uint_min_balance proto * num_uint s + schema_bytes_min_balance proto * num_byte_slice s.

(** [b] uses at least as much as [a]. *)
Definition uses_more (a b : account) : Prop :=
  (length (assets a) <= length (assets b))%nat /\ (length (app_params a) <= length (app_params b))%nat /\
  (length (app_local_states a) <= length (app_local_states b))%nat /\
  num_uint (total_app_schema a) <= num_uint (total_app_schema b) /\
  num_byte_slice (total_app_schema a) <= num_byte_slice (total_app_schema b) /\
  total_extra_app_pages a <= total_extra_app_pages b.

(** Numbers in an account fit 64 bits. *)
Definition account_ok (a : account) : Prop :=
  micro_algos a < two64 /\ rewards_base a < two64 /\ rewarded_micro_algos a < two64.
Definition schema_ok (s : schema) : Prop := num_uint s < two64 /\ num_byte_slice s < two64.

(** What a delta entry may be. *)
Definition entry_fits (proto : params) (key : bytes) (d : value_delta) : Prop :=
  N.of_nat (length key) <= max_app_key_len proto /\
  (action d = SetBytes ->
     N.of_nat (length (delta_bytes d)) <= max_app_bytes_value_len proto /\
     N.of_nat (length key) + N.of_nat (length (delta_bytes d)) <= max_app_sum_key_value_lens proto).

Definition count_type (t : teal_type) (kv : list (bytes * teal_value)) : N :=
  N.of_nat (length (filter (fun e => match ttype (snd e), t with TBytes, TBytes => true | TUint, TUint => true | _, _ => false end) kv)).
