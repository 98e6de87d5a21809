(** Rounds, amounts, accounts, state schemas and deltas, references of application calls. *)
From Verif Require Import Base.
From Verif Require Export ConsensusModel.
Local Open Scope N_scope.

(** ** src/data/basics/units.rs; a round or an amount is its number, [None] is a panic *)

(** src/data/basics/units.rs:38-40 *)
Definition reward_units (proto : params) (algos : N) : option N := div64 algos (reward_unit proto).
(** src/data/basics/units.rs:73-78: batch and offset *)
Definition ots_id (round key_dilution : N) : option (N * N) :=
  match div64 round key_dilution, rem64 round key_dilution with
  | Some batch, Some offset => Some (batch, offset)
  | _, _ => None
  end.
(** src/data/basics/units.rs:82-87 *)
Definition sub_capped (self r : N) : N := if r <? self then self - r else 0.
(** src/data/basics/units.rs:90-92 *)
Definition round_up_to_multiple_of (m : mode) (self r : N) : option N :=
  match add64 m self r with
  | None => None
  | Some a =>
      match sub64 m a 1 with
      | None => None
      | Some b => match div64 b r with None => None | Some q => mul64 m q r end
      end
  end.

(** ** src/data/basics/teal.rs *)

(** src/data/basics/teal.rs:14-32 *)
Inductive delta_action := SetBytes | SetUint | Delete.
(** src/data/basics/teal.rs:26-32 *)
Record value_delta := mkDelta { action : delta_action; delta_bytes : bytes; delta_uint : N }.
(** src/data/basics/teal.rs:166-190 *)
Inductive teal_type := TBytes | TUint.
(** src/data/basics/teal.rs:183-190 *)
Record teal_value := mkTeal { ttype : teal_type; teal_bytes : bytes; teal_uint : N }.
(** src/data/basics/teal.rs:193-207 *)
Definition new_bytes (b : bytes) : teal_value := mkTeal TBytes b 0.
(** src/data/basics/teal.rs:201-207 *)
Definition new_uint (n : N) : teal_value := mkTeal TUint [] n.
(** src/data/basics/teal.rs:36-42 *)
Definition to_teal_value (d : value_delta) : option teal_value :=
  match action d with
  | SetBytes => Some (new_bytes (delta_bytes d))
  | SetUint => Some (new_uint (delta_uint d))
  | Delete => None
  end.
(** src/data/basics/teal.rs:210-223 *)
Definition to_value_delta (v : teal_value) : value_delta :=
  match ttype v with
  | TUint => mkDelta SetUint [] (teal_uint v)
  | TBytes => mkDelta SetBytes (teal_bytes v) 0
  end.

(** src/data/basics/teal.rs:84-103, the loop body *)
Definition entry_is_valid (proto : params) (key : bytes) (d : value_delta) : bool :=
  if max_app_key_len proto <? N.of_nat (length key) then false
  else
    match action d with
    | SetBytes =>
        if max_app_bytes_value_len proto <? N.of_nat (length (delta_bytes d)) then false
        else if max_app_sum_key_value_lens proto <? N.of_nat (length key + length (delta_bytes d)) then false
        else true
    | SetUint => true
    | Delete => true
    end.
(** src/data/basics/teal.rs:79-105; the map as the list of its entries *)
Definition delta_is_valid (proto : params) (sd : list (bytes * value_delta)) : bool :=
  if negb (match sd with [] => true | _ => false end) && (max_app_key_len proto =? 0) then false
  else forallb (fun e => entry_is_valid proto (fst e) (snd e)) sd.

(** src/data/basics/teal.rs:110-113 *)
Record schema := mkSchema { num_uint : N; num_byte_slice : N }.
(** src/data/basics/teal.rs:117-122 *)
Definition add_schema (a b : schema) : schema :=
  mkSchema (sat_add (num_uint a) (num_uint b)) (sat_add (num_byte_slice a) (num_byte_slice b)).
(** src/data/basics/teal.rs:125-130 *)
Definition sub_schema (a b : schema) : schema :=
  mkSchema (sat_sub (num_uint a) (num_uint b)) (sat_sub (num_byte_slice a) (num_byte_slice b)).
(** src/data/basics/teal.rs:133-137 *)
Definition num_entries (a : schema) : N := sat_add (sat_add 0 (num_uint a)) (num_byte_slice a).
(** src/data/basics/teal.rs:140-161 *)
Definition schema_min_balance (proto : params) (a : schema) : N :=
  let flat_cost := sat_mul (schema_min_balance_per_entry proto) (num_entries a) in
  let uint_cost := sat_mul (schema_uint_min_balance proto) (num_uint a) in
  let bytes_cost := sat_mul (schema_bytes_min_balance proto) (num_byte_slice a) in
  sat_add (sat_add (sat_add 0 flat_cost) uint_cost) bytes_cost.
(** src/data/basics/teal.rs:242-251; a map cannot hold 2^64 entries, so the increments are
    plain additions *)
Definition to_state_schema (kv : list (bytes * teal_value)) : schema :=
  fold_left (fun s e => match ttype (snd e) with
                        | TBytes => mkSchema (num_uint s) (num_byte_slice s + 1)
                        | TUint => mkSchema (num_uint s + 1) (num_byte_slice s)
                        end) kv (mkSchema 0 0).

(** ** src/data/basics/user_balance.rs *)

(** src/data/basics/user_balance.rs:17-30 *)
Inductive status := Offline | Online | NotParticipating.
(** src/data/basics/user_balance.rs:65-73 *)
Definition status_to_string (s : status) : bytes :=
  match s with
  | Offline => str "Offline"
  | Online => str "Online"
  | NotParticipating => str "Not Participating"
  end.
(** src/data/basics/user_balance.rs:76-87 *)
Definition status_from_str (s : bytes) : option status :=
  if bytes_eqb s (str "Offline") then Some Offline
  else if bytes_eqb s (str "Online") then Some Online
  else if bytes_eqb s (str "Not Participating") then Some NotParticipating
  else None.

(** src/data/basics/user_balance.rs:94-190.  Maps are given by their keys: no function below
    reads the values. *)
Record account := mkAccount {
  acc_status : status;
  micro_algos : N;
  rewards_base : N;
  rewarded_micro_algos : N;
  vote_id : bytes;
  selection_id : bytes;
  vote_first_valid : N;
  vote_last_valid : N;
  vote_key_dilution : N;
  asset_params : list N;
  assets : list N;
  auth_addr : bytes;
  app_local_states : list N;
  app_params : list N;
  total_app_schema : schema;
  total_extra_app_pages : N
}.
(** helper: the three fields changed at src/data/basics/user_balance.rs:404-408 *)
Definition set_rewards (a : account) (algos base rewarded : N) : account :=
  mkAccount (acc_status a) algos base rewarded (vote_id a) (selection_id a) (vote_first_valid a)
    (vote_last_valid a) (vote_key_dilution a) (asset_params a) (assets a) (auth_addr a)
    (app_local_states a) (app_params a) (total_app_schema a) (total_extra_app_pages a).

(** src/data/basics/user_balance.rs:380-390 *)
Definition pending_rewards (m : mode) (proto : params) (algos base level : N) : option N :=
  match reward_units proto algos with
  | None => None
  | Some units => match sub64 m level base with None => None | Some delta => mul64 m units delta end
  end.
(** src/data/basics/user_balance.rs:394-412 *)
Definition with_updated_rewards (m : mode) (proto : params) (a : account) (level : N) : option account :=
  match acc_status a with
  | NotParticipating => Some a
  | _ =>
      match reward_units proto (micro_algos a) with
      | None => None
      | Some units =>
          match sub64 m level (rewards_base a) with
          | None => None
          | Some delta =>
              match mul64 m units delta with
              | None => None
              | Some rewards =>
                  match add64 m (micro_algos a) rewards with
                  | None => None
                  | Some algos =>
                      Some (set_rewards a algos level ((rewarded_micro_algos a + rewards) mod two64))
                  end
              end
          end
      end
  end.
(** src/data/basics/user_balance.rs:369-376 *)
Definition money (m : mode) (proto : params) (a : account) (level : N) : option (N * N) :=
  match with_updated_rewards m proto a level with
  | None => None
  | Some e => Some (micro_algos e, rewarded_micro_algos e)
  end.
(** src/data/basics/user_balance.rs:416-448 *)
Definition account_min_balance (proto : params) (a : account) : N :=
  let min0 := ConsensusModel.min_balance proto in
  let asset_cost := sat_mul (ConsensusModel.min_balance proto) (N.of_nat (length (assets a))) in
  let min1 := sat_add min0 asset_cost in
  let app_creation_cost := sat_mul (app_flat_params_min_balance proto) (N.of_nat (length (app_params a))) in
  let min2 := sat_add min1 app_creation_cost in
  let app_opt_in_cost := sat_mul (app_flat_opt_in_min_balance proto) (N.of_nat (length (app_local_states a))) in
  let min3 := sat_add min2 app_opt_in_cost in
  let schema_cost := schema_min_balance proto (total_app_schema a) in
  let min4 := sat_add min3 schema_cost in
  let extra_cost := sat_mul (app_flat_params_min_balance proto) (total_extra_app_pages a) in
  sat_add min4 extra_cost.
(** src/data/basics/user_balance.rs:453-458 *)
Definition voting_stake (a : account) : N := match acc_status a with Online => micro_algos a | _ => 0 end.
(** src/data/basics/user_balance.rs:461-466 *)
Definition key_dilution (proto : params) (a : account) : N :=
  if vote_key_dilution a =? 0 then default_key_dilution proto else vote_key_dilution a.
(** src/data/basics/user_balance.rs:493-536 *)
Definition normalized_online_balance (m : mode) (proto : params) (a : account) : option N :=
  match acc_status a with
  | Online =>
      match add64 m (rewards_base a) (reward_unit proto) with
      | None => None
      | Some per_reward_unit =>
          if micro_algos a * reward_unit proto <? two64 then
            if per_reward_unit =? 0 then None
            else Some (micro_algos a * reward_unit proto / per_reward_unit)
          else None
      end
  | _ => Some 0
  end.

(** ** src/data/transactions/application.rs: references *)
Section References.
Context {A : Type} (eqb : A -> A -> bool).
(** Rust's [Iterator::position] *)
Fixpoint position (t : A) (l : list A) : option nat :=
  match l with
  | [] => None
  | x :: r => if eqb x t then Some O else option_map S (position t r)
  end.
(** src/data/transactions/application.rs:168-183 and 209-220: one text for accounts with the
    sender and for applications with the called one; [None] is [Err(())] *)
Definition by_index (self : A) (list : list A) (index : N) : option A :=
  if index =? 0 then Some self
  else if N.of_nat (length list) <? index then None
  else nth_error list (N.to_nat index - 1).
(** src/data/transactions/application.rs:188-204 and 225-237 *)
Definition index_of (self : A) (list : list A) (target : A) : option N :=
  if eqb target self then Some 0
  else match position target list with
       | Some i => Some (N.of_nat i + 1)
       | None => None
       end.
End References.

(** the fields of src/data/transactions/application.rs:26-80 that the next four functions read *)
Record app_refs := mkRefs { application_id : N; accounts : list bytes; foreign_apps : list N }.
(** src/data/transactions/application.rs:168-183 *)
Definition address_by_index (c : app_refs) (account_idx : N) (sender : bytes) : option bytes :=
  by_index sender (accounts c) account_idx.
(** src/data/transactions/application.rs:188-204 *)
Definition index_by_address (c : app_refs) (target sender : bytes) : option N :=
  index_of bytes_eqb sender (accounts c) target.
(** src/data/transactions/application.rs:209-220 *)
Definition app_id_by_index (c : app_refs) (index : N) : option N :=
  by_index (application_id c) (foreign_apps c) index.
(** src/data/transactions/application.rs:225-237 *)
Definition index_by_app_id (c : app_refs) (app_id : N) : option N :=
  index_of N.eqb (application_id c) (foreign_apps c) app_id.
