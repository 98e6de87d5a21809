(** Vocabulary for C118 and C119. *)
From Verif Require Import Base GenDecodeModel TxCodecSpec TxDecodeSpec IdsSpec.
Local Open Scope N_scope.

(** A block header as it exists in memory: hashes and addresses of 32 bytes, UTF-8 strings, one entry per
    kind of certificate; and small enough to be encoded. *)
Definition header_in_memory (h : header) : Prop :=
  wf (header_value h) /\
  n64 (round h) /\ h32 (branch h) /\ h32 (seed h) /\ h32 (tx_root h) /\ n64 (timestamp h) /\ is_utf8 (genesis_id h) /\
  h32 (genesis_hash h) /\
  (let r := rewards h in h32 (rs_fee_sink r) /\ h32 (rs_rewards_pool r) /\ n64 (level r) /\ n64 (rate r) /\ n64 (residue r) /\ n64 (recalculation_round r)) /\
  n64 (delay (vote h)) /\ n64 (tx_counter h) /\
  NoDup (map fst (compact_certs h)) /\
  Forall (fun e => h32 (voters (snd e)) /\ n64 (voters_total (snd e)) /\ n64 (cert_next_round (snd e))) (compact_certs h).
(** The header but for its upgrade state, which is as in a header made by default. *)
Definition forget_upgrade (h : header) : header :=
  mkHeader (round h) (branch h) (seed h) (tx_root h) (timestamp h) (genesis_id h) (genesis_hash h) (rewards h)
    (mkUpgrade CURRENT_CONSENSUS_VERSION None 0 0 0) (vote h) (tx_counter h) (compact_certs h).

(** A genesis as it exists in memory. *)
Definition n32 (n : N) : Prop := n < 2 ^ 32.
Definition teal_map_in_memory (l : list (bytes * teal_value)) : Prop :=
  NoDup (map fst l) /\ Forall (fun e => is_utf8 (fst e) /\ n64 (teal_uint (snd e))) l.
Definition indexed_in_memory {A} (P : A -> Prop) (l : list (N * A)) : Prop :=
  NoDup (map fst l) /\ Forall (fun e => n64 (fst e) /\ P (snd e)) l.
Definition params_in_memory (p : asset_parameters) : Prop :=
  n64 (total p) /\ n32 (decimals p) /\ is_utf8 (unit_name p) /\ is_utf8 (asset_name p) /\ is_utf8 (url p) /\
  h32 (metadata_hash p) /\ h32 (manager p) /\ h32 (reserve p) /\ h32 (freeze p) /\ h32 (clawback p).
Definition account_in_memory (valid_key : bytes -> bool) (a : account_data) : Prop :=
  n64 (ad_algos a) /\ n64 (ad_rewards_base a) /\ n64 (ad_rewarded a) /\ valid_key (ad_vote_id a) = true /\ h32 (ad_selection_id a) /\
  n64 (ad_vote_first a) /\ n64 (ad_vote_last a) /\ n64 (ad_dilution a) /\
  indexed_in_memory params_in_memory (ad_asset_params a) /\ indexed_in_memory (fun h => n64 (held h)) (ad_assets a) /\ h32 (ad_auth a) /\
  indexed_in_memory (fun x => schema_fits (al_schema x) /\ teal_map_in_memory (al_values x)) (ad_locals a) /\
  indexed_in_memory (fun x => teal_map_in_memory (ap_state x) /\ schema_fits (ap_local x) /\ schema_fits (ap_global x) /\ n32 (ap_pages x)) (ad_apps a) /\
  schema_fits (ad_schema a) /\ n32 (ad_pages a).
Definition genesis_typed (valid_key : bytes -> bool) (g : genesis) : Prop :=
  is_utf8 (schema_id g) /\ is_utf8 (network g) /\ is_utf8 (g_rewards_pool g) /\ is_utf8 (g_fee_sink g) /\ n64 (g_timestamp g) /\ is_utf8 (g_comment g) /\
  Forall (fun a => is_utf8 (alloc_address a) /\ is_utf8 (alloc_comment a) /\ account_in_memory valid_key (alloc_state a)) (allocations g).
Definition genesis_in_memory (valid_key : bytes -> bool) (g : genesis) : Prop := wf (genesis_value g) /\ genesis_typed valid_key g.
