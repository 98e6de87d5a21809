(** Identifiers and hashes of signed transaction groups, block elements, the genesis and balance records. *)
From Verif Require Import Base.
From Verif Require Export BlockModel.
From Verif Require MerkleArrayModel.
Local Open Scope N_scope.

(** ** Transaction groups *)

(** src/data/transactions/transaction.rs:142-154: a list of hashes *)
Definition tx_group_value (hashes : list bytes) : value := VArr [VArr (map VBytes hashes)].
(** src/data/transactions/transaction.rs:150-154 *)
Definition tx_group_rep (hashes : list bytes) : bytes := hash_rep TX_GROUP (encode (tx_group_value hashes)).
(** src/data/signed_tx_group.rs:29-36: a list of signed transactions *)
Definition signed_txs_value (l : list signed_tx) : value := VArr (map signed_tx_value l).
(** src/data/signed_tx_group.rs:29-36 *)
Definition signed_txs_rep (l : list signed_tx) : bytes := hash_rep TX_GROUP (encode (signed_txs_value l)).
(** src/data/signed_tx_group.rs:38-43 *)
Definition signed_txs_id (H : bytes -> bytes) (l : list signed_tx) : bytes := H (signed_txs_rep l).

(** ** The transactions of a block as Merkle leaves *)

(** src/data/bookkeeping/tx_merkle.rs:16-19: transaction and in-block form *)
Definition merkle_elem : Type := transaction * signed_tx_in_block.
(** src/data/bookkeeping/tx_merkle.rs:21-36 *)
Fixpoint elems_of (table : list (version * params)) (h : header) (l : list signed_tx_in_block) : outcome invalid_block (list merkle_elem) :=
  match l with
  | [] => Ok []
  | s :: r => bind (decode_signed_tx table h s) (fun t => bind (elems_of table h r) (fun es => Ok ((stx_tx (fst t), s) :: es)))
  end.
(** src/data/bookkeeping/tx_merkle.rs:21-36 *)
Definition merkle_array (table : list (version * params)) (b : block) : outcome invalid_block (list merkle_elem) :=
  elems_of table (head b) (payset b).
(** src/data/bookkeeping/tx_merkle.rs:38-52 *)
Definition elem_rep (H : bytes -> bytes) (e : merkle_elem) : bytes :=
  hash_rep TX_MERKLE_LEAF (tx_id H (fst e) ++ H (stib_hash_rep (snd e))).
(** src/crypto/merklearray/merkle.rs:37-67; [None] is a panic *)
Definition tree_of_block (table : list (version * params)) (H : bytes -> bytes) (b : block) : option (list (list bytes)) :=
  match leaf_reps table H (head b) (payset b) with
  | None => None
  | Some ls => MerkleArrayModel.from_array H ls
  end.

(** ** The genesis *)

(** src/data/basics/user_balance.rs:298-301 *)
Record holding := mkHolding { held : N; frozen : bool }.
(** src/data/basics/user_balance.rs:198-202 *)
Record app_local := mkAppLocal { al_schema : schema; al_values : list (bytes * teal_value) }.
(** src/data/basics/user_balance.rs:204-219 *)
Record app_params := mkAppParams {
  ap_approval : bytes; ap_clear : bytes; ap_state : list (bytes * teal_value); ap_local : schema; ap_global : schema; ap_pages : N
}.
(** src/data/basics/user_balance.rs:93-192; maps as the lists of their entries, in the order of iteration *)
Record account_data := mkAccountData {
  ad_status : status; ad_algos : N; ad_rewards_base : N; ad_rewarded : N; ad_vote_id : bytes; ad_selection_id : bytes;
  ad_vote_first : N; ad_vote_last : N; ad_dilution : N;
  ad_asset_params : list (N * asset_parameters); ad_assets : list (N * holding); ad_auth : bytes;
  ad_locals : list (N * app_local); ad_apps : list (N * app_params); ad_schema : schema; ad_pages : N
}.
(** src/data/bookkeeping/genesis.rs:138-151 *)
Record allocation := mkAllocation { alloc_address : bytes; alloc_comment : bytes; alloc_state : account_data }.
(** src/data/bookkeeping/genesis.rs:27-65 *)
Record genesis := mkGenesis {
  schema_id : bytes; network : bytes; proto : version; allocations : list allocation; g_rewards_pool : bytes; g_fee_sink : bytes;
  g_timestamp : N; g_comment : bytes; dev_mode : bool
}.

(** The names of the variants, src/data/basics/user_balance.rs:17-30 *)
Definition status_variant (s : status) : bytes :=
  match s with Offline => str "Offline" | Online => str "Online" | NotParticipating => str "NotParticipating" end.
(** src/data/basics/teal.rs:166-172 *)
Definition teal_variant (t : teal_type) : bytes := match t with TBytes => str "Bytes" | TUint => str "Uint" end.
(** src/data/basics/teal.rs:184-190 *)
Definition teal_value_value (v : teal_value) : value :=
  VArr [VStr (teal_variant (ttype v)); VBytes (teal_bytes v); VNum (teal_uint v)].
(** src/data/basics/teal.rs:236-238 *)
Definition teal_map_value (l : list (bytes * teal_value)) : value := VMap (map (fun e => (VStr (fst e), teal_value_value (snd e))) l).
(** src/data/basics/user_balance.rs:297-301 *)
Definition holding_value (h : holding) : value := VArr [VNum (held h); VBool (frozen h)].
(** src/data/basics/user_balance.rs:198-202 *)
Definition app_local_value (a : app_local) : value := VArr [schema_value (al_schema a); teal_map_value (al_values a)].
(** src/data/basics/user_balance.rs:204-219 *)
Definition app_params_value (a : app_params) : value :=
  VArr [VBytes (ap_approval a); VBytes (ap_clear a); teal_map_value (ap_state a);
        VArr [schema_value (ap_local a); schema_value (ap_global a)]; VNum (ap_pages a)].
(** a map from indices, as in src/data/basics/user_balance.rs:93-192 *)
Definition indexed {A} (f : A -> value) (l : list (N * A)) : value := VMap (map (fun e => (VNum (fst e), f (snd e))) l).
(** src/data/basics/user_balance.rs:93-192 *)
Definition account_data_value (a : account_data) : value :=
  VArr [VStr (status_variant (ad_status a)); VNum (ad_algos a); VNum (ad_rewards_base a); VNum (ad_rewarded a);
        VBin (ad_vote_id a); VBytes (ad_selection_id a); VNum (ad_vote_first a); VNum (ad_vote_last a); VNum (ad_dilution a);
        indexed asset_params_value (ad_asset_params a); indexed holding_value (ad_assets a); VBin (ad_auth a);
        indexed app_local_value (ad_locals a); indexed app_params_value (ad_apps a); schema_value (ad_schema a); VNum (ad_pages a)].
(** src/data/bookkeeping/genesis.rs:138-151 *)
Definition allocation_value (a : allocation) : value :=
  VArr [VStr (alloc_address a); VStr (alloc_comment a); account_data_value (alloc_state a)].
(** src/data/bookkeeping/genesis.rs:27-65 *)
Definition genesis_value (g : genesis) : value :=
  VArr [VStr (schema_id g); VStr (network g); VStr (variant_name (proto g)); VArr (map allocation_value (allocations g));
        VStr (g_rewards_pool g); VStr (g_fee_sink g); VNum (g_timestamp g); VStr (g_comment g); VBool (dev_mode g)].
(** src/data/bookkeeping/genesis.rs:153-157 *)
Definition genesis_rep (g : genesis) : bytes := hash_rep GENESIS (encode (genesis_value g)).
(** the hash of src/crypto/hashable.rs of src/data/bookkeeping/genesis.rs:153-157 *)
Definition genesis_hash_of (H : bytes -> bytes) (g : genesis) : bytes := H (genesis_rep g).
(** src/data/bookkeeping/genesis.rs:131-135 *)
Definition genesis_id_of (g : genesis) : bytes := network g ++ str "-" ++ schema_id g.

(** ** Balance records *)

(** src/data/basics/user_balance.rs:540-552: the data hashed is empty *)
Definition balance_record_rep (addr : bytes) (a : account_data) : bytes := hash_rep BALANCE_RECORD [].
