(** Decoding of block headers and of the genesis: what the derived [Deserialize] implementations do with a
    message-pack value.  As in [TxDecodeModel]: [None] is a decoding error; [bins] says whether the
    reader gives message-pack bytes where a sequence is asked for; [valid_key] whether
    [ed25519_dalek::PublicKey::from_bytes] accepts the bytes.  Simplified: unit
    variants are read only from their names. *)
From Verif Require Import Base.
From Verif Require Export TxDecodeModel IdsModel.
From Verif Require SettingsModel.
Local Open Scope N_scope.
Notation "x <- a ;; b" := (match a with Some x => b | None => None end) (at level 60, a at next level, right associativity).

(** [HashMap<K, V>]: entries are inserted one after the other; as serde's implementation for std's maps does *)
Definition put {K A} (eqb : K -> K -> bool) (k : K) (a : A) (l : list (K * A)) : list (K * A) :=
  filter (fun e => negb (eqb (fst e) k)) l ++ [(k, a)].
(** serde for [HashMap]: all entries of a map in turn *)
Fixpoint get_entries {K A} (eqb : K -> K -> bool) (getk : value -> option K) (get : value -> option A) (l : list (value * value))
  (acc : list (K * A)) : option (list (K * A)) :=
  match l with
  | [] => Some acc
  | (k, v) :: r => k <- getk k ;; a <- get v ;; get_entries eqb getk get r (put eqb k a acc)
  end.
(** serde for [HashMap] *)
Definition get_map {K A} (eqb : K -> K -> bool) (getk : value -> option K) (get : value -> option A) (v : value) : option (list (K * A)) :=
  match v with VMap l => get_entries eqb getk get l [] | _ => None end.

Section Read.
Variables (valid_key : bytes -> bool) (bins : bool).

(** src/data/basics/address.rs:27-28, src/crypto/hashable.rs:17-20, src/data/committee/mod.rs:37-38: arrays of 32 numbers *)
Definition get_32 : value -> option bytes := get_fixed bins 32.
(** src/protocol/consensus.rs:15-125 *)
Definition get_version : value -> option version := get_variant (map (fun v => (variant_name v, v)) SettingsModel.all_versions).

(** ** Block headers *)

(** src/data/bookkeeping/block.rs:113-136 *)
Definition get_rewards (v : value) : option rewards_state :=
  match fields_of ["fee_sink"; "rewards_pool"; "rewards_level"; "rewards_rate"; "rewards_residue"; "rewards_recalculation_round"]%string v with
  | Some [a; b; c; d; e; f] =>
      a <- get_32 a ;; b <- get_32 b ;; c <- get_u64 c ;; d <- get_u64 d ;; e <- get_u64 e ;; f <- get_u64 f ;;
      Some (mkRewards a b c d e f)
  | _ => None
  end.
(** block.rs:139-149 *)
Definition get_vote (v : value) : option upgrade_vote :=
  match fields_of ["upgrade_propose"; "upgrade_delay"; "upgrade_approve"]%string v with Some [a; b; c] => a <- get_version a ;; b <- get_u64 b ;; c <- get_bool c ;; Some (mkVote a b c) | _ => None end.
(** block.rs:171-185 *)
Definition get_cert (v : value) : option cert_state :=
  match fields_of ["compactcert_voters"; "compactcert_voters_total"; "compactcert_next_round"]%string v with Some [a; b; c] => a <- get_32 a ;; b <- get_u64 b ;; c <- get_u64 c ;; Some (mkCertState a b c) | _ => None end.

(** block.rs:28-110; [upgrade_state] is skipped (97) and gets its default *)
Definition get_block_header (v : value) : option header :=
  match fields_of ["round"; "branch"; "seed"; "tx_root"; "timestamp"; "genesis_id"; "genesis_hash"; "rewards_state"; "upgrade_vote"; "tx_counter"; "compact_certs"]%string v with
  | Some [a; b; c; d; e; f; g; h; i; j; k] =>
      a <- get_u64 a ;; b <- get_32 b ;; c <- get_32 c ;; d <- get_32 d ;; e <- get_u64 e ;; f <- get_str f ;; g <- get_32 g ;;
      h <- get_rewards h ;; i <- get_vote i ;; j <- get_u64 j ;;
      k <- get_map (fun _ _ => true) (get_variant [(str "Basic", Basic)]) get_cert k ;;
      Some (mkHeader a b c d e f g h no_upgrade i j k)
  | _ => None
  end.
(** [protocol::decode::<BlockHeader>]; src/protocol/codec.rs:10-12 *)
Definition decode_block_header (s : bytes) : option header := v <- decode s ;; get_block_header v.

(** ** The genesis *)

(** src/data/basics/user_balance.rs:17-30 *)
Definition get_status : value -> option status := get_variant (map (fun s => (status_variant s, s)) [Offline; Online; NotParticipating]).
(** src/data/basics/teal.rs:166-190 *)
Definition get_teal (v : value) : option teal_value :=
  match fields_of ["teal_type"; "bytes"; "uint"]%string v with
  | Some [a; b; c] =>
      a <- get_variant [(teal_variant TBytes, TBytes); (teal_variant TUint, TUint)] a ;; b <- get_seq bins b ;; c <- get_u64 c ;; Some (mkTeal a b c)
  | _ => None
  end.
(** src/data/basics/teal.rs:236-238 *)
Definition get_teal_map : value -> option (list (bytes * teal_value)) := get_map bytes_eqb get_str get_teal.
(** src/data/basics/user_balance.rs:297-344 *)
Definition get_holding (v : value) : option holding :=
  match fields_of ["amount"; "frozen"]%string v with Some [a; b] => a <- get_u64 a ;; b <- get_bool b ;; Some (mkHolding a b) | _ => None end.
(** src/data/basics/user_balance.rs:304-344 *)
Definition get_params (v : value) : option asset_parameters :=
  match fields_of params_fields v with
  | Some [a; b; c; d; e; f; g; h; i; j; k] =>
      a <- get_u64 a ;; b <- get_u32 b ;; c <- get_bool c ;; d <- get_str d ;; e <- get_str e ;; f <- get_str f ;;
      g <- get_32 g ;; h <- get_32 h ;; i <- get_32 i ;; j <- get_32 j ;; k <- get_32 k ;;
      Some (mkAssetParams a b c d e f g h i j k)
  | _ => None
  end.
(** src/data/basics/user_balance.rs:197-219 *)
Definition get_app_local (v : value) : option app_local :=
  match fields_of ["schema"; "key_value"]%string v with Some [a; b] => a <- get_schema a ;; b <- get_teal_map b ;; Some (mkAppLocal a b) | _ => None end.
(** src/data/basics/user_balance.rs:215-219 *)
Definition get_schemas (v : value) : option (schema * schema) :=
  match fields_of ["local_state_schema"; "global_state_schema"]%string v with Some [a; b] => a <- get_schema a ;; b <- get_schema b ;; Some (a, b) | _ => None end.
(** src/data/basics/user_balance.rs:205-213 *)
Definition get_app_params (v : value) : option app_params :=
  match fields_of ["approval_program"; "clear_state_program"; "global_state"; "state_schemas"; "extra_program_pages"]%string v with
  | Some [a; b; c; d; e] =>
      a <- get_seq bins a ;; b <- get_seq bins b ;; c <- get_teal_map c ;; d <- get_schemas d ;; e <- get_u32 e ;;
      Some (mkAppParams a b c (fst d) (snd d) e)
  | _ => None
  end.
(** the maps from indices in src/data/basics/user_balance.rs:93-192 *)
Definition get_indexed {A} (get : value -> option A) : value -> option (list (N * A)) := get_map N.eqb get_u64 get.
(** src/data/basics/user_balance.rs:93-192 *)
Definition get_account_data (v : value) : option account_data :=
  match fields_of ["status"; "micro_algos"; "rewards_base"; "rewarded_micro_algos"; "vote_id"; "selection_id"; "vote_first_valid"; "vote_last_valid"; "vote_key_dilution"; "asset_params"; "assets"; "auth_addr"; "app_local_states"; "app_params"; "total_app_schema"; "total_extra_app_pages"]%string v with
  | Some [a; b; c; d; e; f; g; h; i; j; k; l; m; n; o; p] =>
      a <- get_status a ;; b <- get_u64 b ;; c <- get_u64 c ;; d <- get_u64 d ;; e <- get_key valid_key e ;; f <- get_32 f ;;
      g <- get_u64 g ;; h <- get_u64 h ;; i <- get_u64 i ;; j <- get_indexed get_params j ;; k <- get_indexed get_holding k ;;
      l <- get_32 l ;; m <- get_indexed get_app_local m ;; n <- get_indexed get_app_params n ;; o <- get_schema o ;; p <- get_u32 p ;;
      Some (mkAccountData a b c d e f g h i j k l m n o p)
  | _ => None
  end.
(** src/data/bookkeeping/genesis.rs:138-151 *)
Definition get_allocation (v : value) : option allocation :=
  match fields_of ["address"; "comment"; "state"]%string v with Some [a; b; c] => a <- get_str a ;; b <- get_str b ;; c <- get_account_data c ;; Some (mkAllocation a b c) | _ => None end.
(** src/data/bookkeeping/genesis.rs:27-65 *)
Definition get_genesis (v : value) : option genesis :=
  match fields_of ["schema_id"; "network"; "proto"; "allocation"; "rewards_pool"; "fee_sink"; "timestamp"; "comment"; "dev_mode"]%string v with
  | Some [a; b; c; d; e; f; g; h; i] =>
      a <- get_str a ;; b <- get_str b ;; c <- get_version c ;; d <- get_vec get_allocation d ;; e <- get_str e ;; f <- get_str f ;;
      g <- get_u64 g ;; h <- get_str h ;; i <- get_bool i ;; Some (mkGenesis a b c d e f g h i)
  | _ => None
  end.
(** src/data/bookkeeping/genesis.rs:122-129: a file that is missing or cannot be decoded is a panic *)
Definition load_genesis (file : option bytes) : outcome unit genesis :=
  match file with
  | None => Panic
  | Some s => match decode s with Some v => match get_genesis v with Some g => Ok g | None => Panic end | None => Panic end
  end.
End Read.
