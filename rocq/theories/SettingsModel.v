(** The node's settings, the phonebook and the configurable protocols: src/config. *)
From Verif Require Import Base KeyfileModel JsonModel FilesModel.
From Verif Require Export ConsensusModel ConfigModel.
Local Open Scope N_scope.

(** ** Derived [Serialize] and [Deserialize] *)

(** Types and values of the fields of the structures in the configuration files.
    src/config/mod.rs:72-456 and src/config/consensus.rs:18-381 *)
Inductive ftype := TBool | TU32 | TU64 | TI32 | TI64 | TStr | TDur | TFlags | TUpgrades | TCommit.
(** Durations are in nanoseconds, [HashMap]s are association lists.
    src/config/mod.rs:72-456 and src/config/consensus.rs:18-381 *)
Inductive fval :=
| FBool (b : bool)
| FInt (z : Z)
| FStr (s : bytes)
| FDur (nanos : N)
| FFlags (m : list (bytes * bool))
| FUpgrades (m : list (version * N))
| FCommit (c : payset_commit_type).
(** unsigned integers as field values; src/config/mod.rs:72-456 and src/config/consensus.rs:18-381 *)
Definition FNum (n : N) : fval := FInt (Z.of_N n).

(** [HashMap::get]; std, for src/config/mod.rs:72-456 and src/config/consensus.rs:18-381 *)
Fixpoint assoc {A} (k : bytes) (m : list (bytes * A)) : option A :=
  match m with
  | [] => None
  | (k', a) :: r => if bytes_eqb k k' then Some a else assoc k r
  end.
(** [HashMap::insert]; std, for src/config/mod.rs:72-456 and src/config/consensus.rs:18-381 *)
Fixpoint put {A} (k : bytes) (a : A) (m : list (bytes * A)) : list (bytes * A) :=
  match m with
  | [] => [(k, a)]
  | (k', a') :: r => if bytes_eqb k k' then (k, a) :: r else (k', a') :: put k a r
  end.

(** The derived [visit_map]: the entries in the order of the text, an unknown name is skipped
    (refused where [deny]), a repeated one is refused; then every field must be there.
    serde_derive, for src/config/mod.rs:72-456 and src/config/consensus.rs:18-381 *)
Fixpoint visit_entries {T V} (dec : T -> json -> option V) (deny : bool) (table : list (bytes * T))
    (m : list (bytes * json)) (acc : list (bytes * V)) : option (list (bytes * V)) :=
  match m with
  | [] => Some acc
  | (k, v) :: r =>
      match assoc k table with
      | None => if deny then None else visit_entries dec deny table r acc
      | Some t =>
          match assoc k acc, dec t v with
          | None, Some x => visit_entries dec deny table r ((k, x) :: acc)
          | _, _ => None
          end
      end
  end.
(** all the fields, in the order of the declaration; serde_derive, for src/config/mod.rs:72-456 and src/config/consensus.rs:18-381 *)
Fixpoint collect {T V} (table : list (bytes * T)) (acc : list (bytes * V)) : option (list (bytes * V)) :=
  match table with
  | [] => Some []
  | (n, _) :: r =>
      match assoc n acc, collect r acc with
      | Some x, Some l => Some ((n, x) :: l)
      | _, _ => None
      end
  end.
(** The derived [visit_seq]: all fields in order, and nothing more;
    serde_derive, for src/config/mod.rs:72-456 and src/config/consensus.rs:18-381 *)
Fixpoint visit_seq {T V} (dec : T -> json -> option V) (table : list (bytes * T)) (l : list json) : option (list (bytes * V)) :=
  match table, l with
  | [], [] => Some []
  | (n, t) :: r, v :: l' =>
      match dec t v, visit_seq dec r l' with
      | Some x, Some o => Some ((n, x) :: o)
      | _, _ => None
      end
  | _, _ => None
  end.
(** [Deserializer::deserialize_struct]: an object or an array;
    serde_json, for src/config/mod.rs:72-456 and src/config/consensus.rs:18-381 *)
Definition decode_struct {T V} (dec : T -> json -> option V) (deny : bool) (table : list (bytes * T)) (v : json) : option (list (bytes * V)) :=
  match v with
  | JObj m => match visit_entries dec deny table m [] with Some acc => collect table acc | None => None end
  | JArr l => visit_seq dec table l
  | _ => None
  end.

(** integers of a range; serde, for src/config/mod.rs:72-456 and src/config/consensus.rs:18-381 *)
Definition int_between (lo hi : Z) (v : json) : option Z :=
  match v with JInt z => if (lo <=? z)%Z && (z <=? hi)%Z then Some z else None | _ => None end.
(** nanoseconds in a second, for [Duration]; src/config/mod.rs:91 *)
Definition billion : N := 1000000000.
(** [Duration] as [serde] reads it: [secs] and [nanos], no other names *)
Definition decode_duration (v : json) : option N :=
  match decode_struct (fun hi j => int_between 0 hi j) true [(str "secs", (2 ^ 64 - 1)%Z); (str "nanos", (2 ^ 32 - 1)%Z)] v with
  | Some [(_, s); (_, n)] =>
      let secs := Z.to_N s in let nanos := Z.to_N n in
      if secs + nanos / billion <? two64 then Some (secs * billion + nanos) else None
  | _ => None
  end.
(** [Duration] as serde writes it; src/config/mod.rs:91 *)
Definition encode_duration (n : N) : json :=
  JObj [(str "secs", JInt (Z.of_N (n / billion))); (str "nanos", JInt (Z.of_N (n mod billion)))].

(** The names of the variants of [ConsensusVersion] and [PaysetCommitType].
    src/protocol/consensus.rs:12-123, src/config/consensus.rs:358-368 *)
Definition all_versions : list version :=
  [DeprecatedV0; DeprecatedV1; DeprecatedV2; DeprecatedV3; DeprecatedV4; DeprecatedV5; DeprecatedV6;
   V7; V8; V9; V10; V11; V12; V13; V14; V15; V16; V17; V18; V19; V20; V21; V22; V23; V24; V25; V26; V27; V28; V29; V30; Future].
(** src/protocol/consensus.rs:12-123, names of the variants *)
Definition version_name (v : version) : bytes :=
  match v with
  | DeprecatedV0 => str "DeprecatedV0" | DeprecatedV1 => str "DeprecatedV1" | DeprecatedV2 => str "DeprecatedV2"
  | DeprecatedV3 => str "DeprecatedV3" | DeprecatedV4 => str "DeprecatedV4" | DeprecatedV5 => str "DeprecatedV5"
  | DeprecatedV6 => str "DeprecatedV6" | V7 => str "V7" | V8 => str "V8" | V9 => str "V9" | V10 => str "V10"
  | V11 => str "V11" | V12 => str "V12" | V13 => str "V13" | V14 => str "V14" | V15 => str "V15" | V16 => str "V16"
  | V17 => str "V17" | V18 => str "V18" | V19 => str "V19" | V20 => str "V20" | V21 => str "V21" | V22 => str "V22"
  | V23 => str "V23" | V24 => str "V24" | V25 => str "V25" | V26 => str "V26" | V27 => str "V27" | V28 => str "V28"
  | V29 => str "V29" | V30 => str "V30" | Future => str "Future"
  end.
(** src/protocol/consensus.rs:12-123, derived [Deserialize] *)
Definition version_of_name (n : bytes) : option version := find (fun v => bytes_eqb (version_name v) n) all_versions.
(** src/config/consensus.rs:358-368, names of the variants *)
Definition commit_name (c : payset_commit_type) : bytes :=
  match c with Unsupported => str "Unsupported" | Flat => str "Flat" | Merkle => str "Merkle" end.
(** src/config/consensus.rs:358-368, derived [Deserialize] *)
Definition commit_of_name (n : bytes) : option payset_commit_type :=
  find (fun c => bytes_eqb (commit_name c) n) [Unsupported; Flat; Merkle].
(** [Deserializer::deserialize_enum] for variants without content: the name, or an object with
    the name as its only key and [null]; serde_json, for src/config/consensus.rs:358-368 *)
Definition decode_commit (v : json) : option payset_commit_type :=
  match v with
  | JStr n => commit_of_name n
  | JObj [(n, JNull)] => commit_of_name n
  | _ => None
  end.
(** [HashMap<String, bool>] and [HashMap<ConsensusVersion, u64>]: a later entry replaces an
    earlier one with the same key; serde, for src/config/mod.rs:72-456 and src/config/consensus.rs:18-381 *)
Fixpoint decode_flags (m : list (bytes * json)) (acc : list (bytes * bool)) : option (list (bytes * bool)) :=
  match m with
  | [] => Some acc
  | (k, JBool b) :: r => decode_flags r (put k b acc)
  | _ => None
  end.
(** [HashMap<ConsensusVersion, u64>], src/config/consensus.rs:61 *)
Fixpoint decode_upgrades (m : list (bytes * json)) (acc : list (version * N)) : option (list (version * N)) :=
  match m with
  | [] => Some acc
  | (k, v) :: r =>
      match version_of_name k, int_between 0 (2 ^ 64 - 1) v with
      | Some w, Some z => decode_upgrades r (insert w (Z.to_N z) acc)
      | _, _ => None
      end
  end.

(** a field by its type, derived [Deserialize]; src/config/mod.rs:72-456 and src/config/consensus.rs:18-381 *)
Definition decode_field (t : ftype) (v : json) : option fval :=
  match t with
  | TBool => match v with JBool b => Some (FBool b) | _ => None end
  | TU32 => option_map FInt (int_between 0 (2 ^ 32 - 1) v)
  | TU64 => option_map FInt (int_between 0 (2 ^ 64 - 1) v)
  | TI32 => option_map FInt (int_between (- 2 ^ 31) (2 ^ 31 - 1) v)
  | TI64 => option_map FInt (int_between (- 2 ^ 63) (2 ^ 63 - 1) v)
  | TStr => match v with JStr s => Some (FStr s) | _ => None end
  | TDur => option_map FDur (decode_duration v)
  | TFlags => match v with JObj m => option_map FFlags (decode_flags m []) | _ => None end
  | TUpgrades => match v with JObj m => option_map FUpgrades (decode_upgrades m []) | _ => None end
  | TCommit => option_map FCommit (decode_commit v)
  end.
(** a field, derived [Serialize]; src/config/mod.rs:72-456 and src/config/consensus.rs:18-381 *)
Definition encode_field (v : fval) : json :=
  match v with
  | FBool b => JBool b
  | FInt z => JInt z
  | FStr s => JStr s
  | FDur n => encode_duration n
  | FFlags m => JObj (map (fun e => (fst e, JBool (snd e))) m)
  | FUpgrades m => JObj (map (fun e => (version_name (fst e), JInt (Z.of_N (snd e)))) m)
  | FCommit c => JStr (commit_name c)
  end.

(** A structure: its fields by name, in the order of their declaration.
    src/config/mod.rs:72-456 and src/config/consensus.rs:18-381 *)
Definition settings := list (bytes * fval).
(** derived [Serialize]; src/config/mod.rs:72-456 and src/config/consensus.rs:18-381 *)
Definition encode_struct (s : settings) : json := JObj (map (fun e => (fst e, encode_field (snd e))) s).

(** ** The settings of a node *)

(** src/config/mod.rs:73-456: the fields in order *)
Definition local_table : list (bytes * ftype) :=
  [(str "version", TU32);
   (str "archival", TBool);
   (str "gossip_fanout", TU32);
   (str "net_address", TStr);
   (str "reconnect_time", TDur);
   (str "public_address", TStr);
   (str "max_connections_per_ip", TI32);
   (str "peer_ping_period_seconds", TI32);
   (str "tls_cert_file", TStr);
   (str "tls_key_file", TStr);
   (str "base_logger_debug_level", TU32);
   (str "cadaver_size_target", TU64);
   (str "incoming_connections_limit", TI32);
   (str "broadcast_connections_limit", TI32);
   (str "announce_participation_key", TBool);
   (str "priority_peers", TFlags);
   (str "reserved_fds", TU64);
   (str "endpoint_address", TStr);
   (str "rest_read_timeout_seconds", TI32);
   (str "rest_write_timeout_seconds", TI32);
   (str "dns_bootstrap_id", TStr);
   (str "log_size_limit", TU64);
   (str "log_archive_name", TStr);
   (str "log_archive_max_age", TStr);
   (str "catchup_failure_peer_refresh_rate", TI32);
   (str "node_exporter_listen_address", TStr);
   (str "enable_metric_reporting", TBool);
   (str "enable_top_accounts_reporting", TBool);
   (str "enable_agreement_reporting", TBool);
   (str "enable_agreement_time_metrics", TBool);
   (str "node_exporter_path", TStr);
   (str "fallback_dns_resolver_address", TStr);
   (str "tx_pool_exponential_increase_factor", TU64);
   (str "suggested_fee_block_history", TI32);
   (str "tx_pool_size", TI32);
   (str "tx_sync_timeout_seconds", TI64);
   (str "tx_sync_interval_seconds", TI64);
   (str "incoming_message_filter_bucket_count", TI32);
   (str "incoming_message_filter_bucket_size", TI32);
   (str "outgoing_message_filter_bucket_count", TI32);
   (str "outgoing_message_filter_bucket_size", TI32);
   (str "enable_outgoing_network_message_filtering", TBool);
   (str "enable_incoming_message_filter", TBool);
   (str "deadlock_detection", TI32);
   (str "run_hosted", TBool);
   (str "catchup_parallel_blocks", TU64);
   (str "enable_assemble_stats", TBool);
   (str "enable_process_block_stats", TBool);
   (str "suggested_fee_sliding_window_size", TU32);
   (str "tx_sync_serve_response_size", TI32);
   (str "is_indexer_active", TBool);
   (str "use_xforwarded_for_address_field", TStr);
   (str "force_relay_messages", TBool);
   (str "connections_rate_limiting_window_seconds", TU32);
   (str "connections_rate_limiting_count", TU32);
   (str "enable_request_logger", TBool);
   (str "peer_connections_update_interval", TI32);
   (str "enable_profiler", TBool);
   (str "telemetry_to_log", TBool);
   (str "dns_security_flags", TU32);
   (str "enable_ping_handler", TBool);
   (str "disable_outgoing_connection_throttling", TBool);
   (str "network_protocol_version", TStr);
   (str "catchpoint_interval", TU64);
   (str "catchpoint_file_history_length", TI32);
   (str "enable_ledger_service", TBool);
   (str "enable_block_service", TBool);
   (str "enable_gossip_block_service", TBool);
   (str "catchup_http_block_fetch_timeout_sec", TI32);
   (str "catchup_gossip_block_fetch_timeout_sec", TI32);
   (str "catchup_ledger_download_retry_attempts", TI32);
   (str "catchup_block_download_retry_attempts", TI32);
   (str "enable_developer_api", TBool);
   (str "optimize_accounts_database_on_startup", TBool);
   (str "catchpoint_tracking", TI64);
   (str "ledger_synchronous_mode", TI32);
   (str "accounts_rebuild_synchronous_mode", TI32);
   (str "max_catchpoint_download_duration", TDur);
   (str "min_catchpoint_file_download_bytes_per_second", TU64);
   (str "network_message_trace_server", TStr);
   (str "verified_transcations_cache_size", TI32);
   (str "enable_catchup_from_archive_servers", TBool);
   (str "disable_localhost_connection_rate_limit", TBool);
   (str "block_service_custom_fallback_endpoints", TStr);
   (str "enable_block_service_fallback_to_archiver", TBool);
   (str "catchup_block_validate_mode", TU32);
   (str "enable_account_updates_stats", TBool);
   (str "account_updates_stats_interval", TDur);
   (str "participation_keys_refresh_interval", TDur);
   (str "disable_networking", TBool)].

(** src/config/default.rs:8-104 *)
Definition default_local : settings :=
  [(str "version", FInt 0);
   (str "archival", FBool false);
   (str "gossip_fanout", FInt 4);
   (str "net_address", FStr (str ""));
   (str "reconnect_time", FDur 60000000000);
   (str "public_address", FStr (str ""));
   (str "max_connections_per_ip", FInt 30);
   (str "peer_ping_period_seconds", FInt 0);
   (str "tls_cert_file", FStr (str ""));
   (str "tls_key_file", FStr (str ""));
   (str "base_logger_debug_level", FInt 4);
   (str "cadaver_size_target", FInt 1073741824);
   (str "incoming_connections_limit", FInt 10000);
   (str "broadcast_connections_limit", FInt (-1));
   (str "announce_participation_key", FBool true);
   (str "priority_peers", FFlags []);
   (str "reserved_fds", FInt 256);
   (str "endpoint_address", FStr (str "127.0.0.1:0"));
   (str "rest_read_timeout_seconds", FInt 15);
   (str "rest_write_timeout_seconds", FInt 120);
   (str "dns_bootstrap_id", FStr (str "<network>.algorand.network"));
   (str "log_size_limit", FInt 1073741824);
   (str "log_archive_name", FStr (str "node.archive.log"));
   (str "log_archive_max_age", FStr (str ""));
   (str "catchup_failure_peer_refresh_rate", FInt 10);
   (str "node_exporter_listen_address", FStr (str ":9100"));
   (str "enable_metric_reporting", FBool false);
   (str "enable_top_accounts_reporting", FBool false);
   (str "enable_agreement_reporting", FBool false);
   (str "enable_agreement_time_metrics", FBool false);
   (str "node_exporter_path", FStr (str "./node_exporter"));
   (str "fallback_dns_resolver_address", FStr (str ""));
   (str "tx_pool_exponential_increase_factor", FInt 2);
   (str "suggested_fee_block_history", FInt 3);
   (str "tx_pool_size", FInt 15000);
   (str "tx_sync_timeout_seconds", FInt 30);
   (str "tx_sync_interval_seconds", FInt 60);
   (str "incoming_message_filter_bucket_count", FInt 5);
   (str "incoming_message_filter_bucket_size", FInt 512);
   (str "outgoing_message_filter_bucket_count", FInt 3);
   (str "outgoing_message_filter_bucket_size", FInt 128);
   (str "enable_outgoing_network_message_filtering", FBool true);
   (str "enable_incoming_message_filter", FBool false);
   (str "deadlock_detection", FInt 0);
   (str "run_hosted", FBool false);
   (str "catchup_parallel_blocks", FInt 16);
   (str "enable_assemble_stats", FBool false);
   (str "enable_process_block_stats", FBool false);
   (str "suggested_fee_sliding_window_size", FInt 50);
   (str "tx_sync_serve_response_size", FInt 1000000);
   (str "is_indexer_active", FBool false);
   (str "use_xforwarded_for_address_field", FStr (str ""));
   (str "force_relay_messages", FBool false);
   (str "connections_rate_limiting_window_seconds", FInt 1);
   (str "connections_rate_limiting_count", FInt 60);
   (str "enable_request_logger", FBool false);
   (str "peer_connections_update_interval", FInt 3600);
   (str "enable_profiler", FBool false);
   (str "telemetry_to_log", FBool true);
   (str "dns_security_flags", FInt 1);
   (str "enable_ping_handler", FBool true);
   (str "disable_outgoing_connection_throttling", FBool false);
   (str "network_protocol_version", FStr (str ""));
   (str "catchpoint_interval", FInt 10000);
   (str "catchpoint_file_history_length", FInt 365);
   (str "enable_ledger_service", FBool false);
   (str "enable_block_service", FBool false);
   (str "enable_gossip_block_service", FBool true);
   (str "catchup_http_block_fetch_timeout_sec", FInt 4);
   (str "catchup_gossip_block_fetch_timeout_sec", FInt 4);
   (str "catchup_ledger_download_retry_attempts", FInt 50);
   (str "catchup_block_download_retry_attempts", FInt 1000);
   (str "enable_developer_api", FBool false);
   (str "optimize_accounts_database_on_startup", FBool false);
   (str "catchpoint_tracking", FInt 0);
   (str "ledger_synchronous_mode", FInt 2);
   (str "accounts_rebuild_synchronous_mode", FInt 1);
   (str "max_catchpoint_download_duration", FDur 7200000000000);
   (str "min_catchpoint_file_download_bytes_per_second", FInt 20480);
   (str "network_message_trace_server", FStr (str ""));
   (str "verified_transcations_cache_size", FInt 30000);
   (str "enable_catchup_from_archive_servers", FBool false);
   (str "disable_localhost_connection_rate_limit", FBool true);
   (str "block_service_custom_fallback_endpoints", FStr (str ""));
   (str "enable_block_service_fallback_to_archiver", FBool true);
   (str "catchup_block_validate_mode", FInt 0);
   (str "enable_account_updates_stats", FBool false);
   (str "account_updates_stats_interval", FDur 5000000000);
   (str "participation_keys_refresh_interval", FDur 60000000000);
   (str "disable_networking", FBool false)].


(** assignment to a field of [Local], src/config/mod.rs:72-456 *)
Definition set (n : bytes) (v : fval) (s : settings) : settings :=
  map (fun e => if bytes_eqb (fst e) n then (n, v) else e) s.
(** a field of [Local] that is a text, src/config/mod.rs:72-456 *)
Definition get_str (n : bytes) (s : settings) : bytes := match assoc n s with Some (FStr t) => t | _ => [] end.
(** a field of [Local] that is a number, src/config/mod.rs:72-456 *)
Definition get_num (n : bytes) (s : settings) : N := match assoc n s with Some (FInt z) => Z.to_N z | _ => 0 end.

(** src/config/mod.rs:461, 464, 479 *)
Definition CONFIG_FILENAME : bytes := str "config.json".
(** src/config/mod.rs:464 *)
Definition PHONEBOOK_FILENAME : bytes := str "phonebook.json".
(** src/config/mod.rs:479 *)
Definition CONFIGURABLE_CONSENSUS_PROTOCOLS_FILENAME : bytes := str "consensus.json".

(** src/config/mod.rs:525-528, after [fs::read_to_string] *)
Definition load (content : bytes) : option settings :=
  if utf8 content then
    match parse content with Some v => decode_struct decode_field false local_table v | None => None end
  else None.
(** src/config/mod.rs:509-523; what the settings were before does not matter *)
Definition merge_from_file (fs : files) (path : bytes) : option settings :=
  match content fs path with
  | None => None
  | Some c =>
      match load c with
      | None => None
      | Some s =>
          Some (match get_str (str "net_address") s with
                | [] => s
                | _ => set (str "enable_block_service") (FBool true)
                        (set (str "enable_ledger_service") (FBool true)
                          (set (str "archival") (FBool true) s))
                end)
      end
  end.
(** src/config/mod.rs:491-503 *)
Definition load_from_file (fs : files) (path : bytes) : option settings := merge_from_file fs path.
(** src/config/mod.rs:487-489 *)
Definition load_from_disk (fs : files) (dir : bytes) : option settings := load_from_file fs (path_join dir CONFIG_FILENAME).

(** src/config/mod.rs:566-575: nothing is written *)
Definition save_to_file (fs : files) (s : settings) (filename : bytes) : files * outcome unit unit := (fs, Ok tt).
(** src/config/mod.rs:556-562; [expand] is [shellexpand::env], which replaces environment
    variables and fails for undefined ones *)
Definition save_to_disk (expand : bytes -> option bytes) (fs : files) (s : settings) (root : bytes) : files * outcome unit unit :=
  match expand (path_join root CONFIG_FILENAME) with
  | Some p => save_to_file fs s p
  | None => (fs, Panic)
  end.

(** [str::replace]: occurrences from left to right, not overlapping; std, for src/config/mod.rs:543 *)
Fixpoint replace_from (skip : nat) (pat rep s : bytes) : bytes :=
  match s with
  | [] => []
  | b :: r =>
      match skip with
      | S k => replace_from k pat rep r
      | O => match after pat s with
             | Some _ => rep ++ replace_from (length pat - 1) pat rep r
             | None => b :: replace_from O pat rep r
             end
      end
  end.
(** [str::replace] of std, src/config/mod.rs:543 *)
Definition replace (pat rep s : bytes) : bytes := replace_from 0 pat rep s.
(** [str::split] at one character; std, for src/config/mod.rs:531-540 *)
Fixpoint split_at (sep : byte) (cur s : bytes) : list bytes :=
  match s with
  | [] => [rev cur]
  | b :: r => if Byte.eqb b sep then rev cur :: split_at sep [] r else split_at sep (b :: cur) r
  end.
(** src/config/mod.rs:28-31 *)
Definition DEVNET : bytes := str "devnet".
(** src/config/mod.rs:31 *)
Definition BETANET : bytes := str "betanet".
(** src/config/mod.rs:542-554 *)
Definition dns_bootstrap (s : settings) (network : bytes) : bytes :=
  let id := get_str (str "dns_bootstrap_id") s in
  let replaced := replace (str "<network>") network id in
  if bytes_eqb id (get_str (str "dns_bootstrap_id") default_local) then
    if bytes_eqb network DEVNET then str "devnet.algodev.network"
    else if bytes_eqb network BETANET then str "betanet.algodev.network"
    else replaced
  else replaced.
(** src/config/mod.rs:531-540 *)
Definition dns_bootstrap_array (s : settings) (network : bytes) : list bytes :=
  filter (fun e => match e with [] => false | _ => true end) (split_at x3b [] (dns_bootstrap s network)).

(** src/config/mod.rs:46-48, 578-590 *)
Definition flag (s : settings) (name : bytes) (mask : N) : bool := negb (N.land (get_num name s) mask =? 0).
(** src/config/mod.rs:578-580 *)
Definition dnssec_srv_enforced (s : settings) : bool := flag s (str "dns_security_flags") 1.
(** src/config/mod.rs:583-585 *)
Definition dnssec_relay_addr_enforced (s : settings) : bool := flag s (str "dns_security_flags") 2.
(** src/config/mod.rs:588-590 *)
Definition dnssec_telemetry_enforced (s : settings) : bool := flag s (str "dns_security_flags") 4.
(** src/config/mod.rs:54-57, 592-612 *)
Definition catchup_verify_certificate (s : settings) : bool := negb (flag s (str "catchup_block_validate_mode") 1).
(** src/config/mod.rs:592-612 *)
Definition catchup_verify_payset_hash (s : settings) : bool := negb (flag s (str "catchup_block_validate_mode") 2).
(** src/config/mod.rs:592-612 *)
Definition catchup_verify_transaction_signatures (s : settings) : bool := flag s (str "catchup_block_validate_mode") 4.
(** src/config/mod.rs:592-612 *)
Definition catchup_verify_apply_data (s : settings) : bool := flag s (str "catchup_block_validate_mode") 8.

(** ** The phonebook *)

(** src/config/mod.rs:629-643: the text is read as the unit value, and the entries are never
    filled *)
Definition load_phonebook (fs : files) (datadir : bytes) : outcome unit (list bytes) :=
  match content fs (path_join datadir PHONEBOOK_FILENAME) with
  | None => Err tt
  | Some c => if utf8 c then match parse c with Some JNull => Ok [] | _ => Err tt end else Err tt
  end.
(** src/config/mod.rs:662-666 *)
Definition phonebook_json (entries : list bytes) : json := JObj [(str "include", JArr (map JStr entries))].
(** src/config/mod.rs:646-660 *)
Definition save_phonebook_to_disk (expand : bytes -> option bytes) (fs : files) (entries : list bytes) (root : bytes) : files * outcome unit unit :=
  match expand (path_join root PHONEBOOK_FILENAME) with
  | None => (fs, Panic)
  | Some p =>
      match write_file fs p (pretty 0 (phonebook_json entries)) with
      | Some fs' => (fs', Ok tt)
      | None => (fs, Err tt)
      end
  end.

(** ** The configurable protocols *)

(** a field of [ConsensusParams] from its value, src/config/consensus.rs:19-356 *)
Definition to_bool (v : fval) : bool := match v with FBool b => b | _ => false end.
(** src/config/consensus.rs:19-356 *)
Definition to_num (v : fval) : N := match v with FInt z => Z.to_N z | _ => 0 end.
(** src/config/consensus.rs:19-356 *)
Definition to_dur (v : fval) : N := match v with FDur n => n | _ => 0 end.
(** src/config/consensus.rs:61 *)
Definition to_upgrades (v : fval) : list (version * N) := match v with FUpgrades m => m | _ => [] end.
(** src/config/consensus.rs:19-356 *)
Definition to_commit (v : fval) : payset_commit_type := match v with FCommit c => c | _ => Unsupported end.
(** src/config/consensus.rs:19-356: the fields in order *)
Definition params_table : list (bytes * ftype) :=
  [(str "upgrade_vote_rounds", TU64);
   (str "upgrade_threshold", TU64);
   (str "default_upgrade_wait_rounds", TU64);
   (str "min_upgrade_wait_rounds", TU64);
   (str "max_upgrade_wait_rounds", TU64);
   (str "max_version_string_len", TU32);
   (str "max_tx_bytes_per_block", TU32);
   (str "max_tx_note_bytes", TU32);
   (str "max_tx_life", TU64);
   (str "approved_upgrades", TUpgrades);
   (str "support_genesis_hash", TBool);
   (str "require_genesis_hash", TBool);
   (str "default_key_dilution", TU64);
   (str "min_balance", TU64);
   (str "min_tx_fee", TU64);
   (str "enable_fee_pooling", TBool);
   (str "enable_app_cost_pooling", TBool);
   (str "reward_unit", TU64);
   (str "rewards_rate_refresh_interval", TU64);
   (str "seed_lookback", TU64);
   (str "seed_refresh_interval", TU64);
   (str "max_bal_lookback", TU64);
   (str "num_proposers", TU64);
   (str "soft_committee_size", TU64);
   (str "soft_committee_threshold", TU64);
   (str "cert_committee_size", TU64);
   (str "cert_committee_threshold", TU64);
   (str "next_committee_size", TU64);
   (str "next_committee_threshold", TU64);
   (str "late_committee_size", TU64);
   (str "late_committee_threshold", TU64);
   (str "redo_committee_size", TU64);
   (str "redo_committee_threshold", TU64);
   (str "down_committee_size", TU64);
   (str "down_committee_threshold", TU64);
   (str "agreement_filter_timeout", TDur);
   (str "agreement_filter_timeout_period0", TDur);
   (str "fast_recovery_lambda", TDur);
   (str "fast_partition_recovery", TBool);
   (str "payset_commit", TCommit);
   (str "max_timestamp_increment", TU64);
   (str "support_signed_tx_in_block", TBool);
   (str "force_non_participating_fee_sink", TBool);
   (str "apply_data", TBool);
   (str "rewards_in_apply_data", TBool);
   (str "credential_domain_separation_enabled", TBool);
   (str "support_become_non_participating_transactions", TBool);
   (str "pending_residue_rewards", TBool);
   (str "asset", TBool);
   (str "max_assets_per_account", TU32);
   (str "max_asset_name_bytes", TU32);
   (str "max_asset_unit_name_bytes", TU32);
   (str "max_asset_url_bytes", TU32);
   (str "tx_counter", TBool);
   (str "support_tx_groups", TBool);
   (str "max_tx_group_size", TU32);
   (str "support_transaction_leases", TBool);
   (str "fix_transaction_leases", TBool);
   (str "logic_sig_version", TU64);
   (str "logic_sig_max_size", TU64);
   (str "logic_sig_max_cost", TU64);
   (str "max_asset_decimals", TU32);
   (str "support_rekeying", TBool);
   (str "application", TBool);
   (str "max_app_args", TU32);
   (str "max_app_total_arg_len", TU32);
   (str "max_app_program_len", TU32);
   (str "max_app_total_program_len", TU32);
   (str "max_extra_app_program_pages", TU32);
   (str "max_app_tx_accounts", TU32);
   (str "max_app_tx_foreign_apps", TU32);
   (str "max_app_tx_foreign_assets", TU32);
   (str "max_app_total_tx_references", TU32);
   (str "max_app_program_cost", TU32);
   (str "max_app_key_len", TU32);
   (str "max_app_bytes_value_len", TU32);
   (str "max_app_sum_key_value_lens", TU32);
   (str "max_inner_transactions", TU32);
   (str "max_apps_created", TU32);
   (str "max_apps_opted_in", TU32);
   (str "app_flat_params_min_balance", TU64);
   (str "app_flat_opt_in_min_balance", TU64);
   (str "schema_min_balance_per_entry", TU64);
   (str "schema_uint_min_balance", TU64);
   (str "schema_bytes_min_balance", TU64);
   (str "max_local_schema_entries", TU64);
   (str "max_global_schema_entries", TU64);
   (str "maximum_minimum_balance", TU64);
   (str "compact_cert_rounds", TU64);
   (str "compact_cert_top_voters", TU64);
   (str "compact_cert_voters_lookback", TU64);
   (str "compact_cert_weight_threshold", TU32);
   (str "compact_cert_sec_kq", TU32);
   (str "enable_asset_close_amount", TBool);
   (str "initial_rewards_rate_calculation", TBool);
   (str "no_empty_local_deltas", TBool);
   (str "enable_keyreg_coherency_check", TBool);
   (str "enable_extra_pages_on_app_update", TBool)].
(** src/config/consensus.rs:19-356: the fields and their values *)
Definition params_fields (p : params) : settings :=
  [(str "upgrade_vote_rounds", FNum (upgrade_vote_rounds p));
   (str "upgrade_threshold", FNum (upgrade_threshold p));
   (str "default_upgrade_wait_rounds", FNum (default_upgrade_wait_rounds p));
   (str "min_upgrade_wait_rounds", FNum (min_upgrade_wait_rounds p));
   (str "max_upgrade_wait_rounds", FNum (max_upgrade_wait_rounds p));
   (str "max_version_string_len", FNum (max_version_string_len p));
   (str "max_tx_bytes_per_block", FNum (max_tx_bytes_per_block p));
   (str "max_tx_note_bytes", FNum (max_tx_note_bytes p));
   (str "max_tx_life", FNum (max_tx_life p));
   (str "approved_upgrades", FUpgrades (approved_upgrades p));
   (str "support_genesis_hash", FBool (support_genesis_hash p));
   (str "require_genesis_hash", FBool (require_genesis_hash p));
   (str "default_key_dilution", FNum (default_key_dilution p));
   (str "min_balance", FNum (min_balance p));
   (str "min_tx_fee", FNum (min_tx_fee p));
   (str "enable_fee_pooling", FBool (enable_fee_pooling p));
   (str "enable_app_cost_pooling", FBool (enable_app_cost_pooling p));
   (str "reward_unit", FNum (reward_unit p));
   (str "rewards_rate_refresh_interval", FNum (rewards_rate_refresh_interval p));
   (str "seed_lookback", FNum (seed_lookback p));
   (str "seed_refresh_interval", FNum (seed_refresh_interval p));
   (str "max_bal_lookback", FNum (max_bal_lookback p));
   (str "num_proposers", FNum (num_proposers p));
   (str "soft_committee_size", FNum (soft_committee_size p));
   (str "soft_committee_threshold", FNum (soft_committee_threshold p));
   (str "cert_committee_size", FNum (cert_committee_size p));
   (str "cert_committee_threshold", FNum (cert_committee_threshold p));
   (str "next_committee_size", FNum (next_committee_size p));
   (str "next_committee_threshold", FNum (next_committee_threshold p));
   (str "late_committee_size", FNum (late_committee_size p));
   (str "late_committee_threshold", FNum (late_committee_threshold p));
   (str "redo_committee_size", FNum (redo_committee_size p));
   (str "redo_committee_threshold", FNum (redo_committee_threshold p));
   (str "down_committee_size", FNum (down_committee_size p));
   (str "down_committee_threshold", FNum (down_committee_threshold p));
   (str "agreement_filter_timeout", FDur (agreement_filter_timeout p));
   (str "agreement_filter_timeout_period0", FDur (agreement_filter_timeout_period0 p));
   (str "fast_recovery_lambda", FDur (fast_recovery_lambda p));
   (str "fast_partition_recovery", FBool (fast_partition_recovery p));
   (str "payset_commit", FCommit (payset_commit p));
   (str "max_timestamp_increment", FNum (max_timestamp_increment p));
   (str "support_signed_tx_in_block", FBool (support_signed_tx_in_block p));
   (str "force_non_participating_fee_sink", FBool (force_non_participating_fee_sink p));
   (str "apply_data", FBool (apply_data p));
   (str "rewards_in_apply_data", FBool (rewards_in_apply_data p));
   (str "credential_domain_separation_enabled", FBool (credential_domain_separation_enabled p));
   (str "support_become_non_participating_transactions", FBool (support_become_non_participating_transactions p));
   (str "pending_residue_rewards", FBool (pending_residue_rewards p));
   (str "asset", FBool (asset p));
   (str "max_assets_per_account", FNum (max_assets_per_account p));
   (str "max_asset_name_bytes", FNum (max_asset_name_bytes p));
   (str "max_asset_unit_name_bytes", FNum (max_asset_unit_name_bytes p));
   (str "max_asset_url_bytes", FNum (max_asset_url_bytes p));
   (str "tx_counter", FBool (tx_counter p));
   (str "support_tx_groups", FBool (support_tx_groups p));
   (str "max_tx_group_size", FNum (max_tx_group_size p));
   (str "support_transaction_leases", FBool (support_transaction_leases p));
   (str "fix_transaction_leases", FBool (fix_transaction_leases p));
   (str "logic_sig_version", FNum (logic_sig_version p));
   (str "logic_sig_max_size", FNum (logic_sig_max_size p));
   (str "logic_sig_max_cost", FNum (logic_sig_max_cost p));
   (str "max_asset_decimals", FNum (max_asset_decimals p));
   (str "support_rekeying", FBool (support_rekeying p));
   (str "application", FBool (application p));
   (str "max_app_args", FNum (max_app_args p));
   (str "max_app_total_arg_len", FNum (max_app_total_arg_len p));
   (str "max_app_program_len", FNum (max_app_program_len p));
   (str "max_app_total_program_len", FNum (max_app_total_program_len p));
   (str "max_extra_app_program_pages", FNum (max_extra_app_program_pages p));
   (str "max_app_tx_accounts", FNum (max_app_tx_accounts p));
   (str "max_app_tx_foreign_apps", FNum (max_app_tx_foreign_apps p));
   (str "max_app_tx_foreign_assets", FNum (max_app_tx_foreign_assets p));
   (str "max_app_total_tx_references", FNum (max_app_total_tx_references p));
   (str "max_app_program_cost", FNum (max_app_program_cost p));
   (str "max_app_key_len", FNum (max_app_key_len p));
   (str "max_app_bytes_value_len", FNum (max_app_bytes_value_len p));
   (str "max_app_sum_key_value_lens", FNum (max_app_sum_key_value_lens p));
   (str "max_inner_transactions", FNum (max_inner_transactions p));
   (str "max_apps_created", FNum (max_apps_created p));
   (str "max_apps_opted_in", FNum (max_apps_opted_in p));
   (str "app_flat_params_min_balance", FNum (app_flat_params_min_balance p));
   (str "app_flat_opt_in_min_balance", FNum (app_flat_opt_in_min_balance p));
   (str "schema_min_balance_per_entry", FNum (schema_min_balance_per_entry p));
   (str "schema_uint_min_balance", FNum (schema_uint_min_balance p));
   (str "schema_bytes_min_balance", FNum (schema_bytes_min_balance p));
   (str "max_local_schema_entries", FNum (max_local_schema_entries p));
   (str "max_global_schema_entries", FNum (max_global_schema_entries p));
   (str "maximum_minimum_balance", FNum (maximum_minimum_balance p));
   (str "compact_cert_rounds", FNum (compact_cert_rounds p));
   (str "compact_cert_top_voters", FNum (compact_cert_top_voters p));
   (str "compact_cert_voters_lookback", FNum (compact_cert_voters_lookback p));
   (str "compact_cert_weight_threshold", FNum (compact_cert_weight_threshold p));
   (str "compact_cert_sec_kq", FNum (compact_cert_sec_kq p));
   (str "enable_asset_close_amount", FBool (enable_asset_close_amount p));
   (str "initial_rewards_rate_calculation", FBool (initial_rewards_rate_calculation p));
   (str "no_empty_local_deltas", FBool (no_empty_local_deltas p));
   (str "enable_keyreg_coherency_check", FBool (enable_keyreg_coherency_check p));
   (str "enable_extra_pages_on_app_update", FBool (enable_extra_pages_on_app_update p))].
(** src/config/consensus.rs:19-356: the structure with the given values of its fields *)
Definition params_of (l : settings) : option params :=
  match l with
  | [(_, f0); (_, f1); (_, f2); (_, f3); (_, f4); (_, f5); (_, f6); (_, f7); (_, f8); (_, f9); (_, f10); (_, f11); (_, f12); (_, f13); (_, f14); (_, f15); (_, f16); (_, f17); (_, f18); (_, f19); (_, f20); (_, f21); (_, f22); (_, f23); (_, f24); (_, f25); (_, f26); (_, f27); (_, f28); (_, f29); (_, f30); (_, f31); (_, f32); (_, f33); (_, f34); (_, f35); (_, f36); (_, f37); (_, f38); (_, f39); (_, f40); (_, f41); (_, f42); (_, f43); (_, f44); (_, f45); (_, f46); (_, f47); (_, f48); (_, f49); (_, f50); (_, f51); (_, f52); (_, f53); (_, f54); (_, f55); (_, f56); (_, f57); (_, f58); (_, f59); (_, f60); (_, f61); (_, f62); (_, f63); (_, f64); (_, f65); (_, f66); (_, f67); (_, f68); (_, f69); (_, f70); (_, f71); (_, f72); (_, f73); (_, f74); (_, f75); (_, f76); (_, f77); (_, f78); (_, f79); (_, f80); (_, f81); (_, f82); (_, f83); (_, f84); (_, f85); (_, f86); (_, f87); (_, f88); (_, f89); (_, f90); (_, f91); (_, f92); (_, f93); (_, f94); (_, f95); (_, f96); (_, f97)] =>
    Some (mkParams
      (to_num f0)
      (to_num f1)
      (to_num f2)
      (to_num f3)
      (to_num f4)
      (to_num f5)
      (to_num f6)
      (to_num f7)
      (to_num f8)
      (to_upgrades f9)
      (to_bool f10)
      (to_bool f11)
      (to_num f12)
      (to_num f13)
      (to_num f14)
      (to_bool f15)
      (to_bool f16)
      (to_num f17)
      (to_num f18)
      (to_num f19)
      (to_num f20)
      (to_num f21)
      (to_num f22)
      (to_num f23)
      (to_num f24)
      (to_num f25)
      (to_num f26)
      (to_num f27)
      (to_num f28)
      (to_num f29)
      (to_num f30)
      (to_num f31)
      (to_num f32)
      (to_num f33)
      (to_num f34)
      (to_dur f35)
      (to_dur f36)
      (to_dur f37)
      (to_bool f38)
      (to_commit f39)
      (to_num f40)
      (to_bool f41)
      (to_bool f42)
      (to_bool f43)
      (to_bool f44)
      (to_bool f45)
      (to_bool f46)
      (to_bool f47)
      (to_bool f48)
      (to_num f49)
      (to_num f50)
      (to_num f51)
      (to_num f52)
      (to_bool f53)
      (to_bool f54)
      (to_num f55)
      (to_bool f56)
      (to_bool f57)
      (to_num f58)
      (to_num f59)
      (to_num f60)
      (to_num f61)
      (to_bool f62)
      (to_bool f63)
      (to_num f64)
      (to_num f65)
      (to_num f66)
      (to_num f67)
      (to_num f68)
      (to_num f69)
      (to_num f70)
      (to_num f71)
      (to_num f72)
      (to_num f73)
      (to_num f74)
      (to_num f75)
      (to_num f76)
      (to_num f77)
      (to_num f78)
      (to_num f79)
      (to_num f80)
      (to_num f81)
      (to_num f82)
      (to_num f83)
      (to_num f84)
      (to_num f85)
      (to_num f86)
      (to_num f87)
      (to_num f88)
      (to_num f89)
      (to_num f90)
      (to_num f91)
      (to_num f92)
      (to_bool f93)
      (to_bool f94)
      (to_bool f95)
      (to_bool f96)
      (to_bool f97))
  | _ => None
  end.

(** src/config/consensus.rs:380-381, the derived [Serialize] of a map in the order the hash map
    yields its entries *)
Definition encode_protocols (t : table) : json :=
  JObj (map (fun e => (version_name (fst e), encode_struct (params_fields (snd e)))) t).
(** derived [Deserialize] of src/config/consensus.rs:18-356 *)
Definition decode_params (v : json) : option params :=
  match decode_struct decode_field false params_table v with Some l => params_of l | None => None end.
(** derived [Deserialize] of src/config/consensus.rs:380-381; a later entry replaces an earlier one *)
Fixpoint decode_entries (m : list (bytes * json)) (acc : table) : option table :=
  match m with
  | [] => Some acc
  | (k, v) :: r =>
      match version_of_name k, decode_params v with
      | Some w, Some p => decode_entries r (insert w p acc)
      | _, _ => None
      end
  end.
(** derived [Deserialize] of src/config/consensus.rs:380-381 *)
Definition decode_protocols (v : json) : option table :=
  match v with JObj m => decode_entries m [] | _ => None end.

(** src/config/consensus.rs:490-510: after removing the file for an empty table, it is made
    again *)
Definition save_configurable_consensus (fs : files) (data_dir : bytes) (t : table) : files * outcome unit unit :=
  let path := path_join data_dir CONFIGURABLE_CONSENSUS_PROTOCOLS_FILENAME in
  let write fs :=
    match write_file fs path (pretty 0 (encode_protocols t)) with
    | Some fs' => (fs', Ok tt)
    | None => (fs, Err tt)
    end in
  match t with
  | [] => match remove_file fs path with Some fs' => write fs' | None => (fs, Err tt) end
  | _ => write fs
  end.
(** src/config/consensus.rs:589-605; no other error than a missing file when opening it.
    [serde_json::from_reader] does not look at the whole text first. *)
Definition preload_configurable_consensus_protocols (fs : files) (data_dir : bytes) (consensus : table) : outcome unit table :=
  match content fs (path_join data_dir CONFIGURABLE_CONSENSUS_PROTOCOLS_FILENAME) with
  | None => Ok consensus
  | Some c =>
      match parse c with
      | None => Err tt
      | Some v =>
          match decode_protocols v with
          | None => Err tt
          | Some t => match merge consensus t with Some t' => Ok t' | None => Panic end
          end
      end
  end.
(** src/config/consensus.rs:571-587 *)
Definition load_configurable_consensus_protocols (fs : files) (data_dir : bytes) (consensus : table) : outcome unit table :=
  match preload_configurable_consensus_protocols fs data_dir consensus with
  | Ok [] => Ok consensus
  | o => o
  end.
