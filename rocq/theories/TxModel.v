(** Transactions: src/data/transactions/.  Addresses, hashes, keys and signatures are byte
    strings; lengths of vectors and strings are unbounded numbers (no [usize] overflow). *)
From Verif Require Import Base.
From Verif Require Export BasicsModel Scheme DomainModel MsgpackModel.
From Verif Require Import AddressModel.
From Verif Require MultisigModel.
Local Open Scope N_scope.

(** ** Data *)

(** src/data/transactions/transaction.rs:36-39 *)
Record special_addresses := mkSpecial { fee_sink : bytes; rewards_pool : bytes }.

(** src/data/transactions/transaction.rs:47-81 *)
Record tx_header := mkTxHeader {
  sender : bytes;
  fee : N;
  first_valid : N;
  last_valid : N;
  note : bytes;
  tx_genesis_id : bytes;
  tx_genesis_hash : bytes;
  group : bytes;
  lease : bytes;
  rekey_to : bytes
}.
(** src/data/transactions/payment.rs:27-37 *)
Record payment := mkPayment { receiver : bytes; amount : N; close_remainder_to : option bytes }.
(** src/data/transactions/keyreg.rs:11-18 *)
Record keyreg := mkKeyreg {
  vote_pk : bytes;
  selection_pk : bytes;
  vote_first : N;
  vote_last : N;
  kr_key_dilution : N;
  nonparticipation : bool
}.
(** src/data/basics/user_balance.rs:303-344 *)
Record asset_parameters := mkAssetParams {
  total : N;
  decimals : N;
  default_frozen : bool;
  unit_name : bytes;
  asset_name : bytes;
  url : bytes;
  metadata_hash : bytes;
  manager : bytes;
  reserve : bytes;
  freeze : bytes;
  clawback : bytes
}.
(** src/data/transactions/asset.rs:9-18 *)
Record asset_config := mkAssetConfig { config_asset : N; config_params : asset_parameters }.
(** src/data/transactions/asset.rs:22-41 *)
Record asset_transfer := mkAssetTransfer {
  transfer_asset : N;
  asset_amount : N;
  asset_sender : bytes;
  asset_receiver : bytes;
  asset_close_to : bytes
}.
(** src/data/transactions/asset.rs:45-54 *)
Record asset_freeze := mkAssetFreeze { freeze_account : bytes; freeze_asset : N; asset_frozen : bool }.
(** src/data/transactions/application.rs:90-118 *)
Inductive completion := NoOpOC | OptInOC | CloseOutOC | ClearStateOC | UpdateApplicationOC | DeleteApplicationOC.
(** src/data/transactions/application.rs:26-85 *)
Record app_call := mkAppCall {
  called_app : N;
  on_completion : completion;
  application_args : list bytes;
  app_accounts : list bytes;
  app_foreign_apps : list N;
  foreign_assets : list N;
  local_state_schema : schema;
  global_state_schema : schema;
  approval_program : bytes;
  clear_state_program : bytes;
  extra_program_pages : N
}.
(** What the reference functions of BasicsModel look at. src/data/transactions/application.rs:25-85 *)
Definition refs_of (c : app_call) : app_refs := mkRefs (called_app c) (app_accounts c) (app_foreign_apps c).
(** src/data/transactions/compactcert.rs:14-18; the certificate type has one value *)
Record compact_cert := mkCert { cert_round : N }.
(** src/data/transactions/transaction.rs:93-110 *)
Inductive tx_fields :=
| Keyreg (f : keyreg)
| Payment (f : payment)
| AssetConfig (f : asset_config)
| AssetTransfer (f : asset_transfer)
| AssetFreeze (f : asset_freeze)
| AppCall (f : app_call)
| CompactCert (f : compact_cert).
(** src/data/transactions/transaction.rs:84-91 *)
Record transaction := mkTx { tx_head : tx_header; fields : tx_fields }.

(** src/data/transactions/logicsig.rs:15-25 *)
Record logic_sig := mkLsig { logic : bytes; lsig_sig : bytes; lsig_msig : MultisigModel.multisig; args : list bytes }.
(** src/data/transactions/signed_tx.rs:23-34 *)
Record signed_tx := mkSigned {
  stx_sig : bytes;
  stx_msig : option MultisigModel.multisig;
  stx_lsig : option logic_sig;
  stx_tx : transaction;
  stx_auth : bytes
}.
(** src/data/basics/teal.rs:48; the map as the list of its entries in iteration order *)
Definition state_delta := list (bytes * value_delta).
(** src/data/transactions/transaction.rs:119-138 and src/data/transactions/teal.rs:14-27 *)
Inductive apply_data := mkAD (closing_amount asset_closing_amount sender_rewards receiver_rewards close_rewards : N)
  (delta : eval_delta) (ad_config_asset ad_application_id : N)
with eval_delta := mkED (global_delta : state_delta) (local_deltas : list (N * state_delta)) (logs : list bytes)
  (inner_txs : list (signed_tx * apply_data)).
(** [EvalDelta::default()], src/data/transactions/teal.rs:13-27 *)
Definition no_delta : eval_delta := mkED [] [] [] [].
(** [ApplyData::default()]; src/data/transactions/transaction.rs:119-138 *)
Definition no_apply_data : apply_data := mkAD 0 0 0 0 0 no_delta 0 0.
(** src/data/transactions/signed_tx.rs:49-53 *)
Definition signed_tx_with_ad : Type := signed_tx * apply_data.
(** src/data/transactions/signed_tx.rs:38-46 *)
Record signed_tx_in_block := mkStib { stib_tx : signed_tx_with_ad; has_genesis_id : bool; has_genesis_hash : bool }.

(** ** Message-pack forms *)

(** An optional map entry: [skip_serializing_if] leaves out defaults. src/data/transactions/transaction.rs:41-81 *)
Definition entry (name : String.string) (is_default : bool) (v : value) : list (value * value) :=
  if is_default then [] else [(VStr (str name), v)].
(** A map entry that is always written, for src/data/transactions/transaction.rs:84-110 *)
Definition required (name : String.string) (v : value) : value * value := (VStr (str name), v).
Arguments entry name%string_scope.
Arguments required name%string_scope.
(** [is_default] of lists, src/data/transactions/transaction.rs:41-43 *)
Definition is_empty {A} (l : list A) : bool := match l with [] => true | _ => false end.
(** [is_default] of options, src/data/transactions/transaction.rs:41-43 *)
Definition is_none {A} (o : option A) : bool := match o with None => true | _ => false end.

(** src/data/transactions/transaction.rs:47-81, flattened *)
Definition header_entries (h : tx_header) : list (value * value) :=
  entry "snd" (is_zero (sender h)) (VBin (sender h)) ++
  entry "fee" (fee h =? 0) (VNum (fee h)) ++
  entry "fv" (first_valid h =? 0) (VNum (first_valid h)) ++
  entry "lv" (last_valid h =? 0) (VNum (last_valid h)) ++
  entry "note" (is_empty (note h)) (VBytes (note h)) ++
  entry "gen" (is_empty (tx_genesis_id h)) (VStr (tx_genesis_id h)) ++
  entry "gh" (is_zero (tx_genesis_hash h)) (VBytes (tx_genesis_hash h)) ++
  entry "grp" (is_zero (group h)) (VBytes (group h)) ++
  entry "lx" (is_zero (lease h)) (VBytes (lease h)) ++
  entry "rekey" (is_zero (rekey_to h)) (VBin (rekey_to h)).

(** src/data/basics/teal.rs:109-113 *)
Definition schema_value (s : schema) : value := VArr [VNum (num_uint s); VNum (num_byte_slice s)].
(** src/data/basics/user_balance.rs:304-344 *)
Definition asset_params_value (p : asset_parameters) : value :=
  VArr [VNum (total p); VNum (decimals p); VBool (default_frozen p); VStr (unit_name p); VStr (asset_name p);
        VStr (url p); VBytes (metadata_hash p); VBin (manager p); VBin (reserve p); VBin (freeze p); VBin (clawback p)].
(** src/data/transactions/application.rs:90-116, names of the variants *)
Definition completion_name (c : completion) : bytes :=
  match c with
  | NoOpOC => str "NoOpOC"
  | OptInOC => str "OptInOC"
  | CloseOutOC => str "CloseOutOC"
  | ClearStateOC => str "ClearStateOC"
  | UpdateApplicationOC => str "UpdateApplicationOC"
  | DeleteApplicationOC => str "DeleteApplicationOC"
  end.
(** src/data/transactions/transaction.rs:94-110, the tag *)
Definition type_name (f : tx_fields) : bytes :=
  match f with
  | Keyreg _ => str "keyreg"
  | Payment _ => str "pay"
  | AssetConfig _ => str "acfg"
  | AssetTransfer _ => str "axfer"
  | AssetFreeze _ => str "afrz"
  | AppCall _ => str "appl"
  | CompactCert _ => str "cert"
  end.
(** src/data/transactions/keyreg.rs:10-18, payment.rs:26-37, asset.rs:8-54, application.rs:25-85, compactcert.rs:13-18 *)
Definition field_entries (f : tx_fields) : list (value * value) :=
  match f with
  | Keyreg f =>
      [required "vote_pk" (VBin (vote_pk f)); required "selection_pk" (VBytes (selection_pk f));
       required "vote_first" (VNum (vote_first f)); required "vote_last" (VNum (vote_last f));
       required "vote_key_dilution" (VNum (kr_key_dilution f)); required "nonparticipation" (VBool (nonparticipation f))]
  | Payment f =>
      entry "rcv" (is_zero (receiver f)) (VBin (receiver f)) ++
      entry "amt" (amount f =? 0) (VNum (amount f)) ++
      entry "close" (is_none (close_remainder_to f)) (match close_remainder_to f with Some a => VBin a | None => VNil end)
  | AssetConfig f =>
      [required "config_asset" (VNum (config_asset f)); required "asset_params" (asset_params_value (config_params f))]
  | AssetTransfer f =>
      [required "transfer_asset" (VNum (transfer_asset f)); required "asset_amount" (VNum (asset_amount f));
       required "asset_sender" (VBin (asset_sender f)); required "asset_receiver" (VBin (asset_receiver f));
       required "asset_close_to" (VBin (asset_close_to f))]
  | AssetFreeze f =>
      [required "freeze_account" (VBin (freeze_account f)); required "freeze_asset" (VNum (freeze_asset f));
       required "asset_frozen" (VBool (asset_frozen f))]
  | AppCall f =>
      [required "application_id" (VNum (called_app f)); required "on_completion" (VStr (completion_name (on_completion f)));
       required "application_args" (VArr (map VBytes (application_args f)));
       required "accounts" (VArr (map VBin (app_accounts f)));
       required "foreign_apps" (VArr (map VNum (app_foreign_apps f)));
       required "foreign_assets" (VArr (map VNum (foreign_assets f)));
       required "local_state_schema" (schema_value (local_state_schema f));
       required "global_state_schema" (schema_value (global_state_schema f));
       required "approval_program" (VBytes (approval_program f));
       required "clear_state_program" (VBytes (clear_state_program f));
       required "extra_program_pages" (VNum (extra_program_pages f))]
  | CompactCert f =>
      [required "cert_round" (VNum (cert_round f)); required "cert_type" (VStr (str "Basic"))]
  end.
(** A transaction is a map: header entries, the tag, then the entries of its kind.
    src/data/transactions/transaction.rs:84-110 *)
Definition tx_value (t : transaction) : value :=
  VMap (header_entries (tx_head t) ++ required "type" (VStr (type_name (fields t))) :: field_entries (fields t)).

(** src/crypto/multisig.rs:21-32 *)
Definition subsig_value (s : MultisigModel.subsig) : value :=
  VArr [VBin (MultisigModel.key s); match MultisigModel.sig s with Some g => VBytes g | None => VNil end].
(** src/crypto/multisig.rs:27-32 *)
Definition multisig_value (m : MultisigModel.multisig) : value :=
  VArr [VNum (MultisigModel.version m); VNum (MultisigModel.threshold m); VArr (map subsig_value (MultisigModel.subsigs m))].
(** src/data/transactions/logicsig.rs:14-25 *)
Definition lsig_value (l : logic_sig) : value :=
  VArr [VBytes (logic l); VBytes (lsig_sig l); multisig_value (lsig_msig l); VArr (map VBytes (args l))].
(** An optional element of an array, for [skip_serializing_if] in src/data/transactions/signed_tx.rs:23-53 *)
Definition element (is_default : bool) (v : value) : list value := if is_default then [] else [v].
(** src/data/transactions/signed_tx.rs:15-17 *)
Definition sig_is_empty (s : bytes) : bool := bytes_eqb s null_sig.
(** src/data/transactions/signed_tx.rs:22-34: positional, defaults left out *)
Definition signed_tx_value (s : signed_tx) : value :=
  VArr (element (sig_is_empty (stx_sig s)) (VBytes (stx_sig s)) ++
        match stx_msig s with Some m => [multisig_value m] | None => [] end ++
        match stx_lsig s with Some l => [lsig_value l] | None => [] end ++
        [tx_value (stx_tx s)] ++
        element (is_zero (stx_auth s)) (VBin (stx_auth s))).

(** src/data/basics/teal.rs:14-24 *)
Definition delta_action_name (a : delta_action) : bytes :=
  match a with SetBytes => str "SetBytes" | SetUint => str "SetUint" | Delete => str "Delete" end.
(** src/data/basics/teal.rs:26-32 *)
Definition delta_value (d : value_delta) : value :=
  VArr [VStr (delta_action_name (action d)); VBytes (delta_bytes d); VNum (delta_uint d)].
(** src/data/basics/teal.rs:47-48 *)
Definition state_delta_value (s : state_delta) : value := VMap (map (fun e => (VStr (fst e), delta_value (snd e))) s).
(** [ApplyData::default() == *ad]; src/data/transactions/signed_tx.rs:11-13,51-52 *)
Definition ad_is_default (ad : apply_data) : bool :=
  match ad with
  | mkAD a b c d e (mkED g l o i) x y =>
      (a =? 0) && (b =? 0) && (c =? 0) && (d =? 0) && (e =? 0) && is_empty g && is_empty l && is_empty o && is_empty i &&
      (x =? 0) && (y =? 0)
  end.
(** src/data/transactions/transaction.rs:119-138 and src/data/transactions/teal.rs:13-27 *)
Fixpoint ad_value (ad : apply_data) : value :=
  match ad with
  | mkAD a b c d e delta x y =>
      VArr [VNum a; VNum b; VNum c; VNum d; VNum e; eval_delta_value delta; VNum x; VNum y]
  end
with eval_delta_value (ed : eval_delta) : value :=
  match ed with
  | mkED g l o i =>
      VArr [state_delta_value g; VMap (map (fun e => (VNum (fst e), state_delta_value (snd e))) l); VArr (map VStr o);
            VArr (map (fun s => VArr (signed_tx_value (fst s) :: element (ad_is_default (snd s)) (ad_value (snd s)))) i)]
  end.
(** src/data/transactions/signed_tx.rs:48-53 *)
Definition stad_value (s : signed_tx_with_ad) : value :=
  VArr (signed_tx_value (fst s) :: element (ad_is_default (snd s)) (ad_value (snd s))).
(** src/data/transactions/signed_tx.rs:38-46 *)
Definition stib_value (s : signed_tx_in_block) : value :=
  VArr (stad_value (stib_tx s) :: element (negb (has_genesis_id s)) (VBool (has_genesis_id s)) ++
        element (negb (has_genesis_hash s)) (VBool (has_genesis_hash s))).

(** ** Identifiers and signing *)

(** src/data/transactions/transaction.rs:112-116 with src/crypto/hashable.rs:35-38 *)
Definition tx_hash_rep (t : transaction) : bytes := hash_rep TRANSACTION (encode (tx_value t)).

Section Hash.
Variable H : bytes -> bytes.

(** src/data/transactions/transaction.rs:201-203 *)
Definition tx_id (t : transaction) : bytes := H (tx_hash_rep t).
(** src/data/transactions/signed_tx.rs:84-88 *)
Definition stib_hash_rep (s : signed_tx_in_block) : bytes := hash_rep SIGNED_TX_IN_BLOCK (encode (stib_value s)).
(** src/data/transactions/payset.rs:12-39: one text for both commitments *)
Definition payset_rep (p : list signed_tx_in_block) : bytes := hash_rep PAYSET_FLAT (encode (VArr (map stib_value p))).
(** src/data/transactions/payset.rs:18-20 *)
Definition commit_flat (p : list signed_tx_in_block) : bytes := H (payset_rep p).
(** src/data/transactions/payset.rs:22-24 *)
Definition commit_genesis (p : list signed_tx_in_block) : bytes := H (payset_rep p).
(** src/data/transactions/compactcert.rs:41-53 *)
Definition COMPACT_CERT_SENDER : bytes := H (hash_rep SPECIAL_ADDR (str "CompactCertSender")).

(** src/data/transactions/transaction.rs:206-222 *)
Definition sign (sc : scheme) (sk : bytes) (t : transaction) : signed_tx :=
  let sig := sign_with sc sk (tx_hash_rep t) in
  let pk := public sc sk in
  mkSigned sig None None t (if bytes_eqb pk (sender (tx_head t)) then zero32 else pk).
(** src/data/transactions/signed_tx.rs:69-75 *)
Definition authorizer (s : signed_tx) : bytes :=
  if is_zero (stx_auth s) then sender (tx_head (stx_tx s)) else stx_auth s.

(** ** Checks *)

(** src/data/transactions/errors.rs:11-130; the payloads, which repeat arguments, are left out *)
Inductive invalid_tx :=
| Dead | GenesisIdMismatch | GenesisHashMismatch | GenesisHashMissing | GenesisHashNotAllowed
| AssetTxsNotSupported | AppTxsNotSupported | CompactcertTxsNotSupported
| LeasesNotSupported | GroupsNotSupported | RekeyingNotSupported
| FeeLessThanMin | ZeroSender | BadValidityRange | ExcessiveValidityRange | NoteTooBig
| AssetNameTooBig | AssetUnitNameTooBig | AssetUrlTooBig | AssetDecimalsTooHigh
| KeyregFirstVotingRoundGreaterThanLastVotingRound | KeyregNonCoherentVotingKeys
| KeyregOfflineTransactionHasVotingRounds | KeyregUnsupportedSwitchToNonParticipating
| KeyregGoingOnlineWithNonParticipating | KeyregGoingOnlineWithZeroVoteLast
| KeyregGoingOnlineWithFirstVoteAfterLastValid
| ChangeProgramWithoutUpdate | ChangeAppStateSchema | ChangeExtraProgramPages
| TooManyAppArgs | AppArgsTotalTooLong | AccountsTooLong | ForeignAppTooLong | ForeignAssetsTooLong
| TooManyReferences | TooManyExtraProgramPages | ApprovalProgramTooLong | ClearStateProgramTooLong
| AppProgramsTooLong | LocalStateSchemaTooLarge | GlobalStateSchemaTooLarge
| CCInvalidSender | CCNonZeroFee | CCNonEmptyNote | CCNonZeroGroup | CCNonZeroRekey | CCNonZeroLease
| CannotCloseToSender | CannotSpendFromFeeSink | CannotCloseFeeSink.
(** src/data/transactions/errors.rs:11-130 and the return type of src/data/transactions/transaction.rs:242 *)
Definition result := outcome invalid_tx unit.

(** src/data/transactions/transaction.rs:583-589, the context *)
Record context := mkContext { ctx_round : N; ctx_proto : params; ctx_genesis_id : bytes; ctx_genesis_hash : bytes }.

(** src/data/transactions/transaction.rs:158-196 *)
Definition alive (h : tx_header) (tc : context) : result :=
  if (ctx_round tc <? first_valid h) || (last_valid h <? ctx_round tc) then Err Dead
  else if negb (is_empty (tx_genesis_id h)) && negb (bytes_eqb (tx_genesis_id h) (ctx_genesis_id tc)) then Err GenesisIdMismatch
  else if support_genesis_hash (ctx_proto tc) then
    if negb (is_zero (tx_genesis_hash h)) && negb (bytes_eqb (tx_genesis_hash h) (ctx_genesis_hash tc)) then Err GenesisHashMismatch
    else if require_genesis_hash (ctx_proto tc) && is_zero (tx_genesis_hash h) then Err GenesisHashMissing
    else Ok tt
  else if negb (is_zero (tx_genesis_hash h)) then Err GenesisHashNotAllowed
  else Ok tt.

(** src/data/transactions/payment.rs:40-59 *)
Definition check_spender (f : payment) (h : tx_header) (spec : special_addresses) : result :=
  if match close_remainder_to f with Some c => bytes_eqb (sender h) c | None => false end then Err CannotCloseToSender
  else if bytes_eqb (sender h) (fee_sink spec) then
    if negb (bytes_eqb (receiver f) (rewards_pool spec)) then Err CannotSpendFromFeeSink
    else if negb (is_none (close_remainder_to f)) then Err CannotCloseFeeSink
    else Ok tt
  else Ok tt.

(** src/data/transactions/keyreg.rs:21-54 *)
Definition check_coherency (m : mode) (f : keyreg) (h : tx_header) : result :=
  if vote_last f <? vote_first f then Err KeyregFirstVotingRoundGreaterThanLastVotingRound
  else if negb ((bytes_eqb (vote_pk f) default_key && bytes_eqb (selection_pk f) zero32 && (kr_key_dilution f =? 0)) ||
                (negb (bytes_eqb (vote_pk f) default_key) && negb (bytes_eqb (selection_pk f) zero32) && negb (kr_key_dilution f =? 0)))
  then Err KeyregNonCoherentVotingKeys
  else if kr_key_dilution f =? 0 then
    if negb (vote_first f =? 0) || negb (vote_last f =? 0) then Err KeyregOfflineTransactionHasVotingRounds else Ok tt
  else if vote_last f =? 0 then Err KeyregGoingOnlineWithZeroVoteLast
  else match add64 m (last_valid h) 1 with
       | None => Panic
       | Some bound => if bound <? vote_first f then Err KeyregGoingOnlineWithFirstVoteAfterLastValid else Ok tt
       end.

(** [u32] arithmetic; src/data/transactions/transaction.rs:355-384 *)
Definition add32 (m : mode) (a b : N) : option N :=
  if a + b <? 2 ^ 32 then Some (a + b) else match m with Debug => None | Release => Some ((a + b) mod 2 ^ 32) end.
(** src/data/transactions/transaction.rs:355-384 *)
Definition mul32 (m : mode) (a b : N) : option N :=
  if a * b <? 2 ^ 32 then Some (a * b) else match m with Debug => None | Release => Some ((a * b) mod 2 ^ 32) end.

(** [Vec::len], src/data/transactions/transaction.rs:297-359 *)
Definition len {A} (l : list A) : N := N.of_nat (length l).
(** src/data/transactions/transaction.rs:283-284 *)
Definition schema_is_default (s : schema) : bool := (num_uint s =? 0) && (num_byte_slice s =? 0).

(** src/data/transactions/transaction.rs:355-384: the checks of program sizes and schemas *)
Definition check_programs (m : mode) (proto : params) (f : app_call) (effective_epp : N) : result :=
  match add32 m 1 effective_epp with
  | None => Panic
  | Some pages =>
      match mul32 m pages (max_app_program_len proto) with
      | None => Panic
      | Some page_limit =>
          if page_limit <? len (approval_program f) then Err ApprovalProgramTooLong
          else if page_limit <? len (clear_state_program f) then Err ClearStateProgramTooLong
          else match mul32 m pages (max_app_total_program_len proto) with
               | None => Panic
               | Some total_limit =>
                   if total_limit <? len (approval_program f) + len (clear_state_program f) then Err AppProgramsTooLong
                   else if max_local_schema_entries proto <? num_entries (local_state_schema f) then Err LocalStateSchemaTooLarge
                   else if max_global_schema_entries proto <? num_entries (global_state_schema f) then Err GlobalStateSchemaTooLarge
                   else Ok tt
               end
      end
  end.
(** src/data/transactions/transaction.rs:267-385 *)
Definition check_app_call (m : mode) (proto : params) (f : app_call) : result :=
  if negb (application proto) then Err AppTxsNotSupported
  else if negb (called_app f =? 0) && match on_completion f with UpdateApplicationOC => false | _ => true end &&
          (negb (is_empty (approval_program f)) || negb (is_empty (clear_state_program f))) then Err ChangeProgramWithoutUpdate
  else if negb (called_app f =? 0) && (negb (schema_is_default (local_state_schema f)) || negb (schema_is_default (global_state_schema f)))
  then Err ChangeAppStateSchema
  else if negb (called_app f =? 0) && negb (extra_program_pages f =? 0) then Err ChangeExtraProgramPages
  else
    let effective_epp :=
      if negb (called_app f =? 0) && enable_extra_pages_on_app_update proto then max_extra_app_program_pages proto
      else extra_program_pages f in
    if max_app_args proto <? len (application_args f) then Err TooManyAppArgs
    else if max_app_total_arg_len proto <? fold_left (fun s a => sat_add s (len a)) (application_args f) 0 then Err AppArgsTotalTooLong
    else if max_app_tx_accounts proto <? len (app_accounts f) then Err AccountsTooLong
    else if max_app_tx_foreign_apps proto <? len (app_foreign_apps f) then Err ForeignAppTooLong
    else if max_app_tx_foreign_assets proto <? len (foreign_assets f) then Err ForeignAssetsTooLong
    else if max_app_total_tx_references proto <? len (app_accounts f) + len (app_foreign_apps f) + len (foreign_assets f) then Err TooManyReferences
    else if max_extra_app_program_pages proto <? extra_program_pages f then Err TooManyExtraProgramPages
    else check_programs m proto f effective_epp.

(** src/data/transactions/transaction.rs:236-406, the first match *)
Definition check_fields (m : mode) (spec : special_addresses) (proto : params) (t : transaction) : result :=
  let h := tx_head t in
  match fields t with
  | Payment f => check_spender f h spec
  | Keyreg f =>
      (let? _ := if enable_keyreg_coherency_check proto then check_coherency m f h else Ok tt in
       if nonparticipation f then
         if negb (support_become_non_participating_transactions proto) then Err KeyregUnsupportedSwitchToNonParticipating
         else if negb (bytes_eqb (vote_pk f) default_key || bytes_eqb (selection_pk f) zero32) then Err KeyregGoingOnlineWithNonParticipating
         else Ok tt
       else Ok tt)%outcome
  | AssetConfig _ | AssetTransfer _ | AssetFreeze _ => if negb (asset proto) then Err AssetTxsNotSupported else Ok tt
  | AppCall f => check_app_call m proto f
  | CompactCert _ =>
      if compact_cert_rounds proto =? 0 then Err CompactcertTxsNotSupported
      else if negb (bytes_eqb (sender h) COMPACT_CERT_SENDER) then Err CCInvalidSender
      else if negb (fee h =? 0) then Err CCNonZeroFee
      else if negb (is_empty (note h)) then Err CCNonEmptyNote
      else if negb (is_zero (group h)) then Err CCNonZeroGroup
      else if negb (is_zero (rekey_to h)) then Err CCNonZeroRekey
      else if negb (is_zero (lease h)) then Err CCNonZeroLease
      else Ok tt
  end.
(** src/data/transactions/transaction.rs:452 *)
Definition is_compact_cert (t : transaction) : bool := match fields t with CompactCert _ => true | _ => false end.
(** src/data/transactions/transaction.rs:451-460 *)
Definition check_fee (proto : params) (t : transaction) : result :=
  if negb (enable_fee_pooling proto) && (fee (tx_head t) <=? min_tx_fee proto) && negb (is_compact_cert t) then Err FeeLessThanMin
  else Ok tt.
(** src/data/transactions/transaction.rs:461-476 *)
Definition check_validity (proto : params) (h : tx_header) : result :=
  if last_valid h <? first_valid h then Err BadValidityRange
  else if max_tx_life proto <? last_valid h - first_valid h then Err ExcessiveValidityRange
  else if max_tx_note_bytes proto <? len (note h) then Err NoteTooBig
  else Ok tt.
(** src/data/transactions/transaction.rs:478-501 *)
Definition check_asset_params (proto : params) (t : transaction) : result :=
  match fields t with
  | AssetConfig f =>
      if max_asset_name_bytes proto <? len (asset_name (config_params f)) then Err AssetNameTooBig
      else if max_asset_unit_name_bytes proto <? len (unit_name (config_params f)) then Err AssetUnitNameTooBig
      else if max_asset_url_bytes proto <? len (url (config_params f)) then Err AssetUrlTooBig
      else if max_asset_decimals proto <? decimals (config_params f) then Err AssetDecimalsTooHigh
      else Ok tt
  | _ => Ok tt
  end.
(** src/data/transactions/transaction.rs:503-516 *)
Definition check_header (spec : special_addresses) (proto : params) (h : tx_header) : result :=
  if bytes_eqb (sender h) (rewards_pool spec) then Panic
  else if is_zero (sender h) then Err ZeroSender
  else if negb (support_transaction_leases proto) && negb (is_zero (lease h)) then Err LeasesNotSupported
  else if negb (support_tx_groups proto) && negb (is_zero (group h)) then Err GroupsNotSupported
  else if negb (support_rekeying proto) && negb (is_zero (rekey_to h)) then Err RekeyingNotSupported
  else Ok tt.
(** src/data/transactions/transaction.rs:231-517 *)
Definition is_well_formed (m : mode) (spec : special_addresses) (proto : params) (t : transaction) : result :=
  (let? _ := check_fields m spec proto t in
   let? _ := check_fee proto t in
   let? _ := check_validity proto (tx_head t) in
   let? _ := check_asset_params proto t in
   check_header spec proto (tx_head t))%outcome.

End Hash.

(** ** Addresses and amounts *)

(** src/data/transactions/transaction.rs:521-544 *)
Definition relevant_addrs (t : transaction) (spec : special_addresses) : list bytes :=
  [sender (tx_head t); fee_sink spec] ++
  match fields t with
  | Payment f => receiver f :: match close_remainder_to f with Some c => [c] | None => [] end
  | AssetTransfer f =>
      asset_receiver f :: (if negb (is_zero (asset_close_to f)) then [asset_close_to f] else []) ++
      (if negb (is_zero (asset_sender f)) then [asset_sender f] else [])
  | _ => []
  end.
(** src/data/transactions/transaction.rs:225-227 *)
Definition match_address (t : transaction) (addr : bytes) (spec : special_addresses) : bool :=
  existsb (bytes_eqb addr) (relevant_addrs t spec).
(** src/data/transactions/transaction.rs:547-552 *)
Definition tx_amount (t : transaction) : N := match fields t with Payment f => amount f | _ => 0 end.
(** src/data/transactions/transaction.rs:556-562 *)
Definition get_receiver_address (t : transaction) : option bytes :=
  match fields t with
  | Payment f => Some (receiver f)
  | AssetTransfer f => Some (asset_receiver f)
  | _ => None
  end.

(** src/data/transactions/signed_tx.rs:108-134; the count fits [u64] *)
Definition fee_credit (tx_group : list signed_tx) (min_fee : N) : option N :=
  let '(min_fee_count, fees_paid) :=
    fold_left (fun '(count, paid) (s : signed_tx) =>
      (match fields (stx_tx s) with CompactCert _ => count + 1 | _ => count end,
       sat_add paid (fee (tx_head (stx_tx s))))) tx_group (0, 0) in
  if min_fee * min_fee_count <? two64 then
    if fees_paid <? min_fee * min_fee_count then None else Some (fees_paid - min_fee * min_fee_count)
  else None.
(** src/data/transactions/signed_tx.rs:92-100 *)
Definition wrap_signed_txs_with_ad (tx_group : list signed_tx) : list signed_tx_with_ad :=
  map (fun t => (t, no_apply_data)) tx_group.
