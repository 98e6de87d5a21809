(** Decoding of transactions: what the derived [Deserialize] implementations do with a message-pack
    value.

    src/protocol/codec.rs:10-12 reads one value and ignores what follows.  [None] is a decoding error;
    which one is not modelled.

    [Transaction] has only flattened fields, so serde first buffers the whole map and then gives the
    buffered entries to [Header] and to [TxFields]; buffered values are read by serde's
    [ContentDeserializer].  Simplified: integer keys among the fields, which serde takes for the places of
    fields, integer tags and the map forms of unit variants are refused; [encode] writes none of them.  The
    limit of 1024 on the nesting of values, which only values that are passed over can reach, is left out. *)
From Verif Require Import Base.
From Verif Require Export TxModel StructModel.
From Verif Require Import JsonModel.
From Verif Require MultisigModel.
Local Open Scope N_scope.

(** ** Values *)

(** integers of the given range; serde, for src/protocol/codec.rs:10-12 *)
Definition get_num (max : N) (v : value) : option N :=
  match v with VInt z => if ((0 <=? z) && (z <=? Z.of_N max))%Z then Some (Z.to_N z) else None | _ => None end.
(** serde, for src/protocol/codec.rs:10-12 *)
Definition get_u64 : value -> option N := get_num (2 ^ 64 - 1).
(** serde, for src/protocol/codec.rs:10-12 *)
Definition get_u32 : value -> option N := get_num (2 ^ 32 - 1).
(** serde, for src/protocol/codec.rs:10-12 *)
Definition get_u8 (v : value) : option byte := match get_num 255 v with Some n => Some (b8 n) | None => None end.
(** serde, for src/protocol/codec.rs:10-12 *)
Definition get_bool (v : value) : option bool := match v with VBool b => Some b | _ => None end.
(** [String]: also from bytes, in both cases if they are UTF-8; serde, for src/protocol/codec.rs:10-12 *)
Definition get_str (v : value) : option bytes :=
  match v with VStr s | VBin s => if utf8 s then Some s else None | _ => None end.
(** each of a list of values; serde, for src/protocol/codec.rs:10-12 *)
Fixpoint get_all {A} (get : value -> option A) (l : list value) : option (list A) :=
  match l with
  | [] => Some []
  | v :: r => match get v, get_all get r with Some a, Some l => Some (a :: l) | _, _ => None end
  end.
(** [Vec<T>]; serde, for src/protocol/codec.rs:10-12 *)
Definition get_vec {A} (get : value -> option A) (v : value) : option (list A) := match v with VArr l => get_all get l | _ => None end.
(** [[u8; n]]; serde, for src/protocol/codec.rs:10-12 *)
Definition get_array (n : nat) (v : value) : option bytes :=
  match get_vec get_u8 v with Some s => if Nat.eqb (length s) n then Some s else None | None => None end.
(** src/data/basics/address.rs:27-28: derived, so an array of 32 numbers; the bytes that address.rs:30-34
    writes are not one *)
Definition get_address : value -> option bytes := get_array 32.
(** [Option<T>]; serde, for src/protocol/codec.rs:10-12 *)
Definition get_option {A} (get : value -> option A) (v : value) : option (option A) :=
  match v with VNil => Some None | _ => match get v with Some a => Some (Some a) | None => None end end.
(** [serde_bytes::ByteBuf] *)
Definition get_byte_buf (v : value) : option bytes :=
  match v with VStr s | VBin s => Some s | _ => get_vec get_u8 v end.
(** a unit variant by its name; serde, for src/protocol/codec.rs:10-12 *)
Definition get_variant {A} (names : list (bytes * A)) (v : value) : option A :=
  match v with
  | VStr s | VBin s => match List.find (fun e => bytes_eqb (fst e) s) names with Some (_, a) => Some a | None => None end
  | _ => None
  end.

Notation "x <- a ;; b" := (match a with Some x => b | None => None end) (at level 60, a at next level, right associativity).

(** src/data/transactions/transaction.rs:46-81 *)
Definition get_header (l : list (value * value)) : option tx_header :=
  a <- or_default "snd" get_address zero32 l ;; b <- or_default "fee" get_u64 0 l ;; c <- or_default "fv" get_u64 0 l ;;
  d <- or_default "lv" get_u64 0 l ;; e <- or_default "note" (get_vec get_u8) [] l ;; f <- or_default "gen" get_str [] l ;;
  g <- or_default "gh" (get_array 32) zero32 l ;; h <- or_default "grp" (get_array 32) zero32 l ;;
  i <- or_default "lx" (get_array 32) zero32 l ;; j <- or_default "rekey" get_address zero32 l ;;
  Some (mkTxHeader a b c d e f g h i j).
(** src/data/transactions/transaction.rs:46-81: the names of the header fields *)
Definition header_keys : list bytes :=
  [str "snd"; str "fee"; str "fv"; str "lv"; str "note"; str "gen"; str "gh"; str "grp"; str "lx"; str "rekey"].

(** src/data/basics/teal.rs:109-113 *)
Definition get_schema (v : value) : option schema :=
  match fields_of ["num_uint"; "num_byte_slice"]%string v with Some [a; b] => x <- get_u64 a ;; y <- get_u64 b ;; Some (mkSchema x y) | _ => None end.
(** src/data/basics/user_balance.rs:304-344 *)
Definition params_fields : list String.string :=
  ["total"; "decimals"; "default_frozen"; "unit_name"; "asset_name"; "url"; "metadata_hash"; "manager"; "reserve"; "freeze"; "clawback"]%string.
(** src/data/basics/user_balance.rs:304-344 *)
Definition get_asset_params (v : value) : option asset_parameters :=
  match fields_of params_fields v with
  | Some [a; b; c; d; e; f; g; h; i; j; k] =>
      a <- get_u64 a ;; b <- get_u32 b ;; c <- get_bool c ;; d <- get_str d ;; e <- get_str e ;; f <- get_str f ;;
      g <- get_array 32 g ;; h <- get_address h ;; i <- get_address i ;; j <- get_address j ;; k <- get_address k ;;
      Some (mkAssetParams a b c d e f g h i j k)
  | _ => None
  end.
(** src/data/transactions/application.rs:88-118 *)
Definition completions : list (bytes * completion) :=
  map (fun c => (completion_name c, c)) [NoOpOC; OptInOC; CloseOutOC; ClearStateOC; UpdateApplicationOC; DeleteApplicationOC].

Section Keys.
(** Whether [ed25519_dalek::PublicKey::from_bytes] accepts the bytes. *)
Variable valid_key : bytes -> bool.

(** [ed25519_dalek::PublicKey] *)
Definition get_key (v : value) : option bytes := s <- get_byte_buf v ;; if valid_key s then Some s else None.

(** src/data/transactions/{keyreg.rs:10-18, payment.rs:26-37, asset.rs:8-54, application.rs:25-85, compactcert.rs:13-18} *)
Definition get_keyreg (l : list (value * value)) : option tx_fields :=
  a <- need "vote_pk" get_key l ;; b <- need "selection_pk" (get_array 32) l ;; c <- need "vote_first" get_u64 l ;;
  d <- need "vote_last" get_u64 l ;; e <- need "vote_key_dilution" get_u64 l ;; f <- need "nonparticipation" get_bool l ;;
  Some (Keyreg (mkKeyreg a b c d e f)).
(** src/data/transactions/payment.rs:26-37 *)
Definition get_payment (l : list (value * value)) : option tx_fields :=
  a <- or_default "rcv" get_address zero32 l ;; b <- or_default "amt" get_u64 0 l ;; c <- or_default "close" (get_option get_address) None l ;;
  Some (Payment (mkPayment a b c)).
(** src/data/transactions/asset.rs:8-54 *)
Definition get_asset_config (l : list (value * value)) : option tx_fields :=
  a <- need "config_asset" get_u64 l ;; b <- need "asset_params" get_asset_params l ;; Some (AssetConfig (mkAssetConfig a b)).
(** src/data/transactions/asset.rs:8-54 *)
Definition get_asset_transfer (l : list (value * value)) : option tx_fields :=
  a <- need "transfer_asset" get_u64 l ;; b <- need "asset_amount" get_u64 l ;; c <- need "asset_sender" get_address l ;;
  d <- need "asset_receiver" get_address l ;; e <- need "asset_close_to" get_address l ;; Some (AssetTransfer (mkAssetTransfer a b c d e)).
(** src/data/transactions/asset.rs:8-54 *)
Definition get_asset_freeze (l : list (value * value)) : option tx_fields :=
  a <- need "freeze_account" get_address l ;; b <- need "freeze_asset" get_u64 l ;; c <- need "asset_frozen" get_bool l ;;
  Some (AssetFreeze (mkAssetFreeze a b c)).
(** src/data/transactions/application.rs:25-85 *)
Definition get_app_call (l : list (value * value)) : option tx_fields :=
  a <- need "application_id" get_u64 l ;; b <- need "on_completion" (get_variant completions) l ;;
  c <- need "application_args" (get_vec (get_vec get_u8)) l ;; d <- need "accounts" (get_vec get_address) l ;;
  e <- need "foreign_apps" (get_vec get_u64) l ;; f <- need "foreign_assets" (get_vec get_u64) l ;;
  g <- need "local_state_schema" get_schema l ;; h <- need "global_state_schema" get_schema l ;;
  i <- need "approval_program" (get_vec get_u8) l ;; j <- need "clear_state_program" (get_vec get_u8) l ;;
  k <- need "extra_program_pages" get_u32 l ;; Some (AppCall (mkAppCall a b c d e f g h i j k)).
(** src/data/transactions/compactcert.rs:13-18 *)
Definition get_compact_cert (l : list (value * value)) : option tx_fields :=
  a <- need "cert_round" get_u64 l ;; _ <- need "cert_type" (get_variant [(str "Basic", tt)]) l ;; Some (CompactCert (mkCert a)).
(** src/data/transactions/transaction.rs:93-110: by the tag *)
Definition kinds : list (bytes * (list (value * value) -> option tx_fields)) :=
  [(str "keyreg", get_keyreg); (str "pay", get_payment); (str "acfg", get_asset_config); (str "axfer", get_asset_transfer);
   (str "afrz", get_asset_freeze); (str "appl", get_app_call); (str "cert", get_compact_cert)].
(** src/data/transactions/transaction.rs:93-110 *)
Definition get_fields (l : list (value * value)) : option tx_fields :=
  if names_only l then k <- need "type" (get_variant kinds) l ;; k l else None.

(** keys serde can buffer *)
Definition plain_key (e : value * value) : bool := match fst e with VExt _ _ | VArr _ | VMap _ => false | _ => true end.
(** src/data/transactions/transaction.rs:84-91: the entries named like header fields go to the header,
    the others to the fields *)
Definition get_tx (v : value) : option transaction :=
  match v with
  | VMap l =>
      if forallb plain_key l then
        h <- get_header l ;;
        f <- get_fields (filter (fun e => negb (existsb (fun k => key_is k e) header_keys)) l) ;;
        Some (mkTx h f)
      else None
  | _ => None
  end.
(** [protocol::decode::<Transaction>]; src/protocol/codec.rs:10-12 for src/data/transactions/transaction.rs:84-91 *)
Definition decode_tx (s : bytes) : option transaction := v <- decode s ;; get_tx v.

(** ** Signed transactions *)

(** [bins]: whether the reader gives message-pack bytes as a sequence where one is asked for, which
    versions of rmp-serde do differently; [valid_sig]: whether [ed25519::Signature] accepts the 64 bytes.
    What is proved holds for both readers and all such tests.  Structs are read from arrays or maps. *)
Variables (bins : bool) (valid_sig : bytes -> bool).
(** [Vec<u8>]; serde, for src/protocol/codec.rs:10-12 *)
Definition get_seq (v : value) : option bytes := match v with VBin s => if bins then Some s else None | _ => get_vec get_u8 v end.
(** [[u8; n]]; serde, for src/protocol/codec.rs:10-12 *)
Definition get_fixed (n : nat) (v : value) : option bytes := s <- get_seq v ;; if Nat.eqb (length s) n then Some s else None.
(** [ed25519::Signature], of src/data/transactions/signed_tx.rs:26 *)
Definition get_sig (v : value) : option bytes := s <- get_fixed 64 v ;; if valid_sig s then Some s else None.
(** src/crypto/multisig.rs:21-25 *)
Definition get_subsig (v : value) : option MultisigModel.subsig :=
  match v with
  | VArr [k; s] => k <- get_key k ;; s <- get_option get_sig s ;; Some (MultisigModel.mkSubsig k s)
  | VMap l =>
      if names_only l then
        k <- need "key" get_key l ;; s <- or_default "sig" (get_option get_sig) None l ;; Some (MultisigModel.mkSubsig k s)
      else None
  | _ => None
  end.
(** src/crypto/multisig.rs:27-32 *)
Definition get_multisig (v : value) : option MultisigModel.multisig :=
  match fields_of ["version"; "threshold"; "subsigs"]%string v with
  | Some [a; b; c] =>
      a <- get_num 255 a ;; b <- get_num 255 b ;; c <- get_vec get_subsig c ;; Some (MultisigModel.mkMsig a b c)
  | _ => None
  end.
(** src/data/transactions/logicsig.rs:14-25 *)
Definition get_lsig (v : value) : option logic_sig :=
  match fields_of ["logic"; "sig"; "msig"; "args"]%string v with
  | Some [a; b; c; d] => a <- get_seq a ;; b <- get_sig b ;; c <- get_multisig c ;; d <- get_vec get_seq d ;; Some (mkLsig a b c d)
  | _ => None
  end.
(** src/data/transactions/signed_tx.rs:22-34: fields missing at the end of an array get their
    defaults, so at least four are needed *)
Definition get_signed_tx (v : value) : option signed_tx :=
  match v with
  | VArr (a :: b :: c :: d :: r) =>
      a <- get_sig a ;; b <- get_option get_multisig b ;; c <- get_option get_lsig c ;; d <- get_tx d ;;
      match r with
      | [] => Some (mkSigned a b c d zero32)
      | [e] => e <- get_fixed 32 e ;; Some (mkSigned a b c d e)
      | _ => None
      end
  | VMap l =>
      if names_only l then
        a <- need "sig" get_sig l ;; b <- or_default "msig" (get_option get_multisig) None l ;;
        c <- or_default "lsig" (get_option get_lsig) None l ;; d <- need "tx" get_tx l ;; e <- or_default "auth_addr" (get_fixed 32) zero32 l ;;
        Some (mkSigned a b c d e)
      else None
  | _ => None
  end.
(** [protocol::decode::<SignedTx>]; src/protocol/codec.rs:10-12 for src/data/transactions/signed_tx.rs:24-34 *)
Definition decode_signed (s : bytes) : option signed_tx := v <- decode s ;; get_signed_tx v.
End Keys.
