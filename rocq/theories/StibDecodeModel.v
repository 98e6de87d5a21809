(** Decoding of the transactions of a block: what the derived [Deserialize] implementations do with a
    message-pack value.  As in [TxDecodeModel] and [GenDecodeModel]: [None] is a decoding error; [bins]
    says whether the reader gives message-pack bytes where a sequence is asked for; [valid_key] and
    [valid_sig] what ed25519 accepts.  Simplified: the limit that rmp-serde puts on how deep values are nested is left out. *)
From Verif Require Import Base.
From Verif Require Export GenDecodeModel.
Local Open Scope N_scope.

(** How deep arrays and maps are nested: the fuel of [get_ad], one unit of which goes for each level of
    inner transactions, hence for several levels of arrays; of src/protocol/codec.rs:10-12 *)
Fixpoint nesting (v : value) : nat :=
  match v with
  | VArr l => S (fold_right Nat.max O (map nesting l))
  | VMap l => S (fold_right Nat.max O (map (fun e => Nat.max (nesting (fst e)) (nesting (snd e))) l))
  | _ => O
  end.

(** src/data/basics/teal.rs:14-24 *)
Definition actions : list (bytes * delta_action) := map (fun a => (delta_action_name a, a)) [SetBytes; SetUint; Delete].

Section Read.
Variables (valid_key : bytes -> bool) (bins : bool) (valid_sig : bytes -> bool).

(** src/data/basics/teal.rs:27-32 *)
Definition get_value_delta (v : value) : option value_delta :=
  match fields_of ["action"; "bytes"; "uint"]%string v with
  | Some [a; b; c] => a <- get_variant actions a ;; b <- get_seq bins b ;; c <- get_u64 c ;; Some (mkDelta a b c)
  | _ => None
  end.
(** src/data/basics/teal.rs:47-48 *)
Definition get_state_delta : value -> option state_delta := get_map bytes_eqb get_str get_value_delta.
(** src/data/transactions/teal.rs:13-27, given how inner transactions are read *)
Definition get_eval_delta (get : value -> option signed_tx_with_ad) (v : value) : option eval_delta :=
  match fields_of ["global_delta"; "local_deltas"; "logs"; "inner_txs"]%string v with
  | Some [a; b; c; d] =>
      a <- get_state_delta a ;; b <- get_map N.eqb get_u64 get_state_delta b ;; c <- get_vec get_str c ;; d <- get_vec get d ;;
      Some (mkED a b c d)
  | _ => None
  end.
(** src/data/transactions/signed_tx.rs:48-53, given how results are read; results that are missing are the default *)
Definition get_stad (get : value -> option apply_data) (v : value) : option signed_tx_with_ad :=
  match v with
  | VArr [a] => a <- get_signed_tx valid_key bins valid_sig a ;; Some (a, no_apply_data)
  | VArr [a; b] => a <- get_signed_tx valid_key bins valid_sig a ;; b <- get b ;; Some (a, b)
  | VMap l =>
      if names_only l then
        a <- need "tx" (get_signed_tx valid_key bins valid_sig) l ;; b <- or_default "ad" get no_apply_data l ;; Some (a, b)
      else None
  | _ => None
  end.
(** src/data/transactions/transaction.rs:119-138 *)
Fixpoint get_ad (fuel : nat) (v : value) : option apply_data :=
  match fuel with
  | O => None
  | S fuel =>
      match fields_of ["closing_amount"; "asset_closing_amount"; "sender_rewards"; "receiver_rewards"; "close_rewards"; "eval_delta";
                       "config_asset"; "application_id"]%string v with
      | Some [a; b; c; d; e; f; g; h] =>
          a <- get_u64 a ;; b <- get_u64 b ;; c <- get_u64 c ;; d <- get_u64 d ;; e <- get_u64 e ;;
          f <- get_eval_delta (get_stad (get_ad fuel)) f ;; g <- get_u64 g ;; h <- get_u64 h ;;
          Some (mkAD a b c d e f g h)
      | _ => None
      end
  end.
(** src/data/transactions/signed_tx.rs:37-45; flags that are missing at the end of an array are the default *)
Definition get_stib (fuel : nat) (v : value) : option signed_tx_in_block :=
  match v with
  | VArr [a] => a <- get_stad (get_ad fuel) a ;; Some (mkStib a false false)
  | VArr [a; b] => a <- get_stad (get_ad fuel) a ;; b <- get_bool b ;; Some (mkStib a b false)
  | VArr [a; b; c] => a <- get_stad (get_ad fuel) a ;; b <- get_bool b ;; c <- get_bool c ;; Some (mkStib a b c)
  | VMap l =>
      if names_only l then
        a <- need "tx" (get_stad (get_ad fuel)) l ;; b <- or_default "has_genesis_id" get_bool false l ;;
        c <- or_default "has_genesis_hash" get_bool false l ;; Some (mkStib a b c)
      else None
  | _ => None
  end.
(** [protocol::decode::<ApplyData>]; src/protocol/codec.rs:10-12 *)
Definition decode_ad (s : bytes) : option apply_data := v <- decode s ;; get_ad (nesting v) v.
(** [protocol::decode::<SignedTxWithAD>]; src/protocol/codec.rs:10-12 *)
Definition decode_stad (s : bytes) : option signed_tx_with_ad := v <- decode s ;; get_stad (get_ad (nesting v)) v.
(** [protocol::decode::<EvalDelta>]; src/protocol/codec.rs:10-12 *)
Definition decode_eval_delta (s : bytes) : option eval_delta := v <- decode s ;; get_eval_delta (get_stad (get_ad (nesting v))) v.
(** [protocol::decode::<SignedTxInBlock>]; src/protocol/codec.rs:10-12 *)
Definition decode_stib (s : bytes) : option signed_tx_in_block := v <- decode s ;; get_stib (nesting v) v.
(** [protocol::decode::<Payset>]; src/protocol/codec.rs:10-12 for src/data/transactions/payset.rs:12-14 *)
Definition decode_payset (s : bytes) : option (list signed_tx_in_block) := v <- decode s ;; get_vec (get_stib (nesting v)) v.
End Read.
