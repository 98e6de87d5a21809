(** Vocabulary for what is read as transactions of blocks, and for the forms in which they can be given. *)
From Coq Require Import String.
From Verif Require Import Base StibDecodeModel TxCodecSpec TxDecodeSpec GenDecodeSpec DecodedSpec NamedSpec StibDecodeSpec.
Local Open Scope list_scope.
Local Open Scope N_scope.

(** A transaction with its results, of the right type, and inner ones as well: numbers in their ranges, UTF-8 strings,
    one entry per key in maps. *)
Inductive typed (valid_key valid_sig : bytes -> bool) : signed_tx_with_ad -> Prop :=
| typed_intro s a b c d e g l o i x y :
    signed_typed valid_key valid_sig s -> n64 a -> n64 b -> n64 c -> n64 d -> n64 e -> n64 x -> n64 y ->
    delta_in_memory g -> NoDup (map fst l) -> Forall (fun k => n64 (fst k) /\ delta_in_memory (snd k)) l -> Forall is_utf8 o ->
    (forall t, In t i -> typed valid_key valid_sig t) ->
    typed valid_key valid_sig (s, mkAD a b c d e (mkED g l o i) x y).

(** The names of the fields in the source. *)
Definition stib_names : list string := ["tx"; "has_genesis_id"; "has_genesis_hash"]%string.
Definition stad_names : list string := ["tx"; "ad"]%string.
Definition ad_names : list string :=
  ["closing_amount"; "asset_closing_amount"; "sender_rewards"; "receiver_rewards"; "close_rewards"; "eval_delta"; "config_asset"; "application_id"]%string.
Definition eval_delta_names : list string := ["global_delta"; "local_deltas"; "logs"; "inner_txs"]%string.

(** A struct with these fields has these values, where fields from the place [required] on may be missing if they are as
    in [defaults]: in an array at the end, in a map anywhere. *)
Definition struct_may_lack (names : list string) (required : nat) (defaults : list value) (values : list value) (v : value) : Prop :=
  length values = length names /\
  ((exists l missing, v = VArr l /\ values = l ++ missing /\ (required <= length l)%nat /\
      missing = skipn (length l - required) defaults) \/
   (exists l missing, v = VMap l /\ carries names values (l ++ missing) /\
      Forall (fun e => exists n d, In (n, d) (combine (skipn required names) defaults) /\ e = (VStr (str n), d)) missing)).
