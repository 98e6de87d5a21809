(** Vocabulary for reading transactions of blocks. *)
From Verif Require Import Base StibDecodeModel TxCodecSpec TxDecodeSpec GenDecodeSpec.
Local Open Scope N_scope.

(** A signed transaction that can be read back at all: all three kinds of signature, no account named. *)
Definition signed_readable (valid_key : bytes -> bool) (bins : bool) (valid_sig : bytes -> bool) (s : signed_tx) : Prop :=
  all_signatures valid_key valid_sig s /\ in_memory valid_key (stx_tx s) /\ h32 (stx_auth s) /\ ~ mentions_address (stx_tx s) /\
  (stx_auth s = zero32 \/ bins = true).
(** Changes of a store as they exist in memory: each key once. *)
Definition delta_in_memory (d : state_delta) : Prop :=
  NoDup (map fst d) /\ Forall (fun e => is_utf8 (fst e) /\ n64 (delta_uint (snd e))) d.
(** A transaction with its results as they exist in memory, all inner ones readable as well. *)
Inductive readable (valid_key : bytes -> bool) (bins : bool) (valid_sig : bytes -> bool) : signed_tx_with_ad -> Prop :=
| readable_intro s a b c d e g l o i x y :
    signed_readable valid_key bins valid_sig s -> n64 a -> n64 b -> n64 c -> n64 d -> n64 e -> n64 x -> n64 y ->
    delta_in_memory g -> NoDup (map fst l) -> Forall (fun k => n64 (fst k) /\ delta_in_memory (snd k)) l -> Forall is_utf8 o ->
    (forall t, In t i -> readable valid_key bins valid_sig t) ->
    readable valid_key bins valid_sig (s, mkAD a b c d e (mkED g l o i) x y).

(** [s] is the signed transaction of [t], or of a transaction inside [t]. *)
Inductive within (s : signed_tx) : signed_tx_with_ad -> Prop :=
| within_here ad : within s (s, ad)
| within_inner t r a b c d e g l o i x y : In t i -> within s t -> within s (r, mkAD a b c d e (mkED g l o i) x y).
