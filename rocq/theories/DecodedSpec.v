(** What is decoded is a value of its type, whatever the bytes. *)
From Coq Require Import Permutation String.
From Verif Require Import Base MsgpackModel TxDecodeModel TxCodecSpec TxDecodeSpec GenDecodeModel GenDecodeSpec.
From Verif Require MultisigModel.
Local Open Scope list_scope.
Local Open Scope N_scope.

(** The accounts named in a transaction. *)
Definition addresses (t : transaction) : list bytes :=
  sender (tx_head t) :: rekey_to (tx_head t) ::
  match fields t with
  | Payment f => receiver f :: match close_remainder_to f with Some a => [a] | None => [] end
  | AssetConfig f => [manager (config_params f); reserve (config_params f); freeze (config_params f); clawback (config_params f)]
  | AssetTransfer f => [asset_sender f; asset_receiver f; asset_close_to f]
  | AssetFreeze f => [freeze_account f]
  | AppCall f => app_accounts f
  | Keyreg _ | CompactCert _ => []
  end.
(** The parameters of a created asset. *)
Definition asset_typed (f : tx_fields) : Prop := match f with AssetConfig f => params_in_memory (config_params f) | _ => True end.
(** A transaction of the right type: sizes, addresses of 32 bytes, UTF-8 strings, valid keys. *)
Definition tx_typed (valid_key : bytes -> bool) (t : transaction) : Prop :=
  in_memory valid_key t /\ Forall h32 (addresses t) /\ asset_typed (fields t).
Definition optional {A} (P : A -> Prop) (o : option A) : Prop := match o with Some a => P a | None => True end.
Definition sig_typed (valid_sig : bytes -> bool) (s : bytes) : Prop := length s = 64%nat /\ valid_sig s = true.
Definition signed_typed (valid_key valid_sig : bytes -> bool) (s : signed_tx) : Prop :=
  sig_typed valid_sig (stx_sig s) /\ optional (msig_in_memory valid_key valid_sig) (stx_msig s) /\
  optional (fun l => sig_typed valid_sig (lsig_sig l) /\ msig_in_memory valid_key valid_sig (lsig_msig l)) (stx_lsig s) /\
  tx_typed valid_key (stx_tx s) /\ h32 (stx_auth s).

(** ** Entries of a map *)
(** The names that mean something in a transaction. *)
Definition known_names : list bytes := map str
  ["type"; "snd"; "fee"; "fv"; "lv"; "note"; "gen"; "gh"; "grp"; "lx"; "rekey";
   "vote_pk"; "selection_pk"; "vote_first"; "vote_last"; "vote_key_dilution"; "nonparticipation";
   "rcv"; "amt"; "close"; "config_asset"; "asset_params";
   "transfer_asset"; "asset_amount"; "asset_sender"; "asset_receiver"; "asset_close_to";
   "freeze_account"; "freeze_asset"; "asset_frozen";
   "application_id"; "on_completion"; "application_args"; "accounts"; "foreign_apps"; "foreign_assets"; "local_state_schema";
   "global_state_schema"; "approval_program"; "clear_state_program"; "extra_program_pages"; "cert_round"; "cert_type"]%string.
(** The names in every header. *)
Definition header_names : list bytes := map str ["snd"; "fee"; "fv"; "lv"; "note"; "gen"; "gh"; "grp"; "lx"; "rekey"; "type"]%string.
(** The entry [e] has this name. *)
Definition named (name : bytes) (e : value * value) : Prop := fst e = VStr name \/ fst e = VBin name.
(** Its key is a name. *)
Definition has_name (e : value * value) : Prop := match fst e with VStr _ | VBin _ => True | _ => False end.
