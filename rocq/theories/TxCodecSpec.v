(** Sizes of transactions as they exist in memory, and equality of apply data as maps. *)
From Coq Require Import Permutation.
From Verif Require Import Base TxModel.
From Verif Require MultisigModel.
Local Open Scope N_scope.

Definition short {A} (l : list A) : Prop := len l < 2 ^ 32.
Definition n64 (n : N) : Prop := n < 2 ^ 64.

Definition header_fits (h : tx_header) : Prop :=
  short (sender h) /\ n64 (fee h) /\ n64 (first_valid h) /\ n64 (last_valid h) /\ short (note h) /\ short (tx_genesis_id h) /\
  short (tx_genesis_hash h) /\ short (group h) /\ short (lease h) /\ short (rekey_to h).
Definition schema_fits (s : schema) : Prop := n64 (num_uint s) /\ n64 (num_byte_slice s).
Definition fields_fit (f : tx_fields) : Prop :=
  match f with
  | Keyreg f => short (vote_pk f) /\ short (selection_pk f) /\ n64 (vote_first f) /\ n64 (vote_last f) /\ n64 (kr_key_dilution f)
  | Payment f => short (receiver f) /\ n64 (amount f) /\ match close_remainder_to f with Some a => short a | None => True end
  | AssetConfig f =>
      let p := config_params f in
      n64 (config_asset f) /\ n64 (total p) /\ n64 (decimals p) /\ short (unit_name p) /\ short (asset_name p) /\ short (url p) /\
      short (metadata_hash p) /\ short (manager p) /\ short (reserve p) /\ short (freeze p) /\ short (clawback p)
  | AssetTransfer f =>
      n64 (transfer_asset f) /\ n64 (asset_amount f) /\ short (asset_sender f) /\ short (asset_receiver f) /\ short (asset_close_to f)
  | AssetFreeze f => short (freeze_account f) /\ n64 (freeze_asset f)
  | AppCall f =>
      n64 (called_app f) /\ short (application_args f) /\ Forall short (application_args f) /\
      short (app_accounts f) /\ Forall short (app_accounts f) /\ short (app_foreign_apps f) /\ Forall n64 (app_foreign_apps f) /\
      short (foreign_assets f) /\ Forall n64 (foreign_assets f) /\ schema_fits (local_state_schema f) /\ schema_fits (global_state_schema f) /\
      short (approval_program f) /\ short (clear_state_program f) /\ n64 (extra_program_pages f)
  | CompactCert f => n64 (cert_round f)
  end.
(** Numbers of 64 bits, strings and lists shorter than 2^32. *)
Definition tx_fits (t : transaction) : Prop := header_fits (tx_head t) /\ fields_fit (fields t).

(** Signatures have 64 bytes. *)
Definition signed_shape (s : signed_tx) : Prop := length (stx_sig s) = 64%nat.
Fixpoint ad_shape (a : apply_data) : Prop :=
  match a with mkAD _ _ _ _ _ d _ _ => ed_shape d end
with ed_shape (d : eval_delta) : Prop :=
  match d with mkED _ _ _ i => fold_right (fun x p => (signed_shape (fst x) /\ ad_shape (snd x)) /\ p) True i end.
Definition stad_shape (s : signed_tx_with_ad) : Prop := signed_shape (fst s) /\ ad_shape (snd s).
(** An in-block transaction that exists in memory: 64-byte signatures, encodable sizes. *)
Definition stib_fits (s : signed_tx_in_block) : Prop := stad_shape (stib_tx s) /\ wf (stib_value s).

(** Equality of maps: same entries in any order. *)
Definition same_map {K V} (a b : list (K * V)) : Prop := Permutation a b.
(** The same for maps of maps. *)
Definition same_maps {K L V} (a b : list (K * list (L * V))) : Prop :=
  exists m, Permutation a m /\ Forall2 (fun e e' => fst e = fst e' /\ same_map (snd e) (snd e')) m b.
Inductive same_ad : apply_data -> apply_data -> Prop :=
| SameAd a b c d e x y ed ed' : same_ed ed ed' -> same_ad (mkAD a b c d e ed x y) (mkAD a b c d e ed' x y)
with same_ed : eval_delta -> eval_delta -> Prop :=
| SameEd g g' l l' o i i' : same_map g g' -> same_maps l l' -> same_txs i i' -> same_ed (mkED g l o i) (mkED g' l' o i')
with same_txs : list (signed_tx * apply_data) -> list (signed_tx * apply_data) -> Prop :=
| SameNil : same_txs [] []
| SameCons s a a' i i' : same_ad a a' -> same_txs i i' -> same_txs ((s, a) :: i) ((s, a') :: i').
(** The same in-block transaction. *)
Definition same_stib (s s' : signed_tx_in_block) : Prop :=
  fst (stib_tx s) = fst (stib_tx s') /\ same_ad (snd (stib_tx s)) (snd (stib_tx s')) /\
  has_genesis_id s = has_genesis_id s' /\ has_genesis_hash s = has_genesis_hash s'.

(** No map with more than one entry. *)
Fixpoint small_maps (a : apply_data) : Prop :=
  match a with mkAD _ _ _ _ _ d _ _ => small_maps_ed d end
with small_maps_ed (d : eval_delta) : Prop :=
  match d with
  | mkED g l _ i => (length g <= 1)%nat /\ (length l <= 1)%nat /\ Forall (fun e => (length (snd e) <= 1)%nat) l /\
                    fold_right (fun x p => small_maps (snd x) /\ p) True i
  end.
