(** Proofs for C167. *)
From Coq Require Import String.
From Verif Require Import Base AddressModel BaseFacts MsgpackModel MsgpackProofs ConsensusModel BasicsModel TxModel TxSpec TxProofs TxProps TxCodecSpec TxDecodeSpec GenDecodeSpec DecodedSpec.
From Verif Require Import AccountSizeSpec AccountSizeProofs TxSizeSpec.
From Verif Require ConfigProofs.
Local Open Scope list_scope.
Local Open Scope N_scope.

Lemma map_total_app a b : map_total (a ++ b) = map_total a + map_total b.
Proof. induction a as [|e a IH]; [reflexivity|]. cbn [app map_total fold_right]. fold (map_total (a ++ b)) (map_total a). rewrite IH. lia. Qed.
Lemma entry_upto n d v k : (length (str n) <= 20)%nat -> size v <= k -> map_total (entry n d v) <= 21 + k.
Proof.
  intros Hn Hv. unfold entry. destruct d; cbn [map_total fold_right fst snd]; [lia|].
  assert (size (VStr (str n)) <= 21).
  { unfold size. cbn [encode write_header]. replace (N.of_nat (length (str n)) <? 32) with true by lia. rewrite app_length. cbn [length]. lia. }
  lia.
Qed.
Lemma required_upto n v l k j : (length (str n) <= 20)%nat -> size v <= k -> map_total l <= j -> map_total (required n v :: l) <= 21 + k + j.
Proof.
  intros Hn Hv Hl. pose proof (entry_upto n false v k Hn Hv) as B. unfold entry in B. cbn [map_total fold_right fst snd] in *. unfold required. cbn [fst snd]. fold (map_total l). lia.
Qed.
Lemma size_hash s : h32 s -> size (VBytes s) <= 67.
Proof. unfold h32. intros Hs. pose proof (size_bytes s). unfold upto in H. rewrite Hs in H. apply H. lia. Qed.
Lemma size_addr s : h32 s -> size (VBin s) <= 34.
Proof. unfold h32. intros Hs. rewrite size_bin; unfold upto; rewrite Hs; lia. Qed.

Ltac name := vm_compute; repeat constructor.
Definition header_bound (p : params) (g : N) : N := 511 + 2 * max_tx_note_bytes p + g.
Lemma size_header p h g : max_tx_note_bytes p <= 65535 -> g <= 255 -> len (note h) <= max_tx_note_bytes p -> len (tx_genesis_id h) <= g ->
  h32 (sender h) -> h32 (rekey_to h) -> h32 (tx_genesis_hash h) -> h32 (group h) -> h32 (lease h) -> map_total (header_entries h) <= header_bound p g.
Proof.
  intros Hn Hg Ln Lg Hs Hr Hh Hgr Hl. unfold header_entries. rewrite !map_total_app. unfold len in *.
  pose proof (entry_upto "snd" (is_zero (sender h)) _ 34 ltac:(name) (size_addr _ Hs)).
  pose proof (entry_upto "fee" (fee h =? 0) _ 9 ltac:(name) (size_num (fee h))).
  pose proof (entry_upto "fv" (first_valid h =? 0) _ 9 ltac:(name) (size_num (first_valid h))).
  pose proof (entry_upto "lv" (last_valid h =? 0) _ 9 ltac:(name) (size_num (last_valid h))).
  pose proof (entry_upto "note" (is_empty (note h)) _ _ ltac:(name) (size_bytes (note h) ltac:(unfold upto; lia))).
  pose proof (entry_upto "gen" (is_empty (tx_genesis_id h)) _ _ ltac:(name) (size_str (tx_genesis_id h) ltac:(unfold upto; lia))).
  pose proof (entry_upto "gh" (is_zero (tx_genesis_hash h)) _ 67 ltac:(name) (size_hash _ Hh)).
  pose proof (entry_upto "grp" (is_zero (group h)) _ 67 ltac:(name) (size_hash _ Hgr)).
  pose proof (entry_upto "lx" (is_zero (lease h)) _ 67 ltac:(name) (size_hash _ Hl)).
  pose proof (entry_upto "rekey" (is_zero (rekey_to h)) _ 34 ltac:(name) (size_addr _ Hr)).
  unfold header_bound. lia.
Qed.

Lemma size_list {A} (f : A -> value) l k : upto 65535 l -> Forall (fun x => size (f x) <= k) l -> size (VArr (map f l)) <= 3 + k * len l.
Proof.
  intros Hl F. etransitivity; [apply size_arr_long; unfold upto in *; rewrite map_length; exact Hl|]. apply N.add_le_mono_l. clear Hl. unfold len.
  induction F as [|x l Hx F IH]; [cbn; lia|]. cbn [map total_size fold_right length]. fold (total_size (map f l)). lia.
Qed.
Lemma size_args l : upto 65535 l -> total_length l <= 65535 -> size (VArr (map VBytes l)) <= 3 + 3 * len l + 2 * total_length l.
Proof.
  intros Hl Ht. etransitivity; [apply size_arr_long; unfold upto in *; rewrite map_length; exact Hl|]. rewrite <- !N.add_assoc. apply N.add_le_mono_l. clear Hl. unfold len.
  induction l as [|x l IH]; [cbn; lia|]. cbn [map total_size fold_right length total_length] in *. fold (total_size (map VBytes l)). fold (total_length l) in *.
  unfold len in Ht. unfold len. pose proof (size_bytes x ltac:(unfold upto; lia)). specialize (IH ltac:(lia)). lia.
Qed.

Definition app_bound (p : params) : N :=
  400 + 3 * max_app_args p + 2 * max_app_total_arg_len p + 34 * max_app_tx_accounts p + 9 * max_app_tx_foreign_apps p + 9 * max_app_tx_foreign_assets p +
  2 * ((1 + max_extra_app_program_pages p) * max_app_total_program_len p).
Definition app_small (p : params) : bool :=
  (max_app_args p <=? 65535) && (max_app_total_arg_len p <=? 65535) && (max_app_tx_accounts p <=? 65535) && (max_app_tx_foreign_apps p <=? 65535) &&
  (max_app_tx_foreign_assets p <=? 65535) && ((1 + max_extra_app_program_pages p) * max_app_total_program_len p <=? 65535) && (max_extra_app_program_pages p <? 128).
Lemma size_completion c : size (VStr (completion_name c)) <= 20.
Proof. destruct c; vm_compute; discriminate. Qed.
Lemma size_app_call p f : app_small p = true -> Forall h32 (app_accounts f) -> app_call_ok p f -> map_total (field_entries (AppCall f)) <= app_bound p.
Proof.
  intros Hs Ha (_ & _ & A1 & A2 & A3 & A4 & A5 & _ & A6 & _ & _ & A7 & _ & _).
  unfold app_small in Hs. rewrite !andb_true_iff in Hs. destruct Hs as [[[[[[H1 H2] H3] H4] H5] H6] H7].
  rewrite N.leb_le in H1, H2, H3, H4, H5, H6. rewrite N.ltb_lt in H7.
  assert (Hp : pages p f * max_app_total_program_len p <= (1 + max_extra_app_program_pages p) * max_app_total_program_len p).
  { apply N.mul_le_mono_r. unfold pages. destruct (negb (called_app f =? 0) && enable_extra_pages_on_app_update p); lia. }
  cbn [field_entries].
  pose proof (size_args (application_args f) ltac:(unfold upto, len in *; lia) ltac:(lia)) as B3.
  pose proof (size_list VBin (app_accounts f) 34 ltac:(unfold upto, len in *; lia) ltac:(eapply Forall_impl; [|exact Ha]; intros x; exact (size_addr x))) as B4.
  pose proof (size_list VNum (app_foreign_apps f) 9 ltac:(unfold upto, len in *; lia) ltac:(apply Forall_forall; intros x _; exact (size_num x))) as B5.
  pose proof (size_list VNum (foreign_assets f) 9 ltac:(unfold upto, len in *; lia) ltac:(apply Forall_forall; intros x _; exact (size_num x))) as B6.
  pose proof (size_bytes (approval_program f) ltac:(unfold upto, len in *; lia)) as B9.
  pose proof (size_bytes (clear_state_program f) ltac:(unfold upto, len in *; lia)) as B10.
  pose proof (size_num_small (extra_program_pages f) ltac:(lia)) as B11. apply N.eq_le_incl in B11.
  pose proof (required_upto "application_id" (VNum (called_app f)) _ _ _ ltac:(name) (size_num _)
    (required_upto "on_completion" _ _ _ _ ltac:(name) (size_completion (on_completion f))
    (required_upto "application_args" _ _ _ _ ltac:(name) B3
    (required_upto "accounts" _ _ _ _ ltac:(name) B4
    (required_upto "foreign_apps" _ _ _ _ ltac:(name) B5
    (required_upto "foreign_assets" _ _ _ _ ltac:(name) B6
    (required_upto "local_state_schema" _ _ _ _ ltac:(name) (size_schema (local_state_schema f))
    (required_upto "global_state_schema" _ _ _ _ ltac:(name) (size_schema (global_state_schema f))
    (required_upto "approval_program" _ _ _ _ ltac:(name) B9
    (required_upto "clear_state_program" _ _ _ _ ltac:(name) B10
    (required_upto "extra_program_pages" _ [] _ 0 ltac:(name) B11 (N.le_refl 0)))))))))))) as B.
  etransitivity; [exact B|]. unfold app_bound, len in *. lia.
Qed.

Definition other_bound (p : params) : N := 300 + asset_size p.
Definition fields_bound (p : params) : N := N.max (app_bound p) (other_bound p).
Definition tx_small (p : params) : bool :=
  app_small p && (max_tx_note_bytes p <=? 65535) && (max_asset_unit_name_bytes p <=? 255) && (max_asset_name_bytes p <=? 255) && (max_asset_url_bytes p <=? 255) &&
  (max_asset_decimals p <? 128).
Lemma size_fields valid_key reserved spec p t : (forall k, valid_key k = true -> h32 k) -> tx_small p = true -> tx_typed valid_key t -> fields_ok reserved spec p t ->
  map_total (field_entries (fields t)) <= fields_bound p.
Proof.
  intros Vk Hs ((_ & _ & Hm) & Ha & Hp) Hok. unfold tx_small in Hs. rewrite !andb_true_iff in Hs. destruct Hs as [[[[[H1 _] H2] H3] H4] H5].
  rewrite N.leb_le in H2, H3, H4. rewrite N.ltb_lt in H5. unfold fields_ok in Hok. unfold addresses in Ha. apply Forall_inv_tail, Forall_inv_tail in Ha. unfold fields_bound.
  destruct (fields t) as [f|f|f|f|f|f|f].
  - destruct Hm as [Hv Hsel]. apply Vk in Hv. cbn [field_entries].
    pose proof (required_upto "vote_pk" _ _ _ _ ltac:(name) (size_addr _ Hv)
      (required_upto "selection_pk" _ _ _ _ ltac:(name) (size_hash _ Hsel)
      (required_upto "vote_first" _ _ _ _ ltac:(name) (size_num (vote_first f))
      (required_upto "vote_last" _ _ _ _ ltac:(name) (size_num (vote_last f))
      (required_upto "vote_key_dilution" _ _ _ _ ltac:(name) (size_num (kr_key_dilution f))
      (required_upto "nonparticipation" _ [] _ 0 ltac:(name) (N.eq_le_incl _ _ (size_bool (nonparticipation f))) (N.le_refl 0))))))) as B.
    etransitivity; [exact B|]. unfold other_bound, asset_size. lia.
  - cbn [field_entries]. rewrite !map_total_app. pose proof (Forall_inv Ha) as Hr. apply Forall_inv_tail in Ha.
    pose proof (entry_upto "rcv" (is_zero (receiver f)) _ _ ltac:(name) (size_addr _ Hr)).
    pose proof (entry_upto "amt" (amount f =? 0) _ _ ltac:(name) (size_num (amount f))).
    assert (C : size (match close_remainder_to f with Some a => VBin a | None => VNil end) <= 34).
    { destruct (close_remainder_to f); [exact (size_addr _ (Forall_inv Ha))|vm_compute; discriminate]. }
    pose proof (entry_upto "close" (is_none (close_remainder_to f)) _ _ ltac:(name) C). unfold other_bound, asset_size. lia.
  - cbn [field_entries]. destruct Hok as (_ & A1 & A2 & A3 & A4).
    assert (W : asset_within p (config_params f)) by exact (conj A4 (conj A2 (conj A1 A3))).
    pose proof (required_upto "config_asset" _ _ _ _ ltac:(name) (size_num (config_asset f))
      (required_upto "asset_params" _ [] _ 0 ltac:(name) (size_asset p _ H2 H3 H4 H5 Hp W) (N.le_refl 0))) as B.
    etransitivity; [exact B|]. unfold other_bound, asset_size. lia.
  - cbn [field_entries]. pose proof (Forall_inv Ha) as R1. apply Forall_inv_tail in Ha. pose proof (Forall_inv Ha) as R2. apply Forall_inv_tail in Ha. pose proof (Forall_inv Ha) as R3.
    pose proof (required_upto "transfer_asset" _ _ _ _ ltac:(name) (size_num (transfer_asset f))
      (required_upto "asset_amount" _ _ _ _ ltac:(name) (size_num (asset_amount f))
      (required_upto "asset_sender" _ _ _ _ ltac:(name) (size_addr _ R1)
      (required_upto "asset_receiver" _ _ _ _ ltac:(name) (size_addr _ R2)
      (required_upto "asset_close_to" _ [] _ 0 ltac:(name) (size_addr _ R3) (N.le_refl 0)))))) as B.
    etransitivity; [exact B|]. unfold other_bound, asset_size. lia.
  - cbn [field_entries]. pose proof (Forall_inv Ha) as R1.
    pose proof (required_upto "freeze_account" _ _ _ _ ltac:(name) (size_addr _ R1)
      (required_upto "freeze_asset" _ _ _ _ ltac:(name) (size_num (freeze_asset f))
      (required_upto "asset_frozen" _ [] _ 0 ltac:(name) (N.eq_le_incl _ _ (size_bool (asset_frozen f))) (N.le_refl 0)))) as B.
    etransitivity; [exact B|]. unfold other_bound, asset_size. lia.
  - pose proof (size_app_call p f H1 Ha Hok). lia.
  - cbn [field_entries]. assert (C : size (VStr (str "Basic")) <= 6) by (vm_compute; discriminate).
    pose proof (required_upto "cert_round" _ _ _ _ ltac:(name) (size_num (cert_round f))
      (required_upto "cert_type" _ [] _ 0 ltac:(name) C (N.le_refl 0))) as B.
    etransitivity; [exact B|]. unfold other_bound, asset_size. lia.
Qed.

Lemma entry_count n d v : (length (entry n d v) <= 1)%nat.
Proof. unfold entry. destruct d; cbn; lia. Qed.
Lemma entries_count t : (length (header_entries (tx_head t) ++ required "type" (VStr (type_name (fields t))) :: field_entries (fields t)) <= 22)%nat.
Proof.
  rewrite app_length. cbn [length].
  assert (A : (length (header_entries (tx_head t)) <= 10)%nat).
  { unfold header_entries. rewrite !app_length.
    repeat match goal with |- context [length (entry ?n ?d ?v)] => pose proof (entry_count n d v); generalize dependent (length (entry n d v)); intros end. lia. }
  assert (B : (length (field_entries (fields t)) <= 11)%nat).
  { destruct (fields t); cbn [field_entries length]; try lia. rewrite !app_length.
    repeat match goal with |- context [length (entry ?n ?d ?v)] => pose proof (entry_count n d v); generalize dependent (length (entry n d v)); intros end. lia. }
  lia.
Qed.

Lemma lives_genesis h c : lives h c -> len (tx_genesis_id h) <= len (ctx_genesis_id c).
Proof. intros (_ & [-> | ->] & _); [unfold len; cbn; lia|lia]. Qed.

Definition tx_bound (p : params) (g : N) : N := 31 + header_bound p g + fields_bound p.
Lemma size_tx valid_key reserved spec p t g : (forall k, valid_key k = true -> h32 k) -> tx_small p = true -> g <= 255 -> tx_typed valid_key t ->
  fields_ok reserved spec p t -> len (note (tx_head t)) <= max_tx_note_bytes p -> len (tx_genesis_id (tx_head t)) <= g -> tx_bytes t <= tx_bound p g.
Proof.
  intros Vk Hs Hg Ht Hok Hn Hi. pose proof (size_fields valid_key reserved spec p t Vk Hs Ht Hok) as F.
  unfold tx_small in Hs. rewrite !andb_true_iff in Hs. destruct Hs as [[[[[_ H1] _] _] _] _]. rewrite N.leb_le in H1.
  destruct Ht as ((_ & (_ & G1 & G2 & G3) & _) & Ha & _). unfold addresses in Ha. pose proof (Forall_inv Ha) as A1. pose proof (Forall_inv (Forall_inv_tail Ha)) as A2.
  pose proof (size_header p (tx_head t) g H1 Hg Hn Hi A1 A2 G1 G2 G3) as B.
  unfold tx_bytes, len. fold (size (tx_value t)). unfold tx_value. pose proof (entries_count t) as C.
  etransitivity; [apply size_map; unfold upto; lia|]. rewrite map_total_app.
  assert (T : size (VStr (type_name (fields t))) <= 7) by (destruct (fields t); vm_compute; discriminate).
  pose proof (required_upto "type" _ _ _ _ ltac:(name) T F) as D. unfold tx_bound. lia.
Qed.
Lemma size_signed valid_key valid_sig s : signed_typed valid_key valid_sig s -> plainly_signed s -> signed_bytes s <= 166 + tx_bytes (stx_tx s).
Proof.
  intros ((L & _) & _ & _ & _ & Hauth) (E1 & E2). unfold signed_bytes, tx_bytes, len. fold (size (signed_tx_value s)) (size (tx_value (stx_tx s))).
  unfold signed_tx_value. rewrite E1, E2. cbn [app]. rewrite size_arr.
  - assert (A : total_size (element (sig_is_empty (stx_sig s)) (VBytes (stx_sig s))) <= 131).
    { unfold element. destruct (sig_is_empty _); cbn [total_size fold_right]; [lia|]. pose proof (size_bytes (stx_sig s)) as B. unfold upto in B. rewrite L in B. lia. }
    assert (A' : total_size (element (is_zero (stx_auth s)) (VBin (stx_auth s))) <= 34).
    { unfold element. destruct (is_zero _); cbn [total_size fold_right]; [lia|]. pose proof (size_addr _ Hauth). lia. }
    assert (P : forall a b, total_size (a ++ b) = total_size a + total_size b).
    { intros a b. induction a as [|x a IH]; [reflexivity|]. cbn [app total_size fold_right]. fold (total_size (a ++ b)) (total_size a). rewrite IH. lia. }
    rewrite P. cbn [total_size fold_right]. fold (total_size (element (is_zero (stx_auth s)) (VBin (stx_auth s)))). lia.
  - unfold upto, element. rewrite app_length. destruct (sig_is_empty _), (is_zero _); cbn; lia.
Qed.

(** The built-in protocols. *)
Lemma tx_small_built_in : forallb (fun e => let p := snd e in
  tx_small p && (tx_bound p 255 <=? 24100) && (max_tx_group_size p * (166 + tx_bound p 255) <=? max_tx_bytes_per_block p)) built_in = true.
Proof. vm_compute. reflexivity. Qed.
Lemma built_in_bounds v p : lookup v built_in = Some p ->
  tx_small p = true /\ tx_bound p 255 <= 24100 /\ max_tx_group_size p * (166 + tx_bound p 255) <= max_tx_bytes_per_block p.
Proof.
  intros E. apply ConfigProofs.lookup_In in E. pose proof tx_small_built_in as B. rewrite forallb_forall in B. specialize (B _ E). cbv zeta in B. cbn [snd] in B.
  rewrite !andb_true_iff, !N.leb_le in B. tauto.
Qed.
Lemma acceptable_tx H m spec v c valid_key t : lookup v built_in = Some (ctx_proto c) -> len (ctx_genesis_id c) <= 255 -> (forall k, valid_key k = true -> h32 k) ->
  tx_typed valid_key t -> last_valid (tx_head t) < 2 ^ 64 - 1 -> acceptable H m spec c t -> tx_bytes t <= tx_bound (ctx_proto c) 255.
Proof.
  intros E Hg Vk Ht Hl [Hw Ha]. apply (c42_accepts H m spec _ t (c42_limits _ _ E) Hl) in Hw. destruct Hw as [(Hf & _ & _ & Hn) _]. apply c41_alive, lives_genesis in Ha.
  destruct (built_in_bounds _ _ E) as (S1 & _ & _). apply (size_tx valid_key (COMPACT_CERT_SENDER H) spec); try assumption; lia.
Qed.
Lemma acceptable_upto H m spec v c valid_key t : lookup v built_in = Some (ctx_proto c) -> len (ctx_genesis_id c) <= 255 -> (forall k, valid_key k = true -> h32 k) ->
  tx_typed valid_key t -> last_valid (tx_head t) < 2 ^ 64 - 1 -> acceptable H m spec c t -> tx_bytes t <= 24100.
Proof.
  intros E Hg Vk Ht Hl Ha. pose proof (acceptable_tx H m spec v c valid_key t E Hg Vk Ht Hl Ha). destruct (built_in_bounds _ _ E) as (_ & B & _). lia.
Qed.
Lemma acceptable_group H m spec v c valid_key valid_sig g : lookup v built_in = Some (ctx_proto c) -> len (ctx_genesis_id c) <= 255 -> (forall k, valid_key k = true -> h32 k) ->
  len g <= max_tx_group_size (ctx_proto c) ->
  Forall (fun s => signed_typed valid_key valid_sig s /\ plainly_signed s /\ last_valid (tx_head (stx_tx s)) < 2 ^ 64 - 1 /\ acceptable H m spec c (stx_tx s)) g ->
  group_bytes g <= max_tx_bytes_per_block (ctx_proto c).
Proof.
  intros E Hg Vk Hl F. destruct (built_in_bounds _ _ E) as (_ & _ & B). etransitivity; [|exact B]. clear B.
  assert (G : group_bytes g <= len g * (166 + tx_bound (ctx_proto c) 255)).
  { clear Hl. unfold len. induction F as [|s g (T & P & L & A) F IH]; [cbn; lia|]. cbn [group_bytes fold_right length]. fold (group_bytes g).
    pose proof (size_signed _ _ _ T P). pose proof (acceptable_tx H m spec v c valid_key (stx_tx s) E Hg Vk (proj1 (proj2 (proj2 (proj2 T)))) L A). lia. }
  etransitivity; [exact G|]. apply N.mul_le_mono_r. exact Hl.
Qed.
