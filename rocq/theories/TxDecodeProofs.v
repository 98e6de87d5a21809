(** Decoding of transactions: proofs. *)
From Verif Require Import Base BaseFacts AddressModel TxDecodeModel TxDecodeSpec TxCodecSpec JsonModel.
From Verif Require Import MsgpackProofs TxCodecProofs.
From Verif Require MultisigModel.
Local Open Scope N_scope.

(** The fields of an array. *)
Ltac in_array := cbn [fields_of params_fields length Nat.eqb].

(** ** Values *)
Lemma get_num_VNum m n : n <= m -> get_num m (VNum n) = Some n.
Proof.
  intros L. unfold get_num, VNum. replace ((0 <=? Z.of_N n) && (Z.of_N n <=? Z.of_N m))%Z with true by (symmetry; apply andb_true_iff; split; apply Z.leb_le; lia).
  rewrite N2Z.id. reflexivity.
Qed.
Lemma get_u64_VNum n : n64 n -> get_u64 (VNum n) = Some n.
Proof. intros L. apply get_num_VNum. unfold n64 in L. lia. Qed.
Lemma get_u32_VNum n : n < 2 ^ 32 -> get_u32 (VNum n) = Some n.
Proof. intros L. apply get_num_VNum. lia. Qed.
Lemma get_u8_byte b : get_u8 (VInt (Z.of_N (Byte.to_N b))) = Some b.
Proof.
  unfold get_u8. change (VInt (Z.of_N (Byte.to_N b))) with (VNum (Byte.to_N b)). rewrite get_num_VNum by (pose proof (Byte.to_N_bounded b); lia).
  f_equal. apply b8_to_N.
Qed.
Lemma get_vec_VBytes s : get_vec get_u8 (VBytes s) = Some s.
Proof. unfold get_vec, VBytes. induction s as [|b s IH]; [reflexivity|]. cbn [map get_all]. rewrite get_u8_byte, IH. reflexivity. Qed.
Lemma get_array_VBytes n s : length s = n -> get_array n (VBytes s) = Some s.
Proof. intros L. unfold get_array. rewrite get_vec_VBytes, L, Nat.eqb_refl. reflexivity. Qed.
Lemma get_array_VBin n s : get_array n (VBin s) = None. Proof. reflexivity. Qed.
Lemma get_all_map {A B} (get : value -> option B) (f : A -> value) (g : A -> B) l : Forall (fun a => get (f a) = Some (g a)) l ->
  get_all get (map f l) = Some (map g l).
Proof. induction 1 as [|a l E F IH]; [reflexivity|]. cbn [map get_all]. rewrite E, IH. reflexivity. Qed.
Lemma get_all_same {A} (get : value -> option A) (f : A -> value) l : Forall (fun a => get (f a) = Some a) l ->
  get_all get (map f l) = Some l.
Proof. intros F. rewrite (get_all_map get f (fun a => a) l F), map_id. reflexivity. Qed.
Lemma get_vec_nums l : Forall n64 l -> get_vec get_u64 (VArr (map VNum l)) = Some l.
Proof. intros F. apply get_all_same. revert F. apply Forall_impl. exact get_u64_VNum. Qed.
Lemma get_vec_bytes l : get_vec (get_vec get_u8) (VArr (map VBytes l)) = Some l.
Proof. apply get_all_same. apply Forall_forall. intros s _. apply get_vec_VBytes. Qed.
Lemma get_completion c : get_variant completions (VStr (completion_name c)) = Some c.
Proof. destruct c; vm_compute; reflexivity. Qed.
Lemma get_schema_value s : schema_fits s -> get_schema (schema_value s) = Some s.
Proof. intros [A B]. unfold get_schema, schema_value. in_array. rewrite !get_u64_VNum by assumption. destruct s. reflexivity. Qed.

(** ** Maps *)
Lemma values_of_app (name : String.string) a b : values_of name (a ++ b) = values_of name a ++ values_of name b.
Proof. unfold values_of. rewrite filter_app, map_app. reflexivity. Qed.
Lemma values_of_entry (name : String.string) d v : values_of name (entry name d v) = if d then [] else [v].
Proof. unfold values_of, entry. destruct d; [reflexivity|]. cbn [filter key_is fst]. rewrite (proj2 (bytes_eqb_spec _ _) eq_refl). reflexivity. Qed.
Lemma values_of_entry_other (name : String.string) name' d v : bytes_eqb (str name') (str name) = false -> values_of name (entry name' d v) = [].
Proof. intros E. unfold values_of, entry. destruct d; [reflexivity|]. cbn [filter key_is fst]. rewrite E. reflexivity. Qed.
Lemma values_of_required (name : String.string) v r : values_of name (required name v :: r) = v :: values_of name r.
Proof. unfold values_of, required. cbn [filter key_is fst]. rewrite (proj2 (bytes_eqb_spec _ _) eq_refl). reflexivity. Qed.
Lemma values_of_required_other (name : String.string) name' v r : bytes_eqb (str name') (str name) = false -> values_of name (required name' v :: r) = values_of name r.
Proof. intros E. unfold values_of, required. cbn [filter key_is fst]. rewrite E. reflexivity. Qed.
Lemma values_of_nil (name : String.string) : values_of name [] = []. Proof. reflexivity. Qed.

Ltac values :=
  unfold header_entries, field_entries;
  repeat first [rewrite values_of_app
    | rewrite values_of_entry | rewrite values_of_entry_other by (vm_compute; reflexivity)
    | rewrite values_of_required | rewrite values_of_required_other by (vm_compute; reflexivity) | rewrite values_of_nil];
  cbn [app]; rewrite ?app_nil_r.

(** entries named like header fields *)
Definition is_header (e : value * value) : bool := existsb (fun k => key_is k e) TxDecodeModel.header_keys.
Lemma filter_entry_header name d v : existsb (bytes_eqb (str name)) TxDecodeModel.header_keys = true -> filter (fun e => negb (is_header e)) (entry name d v) = [].
Proof.
  intros E. unfold entry. destruct d; [reflexivity|]. cbn [filter]. unfold is_header. change (fun k => key_is k (VStr (str name), v)) with (bytes_eqb (str name)).
  rewrite E. reflexivity.
Qed.
Lemma filter_entry_other name d v : existsb (bytes_eqb (str name)) TxDecodeModel.header_keys = false -> filter (fun e => negb (is_header e)) (entry name d v) = entry name d v.
Proof.
  intros E. unfold entry. destruct d; [reflexivity|]. cbn [filter]. unfold is_header. change (fun k => key_is k (VStr (str name), v)) with (bytes_eqb (str name)).
  rewrite E. reflexivity.
Qed.
Lemma filter_required_other name v r : existsb (bytes_eqb (str name)) TxDecodeModel.header_keys = false ->
  filter (fun e => negb (is_header e)) (required name v :: r) = required name v :: filter (fun e => negb (is_header e)) r.
Proof. intros E. cbn [filter]. unfold is_header at 1. change (fun k => key_is k (required name v)) with (bytes_eqb (str name)). rewrite E. reflexivity. Qed.
Lemma filter_header h : filter (fun e => negb (is_header e)) (header_entries h) = [].
Proof. unfold header_entries. rewrite !filter_app. rewrite !filter_entry_header by (vm_compute; reflexivity). reflexivity. Qed.
Lemma filter_fields f : filter (fun e => negb (is_header e)) (field_entries f) = field_entries f.
Proof.
  destruct f; unfold field_entries; rewrite ?filter_app; repeat (rewrite filter_required_other by (vm_compute; reflexivity));
    repeat (rewrite filter_entry_other by (vm_compute; reflexivity)); reflexivity.
Qed.
Lemma plain_entry name d v : forallb plain_key (entry name d v) = true.
Proof. unfold entry. destruct d; reflexivity. Qed.
Lemma plain_tx t : forallb plain_key (header_entries (tx_head t) ++ required "type" (VStr (type_name (fields t))) :: field_entries (fields t)) = true.
Proof.
  rewrite forallb_app. apply andb_true_iff. split; [unfold header_entries; rewrite !forallb_app, !plain_entry; reflexivity|].
  cbn [forallb]. apply andb_true_iff. split; [reflexivity|]. destruct (fields t); unfold field_entries; rewrite ?forallb_app, ?plain_entry; reflexivity.
Qed.
Lemma names_entry name d v : names_only (entry name d v) = true.
Proof. unfold entry. destruct d; reflexivity. Qed.
Lemma names_app a b : names_only (a ++ b) = names_only a && names_only b.
Proof. apply forallb_app. Qed.
Lemma names_tx f : names_only (required "type" (VStr (type_name f)) :: field_entries f) = true.
Proof.
  change (names_only (field_entries f) = true). destruct f; unfold field_entries; rewrite ?names_app, ?names_entry; reflexivity.
Qed.
Lemma get_tx_split valid_key t : get_tx valid_key (tx_value t) =
  match get_header (header_entries (tx_head t) ++ required "type" (VStr (type_name (fields t))) :: field_entries (fields t)) with
  | Some h => match get_fields valid_key (required "type" (VStr (type_name (fields t))) :: field_entries (fields t)) with Some f => Some (mkTx h f) | None => None end
  | None => None
  end.
Proof.
  unfold get_tx, tx_value. rewrite plain_tx. change (fun e => negb (existsb (fun k => key_is k e) TxDecodeModel.header_keys)) with (fun e => negb (is_header e)).
  rewrite filter_app, filter_header, filter_required_other by (vm_compute; reflexivity). rewrite filter_fields. reflexivity.
Qed.

(** ** The header *)
Lemma values_fields_header name f : existsb (bytes_eqb (str name)) TxDecodeModel.header_keys = true ->
  values_of name (required "type" (VStr (type_name f)) :: field_entries f) = [].
Proof.
  intros E. assert (G : forall l, filter (fun e => negb (is_header e)) l = l -> values_of name l = []).
  { intros l El. unfold values_of. assert (N : forall e, In e l -> key_is (str name) e = false).
    { intros e I. rewrite <- El in I. apply filter_In in I. destruct I as [_ I]. apply Bool.negb_true_iff in I.
      destruct (key_is (str name) e) eqn:Ek; [|reflexivity]. rewrite <- I. symmetry. unfold is_header.
      rewrite existsb_exists in E. destruct E as (k & Ik & Ek'). apply bytes_eqb_spec in Ek'. subst k.
      apply existsb_exists. exists (str name). auto. }
    clear El. induction l as [|e l IH]; [reflexivity|]. cbn [filter]. rewrite (N e (or_introl eq_refl)). apply IH. intros x I. apply N. right. exact I. }
  apply G. rewrite filter_required_other by (vm_compute; reflexivity). rewrite filter_fields. reflexivity.
Qed.
Lemma or_default_entry {A : Type} (name : String.string) (get : value -> option A) (d : A) l (b : bool) (v : value) :
  values_of name l = (if b then [] else [v]) -> or_default name get d l = if b then Some d else get v.
Proof. intros E. unfold or_default, field_value. rewrite E. destruct b; reflexivity. Qed.
Lemma need_required {A : Type} (name : String.string) (get : value -> option A) l v : values_of name l = [v] -> need name get l = get v.
Proof. intros E. unfold need, field_value. rewrite E. reflexivity. Qed.

Arguments need_required {A} name%string_scope. Arguments or_default_entry {A} name%string_scope.

Lemma is_zero_iff a : is_zero a = true <-> a = zero32. Proof. apply bytes_eqb_spec. Qed.
Lemma is_zero_false a : is_zero a = false <-> a <> zero32. Proof. rewrite <- is_zero_iff. destruct (is_zero a); split; congruence. Qed.
Lemma read_zero a (get : value -> option bytes) v : get v = Some a -> (if is_zero a then Some zero32 else get v) = Some a.
Proof. destruct (is_zero a) eqn:E; [|auto]. apply is_zero_iff in E. subst a. reflexivity. Qed.
Lemma read_num n (get : value -> option N) v : get v = Some n -> (if n =? 0 then Some 0 else get v) = Some n.
Proof. destruct (N.eqb_spec n 0); [subst; reflexivity|auto]. Qed.
Lemma read_list {A} (l : list A) (get : value -> option (list A)) v : get v = Some l -> (if is_empty l then Some [] else get v) = Some l.
Proof. destruct l; [reflexivity|auto]. Qed.

Ltac value_here := values; first [reflexivity | destruct (is_zero _); reflexivity].
Ltac header_default := rewrite (values_fields_header _ _) by (vm_compute; reflexivity).

Section Header.
Variables (h : tx_header) (f : tx_fields).
Let all := header_entries h ++ required "type" (VStr (type_name f)) :: field_entries f.
Lemma header_value name (b : bool) v : existsb (bytes_eqb (str name)) TxDecodeModel.header_keys = true ->
  values_of name (header_entries h) = (if b then [] else [v]) -> values_of name all = (if b then [] else [v]).
Proof. intros E V. unfold all. rewrite values_of_app, V, values_fields_header by exact E. apply app_nil_r. Qed.
Ltac hdr := apply header_value; [vm_compute; reflexivity|]; unfold header_entries; values; reflexivity.
Lemma v_snd : values_of "snd" all = if is_zero (sender h) then [] else [VBin (sender h)]. Proof. hdr. Qed.
Lemma v_fee : values_of "fee" all = if fee h =? 0 then [] else [VNum (fee h)]. Proof. hdr. Qed.
Lemma v_fv : values_of "fv" all = if first_valid h =? 0 then [] else [VNum (first_valid h)]. Proof. hdr. Qed.
Lemma v_lv : values_of "lv" all = if last_valid h =? 0 then [] else [VNum (last_valid h)]. Proof. hdr. Qed.
Lemma v_note : values_of "note" all = if is_empty (note h) then [] else [VBytes (note h)]. Proof. hdr. Qed.
Lemma v_gen : values_of "gen" all = if is_empty (tx_genesis_id h) then [] else [VStr (tx_genesis_id h)]. Proof. hdr. Qed.
Lemma v_gh : values_of "gh" all = if is_zero (tx_genesis_hash h) then [] else [VBytes (tx_genesis_hash h)]. Proof. hdr. Qed.
Lemma v_grp : values_of "grp" all = if is_zero (group h) then [] else [VBytes (group h)]. Proof. hdr. Qed.
Lemma v_lx : values_of "lx" all = if is_zero (lease h) then [] else [VBytes (lease h)]. Proof. hdr. Qed.
Lemma v_rekey : values_of "rekey" all = if is_zero (rekey_to h) then [] else [VBin (rekey_to h)]. Proof. hdr. Qed.

Lemma get_header_ok : header_fits h -> is_utf8 (tx_genesis_id h) -> h32 (tx_genesis_hash h) -> h32 (group h) -> h32 (lease h) ->
  sender h = zero32 -> rekey_to h = zero32 -> get_header all = Some h.
Proof.
  intros (_ & F1 & F2 & F3 & _) U G1 G2 G3 Z1 Z2. unfold get_header.
  rewrite (or_default_entry _ get_address _ _ _ _ v_snd), (or_default_entry _ get_u64 _ _ _ _ v_fee), (or_default_entry _ get_u64 _ _ _ _ v_fv),
    (or_default_entry _ get_u64 _ _ _ _ v_lv), (or_default_entry _ (get_vec get_u8) _ _ _ _ v_note), (or_default_entry _ get_str _ _ _ _ v_gen),
    (or_default_entry _ (get_array 32) _ _ _ _ v_gh), (or_default_entry _ (get_array 32) _ _ _ _ v_grp), (or_default_entry _ (get_array 32) _ _ _ _ v_lx),
    (or_default_entry _ get_address _ _ _ _ v_rekey).
  rewrite Z1, Z2. rewrite (proj2 (is_zero_iff zero32) eq_refl).
  rewrite !read_num by (apply get_u64_VNum; assumption).
  rewrite (read_list (note h)) by apply get_vec_VBytes.
  rewrite (read_list (tx_genesis_id h)) by (unfold get_str; rewrite U; reflexivity).
  rewrite !read_zero by (apply get_array_VBytes; assumption).
  destruct h as [f0 f1 f2 f3 f4 f5 f6 f7 f8 f9]. cbn [sender rekey_to] in Z1, Z2. subst. reflexivity.
Qed.
Lemma get_header_bad : sender h <> zero32 \/ rekey_to h <> zero32 -> get_header all = None.
Proof.
  intros D. unfold get_header.
  rewrite (or_default_entry _ get_address _ _ _ _ v_snd), (or_default_entry _ get_address _ _ _ _ v_rekey).
  destruct D as [D|D]; apply is_zero_false in D; rewrite D.
  - reflexivity.
  - change (get_address (VBin (rekey_to h))) with (@None bytes).
    repeat match goal with |- match ?x with _ => _ end = None => destruct x; [|reflexivity] end. reflexivity.
Qed.
End Header.

(** ** The fields *)
Section Fields.
Variable valid_key : bytes -> bool.
Lemma get_fields_kind f : get_fields valid_key (required "type" (VStr (type_name f)) :: field_entries f) =
  (match f with
   | Keyreg _ => get_keyreg valid_key
   | Payment _ => get_payment
   | AssetConfig _ => get_asset_config
   | AssetTransfer _ => get_asset_transfer
   | AssetFreeze _ => get_asset_freeze
   | AppCall _ => get_app_call
   | CompactCert _ => get_compact_cert
   end) (required "type" (VStr (type_name f)) :: field_entries f).
Proof.
  unfold get_fields. rewrite names_tx, (need_required "type" _ _ (VStr (type_name f))).
  - destruct f; reflexivity.
  - rewrite values_of_required. f_equal. destruct f; unfold field_entries; values; reflexivity.
Qed.

Ltac field name := rewrite (need_required name) by (values; reflexivity).
Lemma get_fields_ok t : in_memory valid_key t -> ~ mentions_address t ->
  get_fields valid_key (required "type" (VStr (type_name (fields t))) :: field_entries (fields t)) = Some (fields t).
Proof.
  intros ((_ & F) & _ & M) A. rewrite get_fields_kind. unfold mentions_address in A. destruct (fields t) as [f|f|f|f|f|f|f]; cbn [fields_fit] in F.
  - (* keyreg *)
    unfold get_keyreg. rewrite (need_required "vote_pk" _ _ (VBin (vote_pk f))) by (values; reflexivity).
    rewrite (need_required "selection_pk" _ _ (VBytes (selection_pk f))) by (values; reflexivity).
    rewrite (need_required "vote_first" _ _ (VNum (vote_first f))) by (values; reflexivity).
    rewrite (need_required "vote_last" _ _ (VNum (vote_last f))) by (values; reflexivity).
    rewrite (need_required "vote_key_dilution" _ _ (VNum (kr_key_dilution f))) by (values; reflexivity).
    rewrite (need_required "nonparticipation" _ _ (VBool (nonparticipation f))) by (values; reflexivity).
    unfold get_key. cbn [get_byte_buf get_bool]. destruct M as [M1 M2]. rewrite M1. rewrite get_array_VBytes by exact M2.
    rewrite !get_u64_VNum by tauto. destruct f. reflexivity.
  - (* payment *)
    destruct (bytes_eqb (receiver f) zero32) eqn:Er; [apply bytes_eqb_spec in Er | exfalso; apply A; right; right; left; apply is_zero_false; exact Er].
    destruct (close_remainder_to f) eqn:Ec; [exfalso; apply A; right; right; right; congruence|].
    unfold get_payment. rewrite (or_default_entry "rcv" _ _ _ (is_zero (receiver f)) (VBin (receiver f))) by (values; reflexivity).
    rewrite (or_default_entry "amt" _ _ _ (amount f =? 0) (VNum (amount f))) by (values; reflexivity).
    rewrite (or_default_entry "close" _ _ _ true VNil) by (values; rewrite Ec; reflexivity).
    rewrite (proj2 (is_zero_iff _) Er). rewrite read_num by (apply get_u64_VNum; tauto).
    destruct f as [f0 f1 f2]. cbn [receiver close_remainder_to] in Er, Ec. subst. reflexivity.
  - exfalso. apply A. auto.
  - exfalso. apply A. auto.
  - exfalso. apply A. auto.
  - (* application call *)
    destruct (app_accounts f) eqn:Ea; [|exfalso; apply A; right; right; congruence].
    unfold get_app_call.
    rewrite (need_required "application_id" _ _ (VNum (called_app f))) by (values; reflexivity).
    rewrite (need_required "on_completion" _ _ (VStr (completion_name (on_completion f)))) by (values; reflexivity).
    rewrite (need_required "application_args" _ _ (VArr (map VBytes (application_args f)))) by (values; reflexivity).
    rewrite (need_required "accounts" _ _ (VArr (map VBin (app_accounts f)))) by (values; reflexivity).
    rewrite (need_required "foreign_apps" _ _ (VArr (map VNum (app_foreign_apps f)))) by (values; reflexivity).
    rewrite (need_required "foreign_assets" _ _ (VArr (map VNum (foreign_assets f)))) by (values; reflexivity).
    rewrite (need_required "local_state_schema" _ _ (schema_value (local_state_schema f))) by (values; reflexivity).
    rewrite (need_required "global_state_schema" _ _ (schema_value (global_state_schema f))) by (values; reflexivity).
    rewrite (need_required "approval_program" _ _ (VBytes (approval_program f))) by (values; reflexivity).
    rewrite (need_required "clear_state_program" _ _ (VBytes (clear_state_program f))) by (values; reflexivity).
    rewrite (need_required "extra_program_pages" _ _ (VNum (extra_program_pages f))) by (values; reflexivity).
    rewrite get_completion, get_vec_bytes, !get_vec_nums, !get_schema_value, !get_vec_VBytes, get_u32_VNum by tauto.
    rewrite get_u64_VNum by tauto. rewrite Ea. destruct f as [f0 f1 f2 f3 f4 f5 f6 f7 f8 f9 f10]. cbn [app_accounts] in Ea. subst. reflexivity.
  - (* certificate *)
    unfold get_compact_cert. rewrite (need_required "cert_round" _ _ (VNum (cert_round f))) by (values; reflexivity).
    rewrite (need_required "cert_type" _ _ (VStr (str "Basic"))) by (values; reflexivity).
    rewrite get_u64_VNum by tauto. destruct f. reflexivity.
Qed.

Ltac give_up := repeat match goal with |- match ?x with _ => _ end = None => destruct x; [|reflexivity] end; reflexivity.
Lemma get_asset_params_bad p : get_asset_params (asset_params_value p) = None.
Proof. unfold asset_params_value, get_asset_params, get_address. in_array. rewrite !get_array_VBin. give_up. Qed.
Lemma get_fields_bad f : match f with
  | Payment f => receiver f <> zero32 \/ close_remainder_to f <> None
  | AppCall f => app_accounts f <> []
  | AssetConfig _ | AssetTransfer _ | AssetFreeze _ => True
  | Keyreg _ | CompactCert _ => False
  end -> get_fields valid_key (required "type" (VStr (type_name f)) :: field_entries f) = None.
Proof.
  intros A. rewrite get_fields_kind. destruct f as [f|f|f|f|f|f|f]; try contradiction.
  - unfold get_payment. rewrite (or_default_entry "rcv" _ _ _ (is_zero (receiver f)) (VBin (receiver f))) by (values; reflexivity).
    rewrite (or_default_entry "close" _ _ _ (is_none (close_remainder_to f)) (match close_remainder_to f with Some a => VBin a | None => VNil end)) by (values; reflexivity).
    destruct A as [A|A].
    + apply is_zero_false in A. rewrite A. reflexivity.
    + destruct (close_remainder_to f); [|congruence]. cbn [is_none]. change (get_option get_address (VBin b)) with (@None (option bytes)). give_up.
  - unfold get_asset_config. rewrite (need_required "asset_params" _ _ (asset_params_value (config_params f))) by (values; reflexivity).
    rewrite get_asset_params_bad. give_up.
  - unfold get_asset_transfer. rewrite (need_required "asset_sender" _ _ (VBin (asset_sender f))) by (values; reflexivity).
    unfold get_address at 1. rewrite get_array_VBin. give_up.
  - unfold get_asset_freeze. rewrite (need_required "freeze_account" _ _ (VBin (freeze_account f))) by (values; reflexivity). reflexivity.
  - unfold get_app_call. rewrite (need_required "accounts" _ _ (VArr (map VBin (app_accounts f)))) by (values; reflexivity).
    destruct (app_accounts f) as [|a r]; [congruence|]. change (get_vec get_address (VArr (map VBin (a :: r)))) with (@None (list bytes)). give_up.
Qed.

(** ** Transactions *)
Lemma get_tx_ok t : in_memory valid_key t -> ~ mentions_address t -> get_tx valid_key (tx_value t) = Some t.
Proof.
  intros M A. rewrite get_tx_split, get_fields_ok by assumption. destruct M as ((Fh & _) & (U & G1 & G2 & G3) & _).
  rewrite get_header_ok; try assumption.
  - destruct t. reflexivity.
  - destruct (bytes_eqb (sender (tx_head t)) zero32) eqn:E; [apply bytes_eqb_spec in E; exact E|]. exfalso. apply A. left. apply is_zero_false. exact E.
  - destruct (bytes_eqb (rekey_to (tx_head t)) zero32) eqn:E; [apply bytes_eqb_spec in E; exact E|]. exfalso. apply A. right. left. apply is_zero_false. exact E.
Qed.
Lemma get_tx_bad t : mentions_address t -> get_tx valid_key (tx_value t) = None.
Proof.
  intros A. rewrite get_tx_split. destruct A as [A|[A|A]].
  - rewrite get_header_bad by auto. reflexivity.
  - rewrite get_header_bad by auto. reflexivity.
  - rewrite get_fields_bad by exact A. destruct get_header; reflexivity.
Qed.
Lemma decode_tx_ok t rest : in_memory valid_key t -> ~ mentions_address t -> decode_tx valid_key (encode (tx_value t) ++ rest) = Some t.
Proof. intros M A. unfold decode_tx. rewrite decode_encode by (apply wf_tx_value; apply M). apply get_tx_ok; assumption. Qed.
Lemma decode_tx_bad t rest : tx_fits t -> mentions_address t -> decode_tx valid_key (encode (tx_value t) ++ rest) = None.
Proof. intros M A. unfold decode_tx. rewrite decode_encode by (apply wf_tx_value; apply M). apply get_tx_bad; assumption. Qed.

(** ** Signed transactions *)
Variables (bins : bool) (valid_sig : bytes -> bool).
Lemma get_signed_bad s : one_signature s -> get_signed_tx valid_key bins valid_sig (signed_tx_value s) = None.
Proof.
  intros O. unfold signed_tx_value. destruct s as [g m l t a]. unfold one_signature in O. cbn [stx_sig stx_msig stx_lsig stx_tx stx_auth] in *.
  assert (Z : forall x y z, get_signed_tx valid_key bins valid_sig (VArr (x :: y :: z :: element (is_zero a) (VBin a))) = None).
  { intros x y z. unfold element. destruct (is_zero a); [reflexivity|]. cbn [get_signed_tx]. destruct (get_sig _ _ x); [|reflexivity].
    destruct (get_option _ y); [|reflexivity]. destruct (get_option _ z); reflexivity. }
  assert (Z2 : forall x y, get_signed_tx valid_key bins valid_sig (VArr (x :: y :: element (is_zero a) (VBin a))) = None).
  { intros x y. unfold element. destruct (is_zero a); reflexivity. }
  assert (Z1 : forall x, get_signed_tx valid_key bins valid_sig (VArr (x :: element (is_zero a) (VBin a))) = None).
  { intros x. unfold element. destruct (is_zero a); reflexivity. }
  unfold element at 1. destruct (sig_is_empty g) eqn:Eg, m as [m|], l as [l|]; cbn [app]; try apply Z; try apply Z1; try apply Z2.
  exfalso. destruct O as [O|[O|O]]; try discriminate. rewrite O in Eg. unfold sig_is_empty, null_sig in Eg. vm_compute in Eg. discriminate.
Qed.
Lemma decode_signed_bad s rest : wf (signed_tx_value s) -> one_signature s ->
  decode_signed valid_key bins valid_sig (encode (signed_tx_value s) ++ rest) = None.
Proof. intros W O. unfold decode_signed. rewrite decode_encode by exact W. apply get_signed_bad. exact O. Qed.
(** With all three kinds of signature. *)
Lemma get_fixed_VBytes n s : length s = n -> get_fixed bins n (VBytes s) = Some s.
Proof. intros L. unfold get_fixed. change (get_seq bins (VBytes s)) with (get_vec get_u8 (VBytes s)). rewrite get_vec_VBytes, L, Nat.eqb_refl. reflexivity. Qed.
Lemma get_sig_ok s : length s = 64%nat -> valid_sig s = true -> get_sig bins valid_sig (VBytes s) = Some s.
Proof. intros L V. unfold get_sig. rewrite get_fixed_VBytes by exact L. rewrite V. reflexivity. Qed.
Lemma get_option_some {A} (get : value -> option A) v a : v <> VNil -> get v = Some a -> get_option get v = Some (Some a).
Proof. intros N E. unfold get_option. rewrite E. destruct v; try reflexivity. contradiction. Qed.
Lemma get_msig_ok m : msig_in_memory valid_key valid_sig m -> get_multisig valid_key bins valid_sig (multisig_value m) = Some m.
Proof.
  intros (A & B & C). unfold get_multisig, multisig_value. in_array. rewrite !get_num_VNum by lia. cbn [get_vec]. rewrite get_all_same.
  - destruct m; reflexivity.
  - revert C. apply Forall_impl. intros [k g] [K G]. cbn [MultisigModel.key MultisigModel.sig] in *. unfold get_subsig, subsig_value.
    cbn [MultisigModel.key MultisigModel.sig]. unfold get_key, get_byte_buf. rewrite K. destruct g as [g|]; [|reflexivity].
    rewrite (get_option_some _ (VBytes g) g); [reflexivity|discriminate|]. apply get_sig_ok; apply G.
Qed.
Lemma get_lsig_ok l : length (lsig_sig l) = 64%nat -> valid_sig (lsig_sig l) = true -> msig_in_memory valid_key valid_sig (lsig_msig l) ->
  get_lsig valid_key bins valid_sig (lsig_value l) = Some l.
Proof.
  intros L V M. unfold get_lsig, lsig_value. in_array. change (get_seq bins (VBytes (logic l))) with (get_vec get_u8 (VBytes (logic l))).
  rewrite get_vec_VBytes, get_sig_ok, get_msig_ok by assumption. cbn [get_vec]. rewrite get_all_same; [destruct l; reflexivity|].
  apply Forall_forall. intros s _. change (get_seq bins (VBytes s)) with (get_vec get_u8 (VBytes s)). apply get_vec_VBytes.
Qed.
Lemma get_signed_all s : all_signatures valid_key valid_sig s -> in_memory valid_key (stx_tx s) -> h32 (stx_auth s) ->
  get_signed_tx valid_key bins valid_sig (signed_tx_value s) =
  if is_zero (stx_auth s) || bins then match get_tx valid_key (tx_value (stx_tx s)) with Some t => Some (mkSigned (stx_sig s) (stx_msig s) (stx_lsig s) t (stx_auth s)) | None => None end else None.
Proof.
  intros ((L & V & Z) & (m & Em & Mm) & (l & El & Ll & Vl & Ml)) M A. unfold signed_tx_value. destruct s as [g om ol t a].
  cbn [stx_sig stx_msig stx_lsig stx_tx stx_auth] in *. subst om ol.
  assert (Eg : sig_is_empty g = false) by (unfold sig_is_empty; destruct (bytes_eqb_reflect g null_sig); [contradiction|reflexivity]).
  unfold element. rewrite Eg. cbn [app get_signed_tx]. rewrite get_sig_ok by assumption.
  rewrite (get_option_some _ (multisig_value m) m) by (discriminate || apply get_msig_ok, Mm).
  rewrite (get_option_some _ (lsig_value l) l) by (discriminate || (apply get_lsig_ok; assumption)).
  destruct (is_zero a) eqn:Ea; cbn [orb].
  - apply is_zero_iff in Ea. subst a. reflexivity.
  - unfold get_fixed, get_seq. destruct bins; [rewrite A; cbn [Nat.eqb]; reflexivity|destruct (get_tx _ _); reflexivity].
Qed.
Lemma decode_signed_all s rest : wf (signed_tx_value s) -> all_signatures valid_key valid_sig s -> in_memory valid_key (stx_tx s) -> h32 (stx_auth s) ->
  ~ mentions_address (stx_tx s) -> stx_auth s = zero32 \/ bins = true ->
  decode_signed valid_key bins valid_sig (encode (signed_tx_value s) ++ rest) = Some s.
Proof.
  intros W S M A N C. unfold decode_signed. rewrite decode_encode by exact W. rewrite get_signed_all, get_tx_ok by assumption.
  destruct s as [g om ol t a]. cbn [stx_sig stx_msig stx_lsig stx_tx stx_auth] in *. destruct C as [->| ->]; [reflexivity|]. rewrite orb_true_r. reflexivity.
Qed.
End Fields.

Lemma mentions_dec t : mentions_address t \/ ~ mentions_address t.
Proof.
  unfold mentions_address. destruct (is_zero (sender (tx_head t))) eqn:E1; [apply is_zero_iff in E1|left; left; apply is_zero_false; exact E1].
  destruct (is_zero (rekey_to (tx_head t))) eqn:E2; [apply is_zero_iff in E2|left; right; left; apply is_zero_false; exact E2].
  destruct (fields t) as [f|f|f|f|f|f|f].
  - right. tauto.
  - destruct (is_zero (receiver f)) eqn:E3; [apply is_zero_iff in E3|left; right; right; left; apply is_zero_false; exact E3].
    destruct (close_remainder_to f); [left; right; right; right; discriminate|right; tauto].
  - auto.
  - auto.
  - auto.
  - destruct (app_accounts f); [right; tauto|left; right; right; discriminate].
  - right. tauto.
Qed.
Lemma decode_tx_iff valid_key t rest : in_memory valid_key t ->
  (decode_tx valid_key (encode (tx_value t) ++ rest) = Some t <-> ~ mentions_address t) /\
  (forall t', decode_tx valid_key (encode (tx_value t) ++ rest) = Some t' -> t' = t).
Proof.
  intros M. destruct (mentions_dec t) as [A|A].
  - rewrite decode_tx_bad by (apply M || exact A). split; [split; [discriminate|contradiction]|discriminate].
  - rewrite decode_tx_ok by assumption. split; [tauto|]. intros t' E. symmetry. exact (f_equal (fun o => match o with Some x => x | None => t end) E).
Qed.
Lemma well_formed_sender H m spec proto t : is_well_formed H m spec proto t = Ok tt -> mentions_address t.
Proof.
  unfold is_well_formed, bind. intros E. left. apply is_zero_false.
  destruct (check_fields H m spec proto t); try discriminate. destruct (check_fee _ t); try discriminate. destruct (check_validity _ _); try discriminate.
  destruct (check_asset_params _ _); try discriminate. unfold check_header in E. destruct (bytes_eqb _ _); [discriminate|].
  destruct (is_zero _); [discriminate|reflexivity].
Qed.
Lemma well_formed_unreadable valid_key H m spec proto t rest : tx_fits t -> is_well_formed H m spec proto t = Ok tt ->
  decode_tx valid_key (encode (tx_value t) ++ rest) = None.
Proof. intros F E. apply decode_tx_bad; [exact F|]. exact (well_formed_sender _ _ _ _ _ E). Qed.
Lemma sign_one_signature sc sk t : one_signature (sign sc sk t). Proof. right. left. reflexivity. Qed.
