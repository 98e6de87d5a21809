(** Lemmas for C184-C185. *)
From Verif Require Import Base BaseFacts StibDecodeModel StibDecodeSpec TxCodecSpec TxCodecProofs TxDecodeSpec TxDecodeProofs GenDecodeSpec GenDecodeProofs MsgpackProofs.
Local Open Scope N_scope.

Lemma nesting_in v l : In v l -> (nesting v < nesting (VArr l))%nat.
Proof.
  intros Hi. cbn [nesting]. apply Nat.lt_succ_r. induction l as [|x l IH]; [contradiction|]. cbn [map fold_right].
  destruct Hi as [->|Hi]; [lia|]. specialize (IH Hi). lia.
Qed.
Lemma nesting_ad t ad : ad_is_default ad = false -> (nesting (ad_value ad) < nesting (stad_value (t, ad)))%nat.
Proof. intros E. unfold stad_value, element. cbn [fst snd]. rewrite E. apply nesting_in. right. left. reflexivity. Qed.
Lemma inner_not_default s a b c d e g l o i x y : In s i -> ad_is_default (mkAD a b c d e (mkED g l o i) x y) = false.
Proof.
  intros Hi. destruct (ad_is_default _) eqn:E; [|reflexivity]. apply ad_is_default_true in E.
  injection E as _ _ _ _ _ _ _ _ E _ _. subst i. contradiction.
Qed.
Lemma nesting_inner s a b c d e g l o i x y : In s i ->
  (nesting (stad_value s) < nesting (ad_value (mkAD a b c d e (mkED g l o i) x y)))%nat.
Proof.
  intros Hi. cbn [ad_value]. eapply Nat.lt_trans; [|apply nesting_in; right; right; right; right; right; left; reflexivity].
  cbn [eval_delta_value]. eapply Nat.lt_trans; [|apply nesting_in; right; right; right; left; reflexivity].
  apply nesting_in. apply in_map_iff. exists s. split; [reflexivity|exact Hi].
Qed.

Section Read.
Variables (valid_key : bytes -> bool) (bins : bool) (valid_sig : bytes -> bool).

Lemma get_action a : get_variant actions (VStr (delta_action_name a)) = Some a.
Proof. destruct a; vm_compute; reflexivity. Qed.
Lemma get_delta_ok d : n64 (delta_uint d) -> get_value_delta bins (delta_value d) = Some d.
Proof.
  intros U. unfold get_value_delta, delta_value. cbn [fields_of length Nat.eqb]. rewrite get_action, get_seq_VBytes, get_u64_VNum by exact U. destruct d; reflexivity.
Qed.
Lemma get_state_delta_ok d : delta_in_memory d -> get_state_delta bins (state_delta_value d) = Some d.
Proof.
  intros [N F]. unfold get_state_delta, state_delta_value. apply (get_map_ok bytes_eqb get_str (get_value_delta bins) VStr delta_value); [apply eqb_bytes| |exact N].
  revert F. apply Forall_impl. intros e [U W]. split; [apply get_str_VStr; exact U|apply get_delta_ok; exact W].
Qed.
Lemma get_signed_ok s : signed_readable valid_key bins valid_sig s -> get_signed_tx valid_key bins valid_sig (signed_tx_value s) = Some s.
Proof.
  intros (S1 & M & A & N & C). rewrite get_signed_all, get_tx_ok by assumption.
  destruct s as [g om ol t a]. cbn [stx_sig stx_msig stx_lsig stx_tx stx_auth] in *. destruct C as [->| ->]; [reflexivity|]. rewrite orb_true_r. reflexivity.
Qed.
Lemma get_ad_S fuel a b c d e ed x y : n64 a -> n64 b -> n64 c -> n64 d -> n64 e -> n64 x -> n64 y ->
  get_ad valid_key bins valid_sig (S fuel) (ad_value (mkAD a b c d e ed x y)) =
  match get_eval_delta bins (get_stad valid_key bins valid_sig (get_ad valid_key bins valid_sig fuel)) (eval_delta_value ed) with
  | Some ed => Some (mkAD a b c d e ed x y) | None => None end.
Proof. intros. cbn [get_ad ad_value fields_of length Nat.eqb]. rewrite !get_u64_VNum by assumption. reflexivity. Qed.

Lemma get_stad_ok t : readable valid_key bins valid_sig t -> forall fuel, (nesting (stad_value t) <= fuel)%nat ->
  get_stad valid_key bins valid_sig (get_ad valid_key bins valid_sig fuel) (stad_value t) = Some t.
Proof.
  induction 1 as [s a b c d e g l o i x y R Ha Hb Hc Hd He Hx Hy Hg Hn Hl Ho Hi IH]. intros fuel Hf.
  set (ad := mkAD a b c d e (mkED g l o i) x y) in *. pose proof (nesting_ad s ad) as Na.
  unfold stad_value, element in *. cbn [fst snd] in *. destruct (ad_is_default ad) eqn:E; cbn [get_stad].
  - rewrite get_signed_ok by exact R. apply ad_is_default_true in E. rewrite E. reflexivity.
  - rewrite get_signed_ok by exact R. specialize (Na eq_refl). destruct fuel as [|fuel]; [lia|]. unfold ad. rewrite get_ad_S by assumption.
    unfold get_eval_delta. cbn [eval_delta_value fields_of length Nat.eqb]. rewrite get_state_delta_ok by exact Hg.
    rewrite (get_map_ok N.eqb get_u64 (get_state_delta bins) VNum state_delta_value); [|apply eqb_N| |exact Hn].
    2:{ revert Hl. apply Forall_impl. intros k [K1 K2]. split; [apply get_u64_VNum; exact K1|apply get_state_delta_ok; exact K2]. }
    cbn [get_vec]. rewrite get_all_same; [|revert Ho; apply Forall_impl; intros k; apply get_str_VStr].
    rewrite get_all_same; [reflexivity|]. apply Forall_forall. intros t Ht. apply (IH t Ht).
    pose proof (nesting_inner t a b c d e g l o i x y Ht) as Ni. fold ad in Ni. unfold stad_value, element in Ni. lia.
Qed.
(** What comes back of the flags. *)
Lemma get_stib_ok s : readable valid_key bins valid_sig (stib_tx s) -> forall fuel, (nesting (stib_value s) <= fuel)%nat ->
  get_stib valid_key bins valid_sig fuel (stib_value s) =
  Some (mkStib (stib_tx s) (has_genesis_id s || has_genesis_hash s) (has_genesis_id s && has_genesis_hash s)).
Proof.
  intros R fuel Hf. assert (N : (nesting (stad_value (stib_tx s)) < nesting (stib_value s))%nat) by (apply nesting_in; left; reflexivity).
  destruct s as [t [] []]; cbn [stib_tx has_genesis_id has_genesis_hash] in *; unfold stib_value, element;
    cbn [negb stib_tx has_genesis_id has_genesis_hash app get_stib get_bool orb andb]; rewrite get_stad_ok by (assumption || lia); reflexivity.
Qed.
Lemma get_stad_bad s t : one_signature s -> within s t -> forall fuel,
  get_stad valid_key bins valid_sig (get_ad valid_key bins valid_sig fuel) (stad_value t) = None.
Proof.
  intros O. induction 1 as [ad|t r a b c d e g l o i x y Hi W IH]; intros fuel; unfold stad_value, element; cbn [fst snd].
  - destruct (ad_is_default ad); cbn [get_stad]; rewrite get_signed_bad by exact O; reflexivity.
  - rewrite (inner_not_default t) by exact Hi. cbn [get_stad]. destruct (get_signed_tx _ _ _ _); [|reflexivity].
    destruct fuel as [|fuel]; [reflexivity|]. cbn [get_ad ad_value fields_of length Nat.eqb].
    repeat match goal with |- match get_u64 ?x with _ => _ end = _ => destruct (get_u64 x); [|reflexivity] | _ => idtac end.
    replace (get_eval_delta _ _ _) with (@None eval_delta); [destruct (get_u64 (VNum a)), (get_u64 (VNum b)), (get_u64 (VNum c)), (get_u64 (VNum d)), (get_u64 (VNum e)); reflexivity|].
    symmetry. unfold get_eval_delta. cbn [eval_delta_value fields_of length Nat.eqb].
    destruct (get_state_delta _ _); [|reflexivity]. destruct (get_map _ _ _ _); [|reflexivity]. destruct (get_vec get_str _); [|reflexivity].
    cbn [get_vec]. replace (get_all _ _) with (@None (list signed_tx_with_ad)); [reflexivity|]. symmetry. clear W x y.
    induction i as [|z i IHi]; [contradiction|]. cbn [map get_all]. destruct Hi as [->|Hi].
    + specialize (IH fuel). unfold stad_value in IH. rewrite IH. reflexivity.
    + rewrite (IHi Hi). destruct (get_stad _ _ _ _ _); reflexivity.
Qed.
Lemma get_stib_bad s t : one_signature s -> within s (stib_tx t) -> forall fuel, get_stib valid_key bins valid_sig fuel (stib_value t) = None.
Proof.
  intros O W fuel. destruct t as [t [] []]; cbn [stib_tx] in W; unfold stib_value, element;
    cbn [negb stib_tx has_genesis_id has_genesis_hash app get_stib]; rewrite (get_stad_bad s) by assumption; reflexivity.
Qed.

Definition flags_moved (s : signed_tx_in_block) : signed_tx_in_block :=
  mkStib (stib_tx s) (has_genesis_id s || has_genesis_hash s) (has_genesis_id s && has_genesis_hash s).
Lemma decode_payset_ok p rest : wf (VArr (map stib_value p)) -> Forall (fun s => readable valid_key bins valid_sig (stib_tx s)) p ->
  decode_payset valid_key bins valid_sig (encode (VArr (map stib_value p)) ++ rest) = Some (map flags_moved p).
Proof.
  intros W F. unfold decode_payset. rewrite decode_encode by exact W. cbn [get_vec]. apply get_all_map.
  apply Forall_forall. intros s Hs. apply get_stib_ok; [rewrite Forall_forall in F; apply F; exact Hs|].
  apply Nat.lt_le_incl, nesting_in, in_map, Hs.
Qed.
Lemma decode_payset_bad p rest s t : wf (VArr (map stib_value p)) -> In t p -> within s (stib_tx t) -> one_signature s ->
  decode_payset valid_key bins valid_sig (encode (VArr (map stib_value p)) ++ rest) = None.
Proof.
  intros W Ht Ws O. unfold decode_payset. rewrite decode_encode by exact W. cbn [get_vec]. generalize (nesting (VArr (map stib_value p))). intros fuel.
  clear W. induction p as [|z p IH]; [contradiction|]. cbn [map get_all]. destruct Ht as [->|Ht].
  - rewrite (get_stib_bad s) by assumption. reflexivity.
  - rewrite (IH Ht). destruct (get_stib _ _ _ _ _); reflexivity.
Qed.
Lemma decode_payset_same p rest : wf (VArr (map stib_value p)) -> Forall (fun s => readable valid_key bins valid_sig (stib_tx s)) p ->
  (forall s, In s p -> has_genesis_hash s = true -> has_genesis_id s = true) ->
  decode_payset valid_key bins valid_sig (encode (VArr (map stib_value p)) ++ rest) = Some p.
Proof.
  intros W F G. rewrite decode_payset_ok by assumption. f_equal. rewrite <- (map_id p) at 2. apply map_ext_in.
  intros s Hs. specialize (G s Hs). destruct s as [t [] []]; try reflexivity. discriminate (G eq_refl).
Qed.
Lemma decode_stib_ok s rest : wf (stib_value s) -> readable valid_key bins valid_sig (stib_tx s) ->
  decode_stib valid_key bins valid_sig (encode (stib_value s) ++ rest) = Some (flags_moved s).
Proof. intros W R. unfold decode_stib. rewrite decode_encode by exact W. apply get_stib_ok; [exact R|lia]. Qed.
End Read.
