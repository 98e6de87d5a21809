(** Identifiers and hashes: proofs. *)
From Coq Require Import Permutation.
From Verif Require Import Base BaseFacts IdsModel IdsSpec BlockSpec TxCodecSpec.
From Verif Require Import TxCodecProofs MsgpackProofs BlockProofs BlockBind MerkleArraySpec.
From Verif Require MerkleArrayModel MerkleArrayProofs.
Local Open Scope N_scope.

(** ** Signed transaction groups *)
Lemma signed_txs_value_inj l l' : Forall signed_fits l -> Forall signed_fits l' -> signed_txs_value l = signed_txs_value l' -> l = l'.
Proof.
  unfold signed_txs_value. intros F F' E. apply VArr_inj in E. revert l' F' E.
  induction l as [|a l IH]; intros [|b l'] F' E; cbn [map] in E; try discriminate; [reflexivity|].
  apply TxCodecProofs.cons_inj in E. destruct E as [E1 E2]. inversion F as [|? ? [S1 _] F1]; subst. inversion F' as [|? ? [S2 _] F2]; subst.
  f_equal; [apply signed_tx_value_inj; assumption|apply IH; assumption].
Qed.
Lemma signed_txs_wf l : short l -> Forall signed_fits l -> wf (signed_txs_value l).
Proof. intros L F. apply (wf_map_arr signed_tx_value signed_fits); [intros a [_ A]; exact A|exact L|exact F]. Qed.
Lemma signed_txs_id_lemma H l l' : short l -> short l' -> Forall signed_fits l -> Forall signed_fits l' ->
  signed_txs_id H l = signed_txs_id H l' -> l = l' \/ collision_in H [signed_txs_rep l] [signed_txs_rep l'].
Proof.
  intros L L' F F' E. destruct (bytes_eq_dec (signed_txs_rep l) (signed_txs_rep l')) as [Er|Er].
  - left. apply signed_txs_value_inj; try assumption. apply encode_inj; [apply signed_txs_wf; assumption..|].
    unfold signed_txs_rep, hash_rep in Er. apply app_inv_head in Er. exact Er.
  - right. exists (signed_txs_rep l), (signed_txs_rep l'). split; [left; reflexivity|]. split; [left; reflexivity|]. split; assumption.
Qed.
Lemma signed_tx_has_map s : exists a l b, signed_tx_value s = VArr (a ++ VMap l :: b).
Proof.
  unfold signed_tx_value, tx_value.
  exists (element (sig_is_empty (stx_sig s)) (VBytes (stx_sig s)) ++ match stx_msig s with Some m => [multisig_value m] | None => [] end ++
        match stx_lsig s with Some l => [lsig_value l] | None => [] end). eexists _, _. rewrite <- !app_assoc. cbn [app]. reflexivity.
Qed.
Lemma group_reps_differ l hs : short l -> short hs -> Forall signed_fits l -> Forall (fun h => length h = 32%nat) hs ->
  signed_txs_rep l <> tx_group_rep hs.
Proof.
  intros L Lh F Fh E. unfold signed_txs_rep, tx_group_rep, hash_rep in E. apply app_inv_head in E.
  apply encode_inj in E; [|apply signed_txs_wf; assumption|].
  - unfold signed_txs_value, tx_group_value in E. apply VArr_inj in E. destruct l as [|s [|s2 l]]; try discriminate.
    cbn [map] in E. destruct (signed_tx_has_map s) as (a & m & b & Es). rewrite Es in E. apply TxCodecProofs.cons_inj in E. destruct E as [E _].
    apply VArr_inj in E. assert (I : In (VMap m) (map VBytes hs)) by (rewrite <- E; apply in_elt). apply in_map_iff in I. destruct I as (h & Eh & _). discriminate Eh.
  - apply wf_VArr; [vm_compute; reflexivity|]. constructor; [|constructor].
    apply (wf_map_arr VBytes (fun h => length h = 32%nat)); [|exact Lh|exact Fh]. intros h Hh. apply wf_VBytes. unfold len in *. rewrite Hh. vm_compute. reflexivity.
Qed.

(** ** Block elements *)
Section Inclusion.
Variables (table : list (version * params)) (H : bytes -> bytes).

Lemma elem_rep_string t s : elem_rep H (t, s) = leaf_string H t s.
Proof. reflexivity. Qed.
Lemma leaf_reps_elems h l : match elems_of table h l with
  | Ok es => leaf_reps table H h l = Some (map (elem_rep H) es)
  | _ => leaf_reps table H h l = None
  end.
Proof.
  induction l as [|s l IH]; cbn [elems_of leaf_reps]; [reflexivity|]. destruct (decode_signed_tx table h s) as [t|e|]; cbn [bind]; try reflexivity.
  destruct (elems_of table h l) as [es|e|]; cbn [bind]; rewrite IH; reflexivity.
Qed.
Lemma tree_of_elems b : match merkle_array table b with
  | Ok es => tree_of_block table H b = MerkleArrayModel.from_array H (map (elem_rep H) es)
  | _ => tree_of_block table H b = None
  end.
Proof.
  unfold merkle_array, tree_of_block. pose proof (leaf_reps_elems (head b) (payset b)) as L.
  destruct (elems_of table (head b) (payset b)); rewrite L; reflexivity.
Qed.
Lemma elems_nth h l : forall es i t s, elems_of table h l = Ok es -> nth_error es i = Some (t, s) ->
  nth_error l i = Some s /\ exists st ad, decode_signed_tx table h s = Ok (st, ad) /\ stx_tx st = t.
Proof.
  induction l as [|a l IH]; intros es i t s E I; cbn [elems_of] in E.
  - assert (es = []) as -> by congruence. destruct i; discriminate.
  - destruct (decode_signed_tx table h a) as [d|e|] eqn:Ed; cbn [bind] in E; try discriminate. destruct (elems_of table h l) as [es'|e|]; cbn [bind] in E; try discriminate.
    assert (es = (stx_tx (fst d), a) :: es') as -> by congruence. destruct i as [|i]; cbn [nth_error] in *.
    + assert (a = s /\ stx_tx (fst d) = t) as [-> <-] by (split; congruence). split; [reflexivity|]. exists (fst d), (snd d). rewrite Ed. destruct d. auto.
    + apply (IH es' i t s eq_refl I).
Qed.
Lemma elems_length h l : forall es, elems_of table h l = Ok es -> length es = length l.
Proof.
  induction l as [|a l IH]; intros es E; cbn [elems_of] in E; [assert (es = []) as -> by congruence; reflexivity|].
  destruct (decode_signed_tx table h a) as [d|e|]; cbn [bind] in E; try discriminate. destruct (elems_of table h l) as [es'|e|]; cbn [bind] in E; try discriminate.
  assert (es = (stx_tx (fst d), a) :: es') as -> by congruence. cbn [length]. f_equal. apply IH. reflexivity.
Qed.
(** A matching block with a Merkle commitment: its elements, tree and root. *)
Lemma matching_tree b p : params_of table (head b) = Some p -> payset_commit p = Merkle -> contents_match_header table H b = Some true ->
  exists es tr, merkle_array table b = Ok es /\ tree_of_block table H b = Some tr /\
    MerkleArrayModel.from_array H (map (elem_rep H) es) = Some tr /\ MerkleArrayModel.root tr = Ok (tx_root (head b)).
Proof.
  intros Ep Ec E. unfold contents_match_header, payset_commit_of in E. rewrite Ep, Ec in E. unfold tx_merkle_root in E.
  pose proof (tree_of_elems b) as T. unfold tree_of_block in T. destruct (leaf_reps table H (head b) (payset b)) as [ls|] eqn:El; [|discriminate].
  destruct (MerkleArrayModel.from_array H ls) as [tr|] eqn:Et; [|discriminate]. destruct (MerkleArrayModel.root tr) as [r|e|] eqn:Er; try discriminate.
  destruct (merkle_array table b) as [es|e|]; try discriminate T. exists es, tr. unfold tree_of_block. rewrite El, Et. repeat split; auto.
  rewrite Er. f_equal. apply bytes_eqb_spec. congruence.
Qed.
Lemma elems_decode h l : forall es, elems_of table h l = Ok es ->
  exists ts, decode_all table h l = Ok ts /\ es = combine (map (fun t => stx_tx (fst t)) ts) l /\ length ts = length l.
Proof.
  induction l as [|a l IH]; intros es E; cbn [elems_of decode_all] in *.
  - exists []. assert (es = []) as -> by congruence. auto.
  - destruct (decode_signed_tx table h a) as [d|e|]; cbn [bind] in *; try discriminate. destruct (elems_of table h l) as [es'|e|]; cbn [bind] in E; try discriminate.
    destruct (IH es' eq_refl) as (ts & A & B & C). exists (d :: ts). rewrite A. cbn [bind map combine length]. rewrite <- B, C. split; [reflexivity|]. split; [congruence|reflexivity].
Qed.
Lemma elem_leaves : forall (ts : list signed_tx_with_ad) l, length ts = length l ->
  map (elem_rep H) (combine (map (fun t => stx_tx (fst t)) ts) l) = map (leaf_of H) (combine ts l).
Proof. induction ts as [|t ts IH]; intros [|s l] L; try discriminate; [reflexivity|]. cbn [map combine]. rewrite IH by (cbn in L; congruence). reflexivity. Qed.
Lemma combine_map_in (ts : list signed_tx_with_ad) : forall (l : list signed_tx_in_block) i t s, nth_error (combine (map (fun t => stx_tx (fst t)) ts) l) i = Some (t, s) ->
  exists d, nth_error ts i = Some d /\ stx_tx (fst d) = t /\ In (d, s) (combine ts l).
Proof.
  induction ts as [|d ts IH]; intros [|a l] [|i] t s E; cbn in E; try discriminate.
  - exists d. cbn. assert (stx_tx (fst d) = t /\ a = s) as [<- <-] by (split; congruence). auto.
  - destruct (IH l i t s E) as (d' & A & B & C). exists d'. cbn. auto.
Qed.
Lemma claim_items (claims : list (N * merkle_elem)) : map (claim_item H) claims = map (fun e : N * bytes => (fst e, H (snd e))) (map (fun c => (fst c, elem_rep H (snd c))) claims).
Proof. rewrite map_map. apply map_ext. intros [p [t s]]. reflexivity. Qed.
Lemma leaf_data_elem e : leaf_data (elem_rep H e).
Proof. intros [r E]. unfold elem_rep, hash_rep in E. cbn in E. discriminate. Qed.

Lemma inclusion_complete b p claims es : params_of table (head b) = Some p -> payset_commit p = Merkle ->
  contents_match_header table H b = Some true -> len (payset b) <= 2 ^ 64 -> merkle_array table b = Ok es ->
  NoDup (map fst claims) -> (forall q e, In (q, e) claims -> nth_error es (N.to_nat q) = Some e) ->
  exists tr proof, tree_of_block table H b = Some tr /\ MerkleArrayModel.prove H tr (map fst claims) = Ok proof /\
    MerkleArrayModel.verify H (tx_root (head b)) (map (claim_item H) claims) proof = Some (Ok tt).
Proof.
  intros Ep Ec E L Ees ND Hc. destruct (matching_tree b p Ep Ec E) as (es' & tr & E1 & E2 & E3 & E4). assert (es' = es) as -> by congruence.
  assert (Le : length es = length (payset b)) by (apply (elems_length (head b) (payset b)); exact Ees).
  destruct (MerkleArrayProofs.complete_full_lemma H (map (elem_rep H) es) (map fst claims) (map (claim_item H) claims)) as (t & r & proof & F1 & F2 & F3 & F4).
  - rewrite map_length, Le. exact L.
  - apply Forall_map, Forall_forall. intros [q e] I. cbn [fst]. rewrite map_length. specialize (Hc q e I).
    assert (N.to_nat q < length es)%nat by (apply nth_error_Some; congruence). lia.
  - rewrite map_map. exact ND.
  - intros q. rewrite map_map. reflexivity.
  - intros q h I. apply in_map_iff in I. destruct I as ([q' e] & Eq & I). specialize (Hc q' e I). unfold claim_item in Eq. cbn [fst snd] in Eq.
    exists (elem_rep H e). assert (q' = q) by congruence. subst q'. split; [apply map_nth_error; exact Hc|]. destruct e as [t s]. rewrite elem_rep_string. cbn [fst snd] in Eq. congruence.
  - exists tr, proof. assert (t = tr) as -> by congruence. assert (r = tx_root (head b)) as -> by congruence. auto.
Qed.

Lemma inclusion_sound b p claims nodes proof : hash32 H -> block_fits table b ->
  params_of table (head b) = Some p -> payset_commit p = Merkle -> contents_match_header table H b = Some true ->
  Forall (fun c => tx_fits (fst (snd c)) /\ stib_fits (snd (snd c))) claims -> NoDup (map fst claims) ->
  Forall (fun h => length h = 32%nat) proof -> Permutation nodes (map (claim_item H) claims) -> sorted_by_position nodes ->
  MerkleArrayModel.verify H (tx_root (head b)) (map (claim_item H) claims) proof = Some (Ok tt) ->
  let S := commit_strings table H b ++ flat_map (claim_strings H) claims ++ climb_strings H 65 nodes proof in
  (forall q t s, In (q, (t, s)) claims -> contains table b q t s) \/ collision_in H S S \/ zero_preimage_in H S.
Proof.
  intros Hlen BF Ep Ec E CF ND PL PN SN V S0. destruct (matching_tree b p Ep Ec E) as (es & tr & E1 & E2 & E3 & E4).
  rewrite claim_items in V, PN. unfold merkle_array in E1. destruct (elems_decode (head b) (payset b) es E1) as (ts & D1 & D2 & D3).
  assert (Hs : commit_strings table H b = payset_rep (payset b) :: leaf_inputs ts (payset b) ++ tree_strings H (map (elem_rep H) es)).
  { rewrite (merkle_strings table H b ts D1), D2, elem_leaves by exact D3. reflexivity. }
  set (cl := map (fun c : N * (transaction * signed_tx_in_block) => (fst c, elem_rep H (snd c))) claims) in *.
  set (S1 := tree_strings H (map (elem_rep H) es) ++ map snd cl ++ climb_strings H 65 nodes proof).
  assert (Sub : forall x, In x S1 -> In x S0).
  { intros x I. unfold S1 in I. unfold S0. rewrite Hs. apply in_app_iff in I. destruct I as [I|I].
    - apply in_app_iff. left. right. apply in_app_iff. right. exact I.
    - apply in_app_iff. right. apply in_app_iff in I. apply in_app_iff. destruct I as [I|I]; [left|right; exact I].
      unfold cl in I. rewrite map_map in I. apply in_map_iff in I. destruct I as (c & <- & I). apply in_flat_map. exists c. split; [exact I|]. destruct c as [q [t s]]. right. right. left. reflexivity. }
  destruct (MerkleArrayProofs.verify_sound_lemma H Hlen (map (elem_rep H) es) tr (tx_root (head b)) cl nodes proof E3 E4) as [T|[C|Z]]; auto.
  - apply Forall_map, Forall_forall. intros e _. apply leaf_data_elem.
  - apply Forall_map, Forall_forall. intros e _. apply leaf_data_elem.
  - unfold cl. rewrite map_map. exact ND.
  - assert (Dec : (forall q t s, In (q, (t, s)) claims -> contains table b q t s) \/ collision_in H S0 S0); [|destruct Dec; auto].
    assert (T' : forall q e, In (q, e) claims -> exists e', nth_error es (N.to_nat q) = Some e' /\ elem_rep H e' = elem_rep H e).
    { intros q e I. specialize (T q (elem_rep H e)). rewrite nth_error_map in T. destruct (nth_error es (N.to_nat q)) as [e'|] eqn:En.
      - exists e'. split; [reflexivity|]. assert (X : option_map (elem_rep H) (Some e') = Some (elem_rep H e)) by (apply T; unfold cl; apply in_map_iff; exists (q, e); auto). exact (f_equal (fun o => match o with Some x => x | None => [] end) X).
      - exfalso. assert (X : option_map (elem_rep H) None = Some (elem_rep H e)) by (apply T; unfold cl; apply in_map_iff; exists (q, e); auto). discriminate X. }
    clear T V PN SN ND cl S1 Sub. unfold S0 in *. clear S0.
    set (rest := climb_strings H 65 nodes proof). clearbody rest.
    assert (G : forall cs, incl cs claims -> (forall q t s, In (q, (t, s)) cs -> contains table b q t s) \/
       collision_in H (commit_strings table H b ++ flat_map (claim_strings H) claims ++ rest) (commit_strings table H b ++ flat_map (claim_strings H) claims ++ rest)); [|apply (G claims); apply incl_refl].
    induction cs as [|[q [t s]] cs IH]; intros Inc; [left; intros ? ? ? []|].
    destruct (IH (fun x Hx => Inc x (or_intror Hx))) as [IHl|IHr]; [|right; exact IHr].
    assert (Ic : In (q, (t, s)) claims) by (apply Inc; left; reflexivity). destruct (T' q (t, s) Ic) as ([t0 s0] & En & Ee).
    rewrite !elem_rep_string in Ee. unfold leaf_string in Ee. apply app_inv_head in Ee. apply app_inj_length in Ee; [|rewrite !Hlen; reflexivity]. destruct Ee as [Ee1 Ee2].
    destruct (elems_nth (head b) (payset b) es _ _ _ E1 En) as [Np (st & ad & Dd & Et)].
    rewrite D2 in En. destruct (combine_map_in ts (payset b) _ _ _ En) as (d & Nd & Ed & Id).
    destruct (in_leaf_inputs (d, s0) ts (payset b) Id) as [J1 J2]. cbn [fst snd] in J1, J2. rewrite Ed in J1.
    assert (CS : forall x, In x (claim_strings H (q, (t, s))) -> In x (commit_strings table H b ++ flat_map (claim_strings H) claims ++ rest)).
    { intros x I. apply in_app_iff. right. apply in_app_iff. left. apply in_flat_map. exists (q, (t, s)). auto. }
    assert (LS : forall x, In x (leaf_inputs ts (payset b)) -> In x (commit_strings table H b ++ flat_map (claim_strings H) claims ++ rest)).
    { intros x I. apply in_app_iff. left. rewrite Hs. right. apply in_app_iff. left. exact I. }
    destruct (bytes_eq_dec (tx_hash_rep t0) (tx_hash_rep t)) as [Q1|Q1].
    2:{ right. exists (tx_hash_rep t0), (tx_hash_rep t). split; [apply LS; exact J1|]. split; [apply CS; left; reflexivity|]. split; assumption. }
    destruct (bytes_eq_dec (stib_hash_rep s0) (stib_hash_rep s)) as [Q2|Q2].
    2:{ right. exists (stib_hash_rep s0), (stib_hash_rep s). split; [apply LS; exact J2|]. split; [apply CS; right; left; reflexivity|]. split; assumption. }
    rewrite Forall_forall in CF. specialize (CF _ Ic). cbn [fst snd] in CF. destruct CF as [Ft Fs]. destruct BF as [[_ PF] TF].
    assert (Ft0 : tx_fits t0). { specialize (TF ts D1). rewrite Forall_forall in TF. specialize (TF d (nth_error_In _ _ Nd)). rewrite Ed in TF. exact TF. }
    assert (Fs0 : stib_fits s0). { rewrite Forall_forall in PF. apply PF. eapply nth_error_In. exact Np. }
    apply tx_hash_rep_inj in Q1; [|assumption..]. unfold stib_hash_rep, hash_rep in Q2. apply app_inv_head in Q2. apply stib_alike in Q2; [|assumption..].
    left. intros q1 t1 s1 [I|I]; [|apply IHl; exact I]. assert (q1 = q /\ t1 = t /\ s1 = s) as (-> & -> & ->) by (repeat split; congruence).
    exists s0, st, ad. split; [exact Np|]. split; [exact Dd|]. split; [congruence|]. destruct Q2 as [->|[Q2 _]]; [reflexivity|exact Q2].
  - right. left. eapply collision_in_mono; [exact Sub|exact Sub|exact C].
  - right. right. destruct Z as (x & I & Z). exists x. split; [apply Sub; exact I|exact Z].
Qed.
End Inclusion.

(** ** The genesis *)
Lemma genesis_id_lemma g g' : ~ In "-"%byte (network g) -> ~ In "-"%byte (network g') -> genesis_id_of g = genesis_id_of g' ->
  network g = network g' /\ schema_id g = schema_id g'.
Proof.
  unfold genesis_id_of. generalize (network g) (network g') (schema_id g) (schema_id g'). clear.
  induction b as [|x b IH]; intros [|y b'] s s' N N' E; cbn [app str] in E.
  - split; [reflexivity|]. apply TxCodecProofs.cons_inj in E. destruct E. assumption.
  - apply TxCodecProofs.cons_inj in E. destruct E as [E _]. exfalso. apply N'. left. symmetry. exact E.
  - apply TxCodecProofs.cons_inj in E. destruct E as [E _]. exfalso. apply N. left. exact E.
  - apply TxCodecProofs.cons_inj in E. destruct E as [-> E]. destruct (IH b' s s') as [-> ->]; auto; intros I; [apply N|apply N']; right; exact I.
Qed.

Lemma status_variant_inj a b : status_variant a = status_variant b -> a = b.
Proof. destruct a, b; intros E; first [reflexivity | discriminate E]. Qed.
Lemma teal_variant_inj a b : teal_variant a = teal_variant b -> a = b.
Proof. destruct a, b; intros E; first [reflexivity | discriminate E]. Qed.
Lemma teal_value_inj a b : teal_value_value a = teal_value_value b -> a = b.
Proof.
  destruct a as [t x n], b as [t' x' n']. unfold teal_value_value. cbn [ttype teal_bytes teal_uint]. intros E. apply VArr_inj in E.
  repeat (apply TxCodecProofs.cons_inj in E; let X := fresh "X" in destruct E as [X E]). apply VStr_inj, teal_variant_inj in X. apply VBytes_inj in X0. apply VNum_inj in X1. congruence.
Qed.
Lemma teal_map_inj a b : teal_map_value a = teal_map_value b -> a = b.
Proof.
  unfold teal_map_value. intros E. apply VMap_inj, map_inj in E; [exact E|]. intros [k v] [k' v'] Ee. cbn [fst snd] in Ee.
  assert (Ek : VStr k = VStr k') by (exact (f_equal fst Ee)). assert (Ev : teal_value_value v = teal_value_value v') by (exact (f_equal snd Ee)).
  apply VStr_inj in Ek. apply teal_value_inj in Ev. congruence.
Qed.
Lemma indexed_inj {A} (f : A -> value) a b : (forall x y, f x = f y -> x = y) -> indexed f a = indexed f b -> a = b.
Proof.
  unfold indexed. intros Hf E. apply VMap_inj, map_inj in E; [exact E|]. intros [k v] [k' v'] Ee. cbn [fst snd] in Ee.
  assert (Ek : VNum k = VNum k') by (exact (f_equal fst Ee)). assert (Ev : f v = f v') by (exact (f_equal snd Ee)).
  apply VNum_inj in Ek. apply Hf in Ev. congruence.
Qed.
Lemma holding_inj a b : holding_value a = holding_value b -> a = b.
Proof.
  destruct a as [a1 a2], b as [b1 b2]. unfold holding_value. cbn [held frozen]. intros E. apply VArr_inj in E.
  repeat (apply TxCodecProofs.cons_inj in E; let X := fresh "X" in destruct E as [X E]). apply VNum_inj in X. apply VBool_inj in X0. congruence.
Qed.
Lemma app_local_inj a b : app_local_value a = app_local_value b -> a = b.
Proof.
  destruct a as [a1 a2], b as [b1 b2]. unfold app_local_value. cbn [al_schema al_values]. intros E. apply VArr_inj in E.
  repeat (apply TxCodecProofs.cons_inj in E; let X := fresh "X" in destruct E as [X E]). apply schema_value_inj in X. apply teal_map_inj in X0. congruence.
Qed.
Lemma app_params_inj a b : app_params_value a = app_params_value b -> a = b.
Proof.
  destruct a as [a1 a2 a3 a4 a5 a6], b as [b1 b2 b3 b4 b5 b6]. unfold app_params_value. cbn [ap_approval ap_clear ap_state ap_local ap_global ap_pages]. intros E. apply VArr_inj in E.
  repeat (apply TxCodecProofs.cons_inj in E; let X := fresh "X" in destruct E as [X E]). apply VBytes_inj in X, X0. apply teal_map_inj in X1. apply VNum_inj in X3.
  apply VArr_inj in X2. repeat (apply TxCodecProofs.cons_inj in X2; let X := fresh "Y" in destruct X2 as [X X2]). apply schema_value_inj in Y, Y0. congruence.
Qed.
Lemma account_data_inj a b : account_data_value a = account_data_value b -> a = b.
Proof.
  destruct a as [a1 a2 a3 a4 a5 a6 a7 a8 a9 a10 a11 a12 a13 a14 a15 a16], b as [b1 b2 b3 b4 b5 b6 b7 b8 b9 b10 b11 b12 b13 b14 b15 b16]. unfold account_data_value.
  cbn [ad_status ad_algos ad_rewards_base ad_rewarded ad_vote_id ad_selection_id ad_vote_first ad_vote_last ad_dilution ad_asset_params ad_assets ad_auth ad_locals ad_apps ad_schema ad_pages].
  intros E. apply VArr_inj in E. repeat (apply TxCodecProofs.cons_inj in E; let X := fresh "X" in destruct E as [X E]).
  apply VStr_inj, status_variant_inj in X. apply VBin_inj in X3, X10. apply VBytes_inj in X4. apply VNum_inj in X0, X1, X2, X5, X6, X7, X14.
  apply indexed_inj in X8; [|exact asset_params_inj]. apply indexed_inj in X9; [|exact holding_inj]. apply indexed_inj in X11; [|exact app_local_inj].
  apply indexed_inj in X12; [|exact app_params_inj]. apply schema_value_inj in X13. clear E. subst. reflexivity.
Qed.
Lemma allocation_inj a b : allocation_value a = allocation_value b -> a = b.
Proof.
  destruct a as [a1 a2 a3], b as [b1 b2 b3]. unfold allocation_value. cbn [alloc_address alloc_comment alloc_state]. intros E. apply VArr_inj in E.
  repeat (apply TxCodecProofs.cons_inj in E; let X := fresh "X" in destruct E as [X E]). apply VStr_inj in X, X0. apply account_data_inj in X1. congruence.
Qed.
Lemma genesis_inj a b : genesis_value a = genesis_value b -> a = b.
Proof.
  destruct a as [a1 a2 a3 a4 a5 a6 a7 a8 a9], b as [b1 b2 b3 b4 b5 b6 b7 b8 b9]. unfold genesis_value. cbn [schema_id network proto allocations g_rewards_pool g_fee_sink g_timestamp g_comment dev_mode]. intros E. apply VArr_inj in E.
  repeat (apply TxCodecProofs.cons_inj in E; let X := fresh "X" in destruct E as [X E]). apply VStr_inj in X, X0, X1, X3, X4, X6. apply variant_name_inj in X1.
  apply VArr_inj, map_inj in X2; [|exact allocation_inj]. apply VNum_inj in X5. apply VBool_inj in X7. clear E. subst. reflexivity.
Qed.
Lemma genesis_hash_lemma H g g' : genesis_fits g -> genesis_fits g' -> genesis_hash_of H g = genesis_hash_of H g' ->
  g = g' \/ collision_in H [genesis_rep g] [genesis_rep g'].
Proof.
  intros F F' E. destruct (bytes_eq_dec (genesis_rep g) (genesis_rep g')) as [Er|Er].
  - left. apply genesis_inj. apply encode_inj; [assumption..|]. unfold genesis_rep, hash_rep in Er. apply app_inv_head in Er. exact Er.
  - right. exists (genesis_rep g), (genesis_rep g'). split; [left; reflexivity|]. split; [left; reflexivity|]. split; assumption.
Qed.

Lemma perm_small {A} (a b : list A) : (length a <= 1)%nat -> Permutation a b -> a = b.
Proof.
  intros L P. destruct a as [|x [|y a]]; [apply Permutation_nil in P; congruence|apply Permutation_length_1_inv in P; congruence|cbn in L; lia].
Qed.
Lemma same_entries_small {K V} (R : V -> V -> Prop) (Q : V -> Prop) (a b : list (K * V)) : (forall x y, Q x -> R x y -> x = y) ->
  (length a <= 1)%nat -> Forall (fun e => Q (snd e)) a -> same_entries R a b -> a = b.
Proof.
  intros Heq L F (c & P & F2). apply perm_small in P; [|exact L]. subst c. induction F2 as [|[k x] [k' y] a b [E1 E2] F2 IH]; [reflexivity|].
  inversion F; subst. cbn [fst snd] in *. f_equal; [f_equal; [exact E1|apply Heq; assumption]|apply IH; [cbn in L; lia|assumption]].
Qed.
Lemma same_account_small a b : plain_account a -> same_account a b -> a = b.
Proof.
  intros (L1 & L2 & L3 & L4 & L5 & L6) (A1 & A2 & A3 & A4 & A5 & A6 & A7 & A8 & A9 & A10 & A11 & A12 & A13 & A14 & A15 & A16).
  destruct a, b. cbn in *. apply perm_small in A10, A11; [|assumption..].
  apply (same_entries_small _ (fun x => length (al_values x) <= 1)%nat) in A13; [|intros [s x] [s' y] Lx [Q1 Q2]; cbn in *; apply perm_small in Q2; congruence|assumption..].
  apply (same_entries_small _ (fun x => length (ap_state x) <= 1)%nat) in A14; [|intros x y Lx (Q1 & Q2 & Q3 & Q4 & Q5 & Q6); destruct x, y; cbn in *; apply perm_small in Q3; congruence|assumption..].
  clear L1 L2 L3 L4 L5 L6. subst. reflexivity.
Qed.
Lemma same_genesis_small g g' : Forall (fun a => plain_account (alloc_state a)) (allocations g) -> same_genesis g g' -> g = g'.
Proof.
  intros P (A1 & A2 & A3 & A4 & A5 & A6 & A7 & A8 & A9). destruct g as [g1 g2 g3 g4 g5 g6 g7 g8 g9], g' as [h1 h2 h3 h4 h5 h6 h7 h8 h9]. cbn in *.
  assert (g4 = h4); [|subst; reflexivity]. clear -P A4. induction A4 as [|x y l l' Hxy F IH]; [reflexivity|]. inversion P; subst.
  f_equal; [|apply IH; assumption]. destruct x, y, Hxy as (B1 & B2 & B3). cbn in *. apply same_account_small in B3; [|assumption]. congruence.
Qed.

Lemma elems_decode_all table h l : elems_of table h l =
  match decode_all table h l with Ok ts => Ok (combine (map (fun t => stx_tx (fst t)) ts) l) | Err e => Err e | Panic => Panic end.
Proof.
  induction l as [|a l IH]; cbn [elems_of decode_all]; [reflexivity|]. destruct (decode_signed_tx table h a) as [d|e|]; cbn [bind]; try reflexivity.
  rewrite IH. destruct (decode_all table h l); reflexivity.
Qed.
Lemma merkle_array_lemma table b : merkle_array table b =
  match decode_payset_flat table b with Ok ts => Ok (combine (map (fun t => stx_tx (fst t)) ts) (payset b)) | Err e => Err e | Panic => Panic end.
Proof. apply elems_decode_all. Qed.
Lemma tree_lemma table H b : match decode_payset_flat table b with
  | Ok ts => tree_of_block table H b =
      MerkleArrayModel.from_array H (map (fun e => leaf_string H (fst e) (snd e)) (combine (map (fun t => stx_tx (fst t)) ts) (payset b)))
  | _ => tree_of_block table H b = None
  end.
Proof.
  pose proof (tree_of_elems table H b) as T. rewrite merkle_array_lemma in T. destruct (decode_payset_flat table b); exact T.
Qed.
