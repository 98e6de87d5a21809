(** The header hash, the payset commitment and the genesis block: proofs. *)
From Coq Require Import Permutation.
From Verif Require Import Base BaseFacts BlockModel BlockSpec AddressModel TxCodecSpec TxSpec UpgradeSpec.
From Verif Require Import TxProofs TxCodecProofs MsgpackProofs UpgradeProofs BlockProofs MerkleArraySpec.
From Verif Require MerkleArrayModel MerkleArrayProofs.
Local Open Scope N_scope.

(** ** The header hash *)
Lemma variant_name_inj v w : variant_name v = variant_name w -> v = w.
Proof. destruct v, w; intros E; first [reflexivity | vm_compute in E; discriminate E]. Qed.
Lemma variant_name_short v : short (variant_name v).
Proof. destruct v; vm_compute; reflexivity. Qed.
Lemma rewards_value_inj r r' : rewards_value r = rewards_value r' -> r = r'.
Proof.
  destruct r, r'. unfold rewards_value. cbn. intros E. apply VArr_inj in E.
  repeat (apply TxCodecProofs.cons_inj in E; destruct E as [? E]). repeat match goal with X : VBin _ = _ |- _ => apply VBin_inj in X | X : VNum _ = _ |- _ => apply VNum_inj in X end.
  congruence.
Qed.
Lemma vote_value_inj v v' : vote_value v = vote_value v' -> v = v'.
Proof.
  destruct v as [p d a], v' as [p' d' a']. unfold vote_value. cbn [propose delay approve]. intros E. apply VArr_inj in E.
  repeat (apply TxCodecProofs.cons_inj in E; let X := fresh in destruct E as [X E]). apply VStr_inj, variant_name_inj in H. apply VNum_inj in H0. apply VBool_inj in H1. congruence.
Qed.
Lemma cert_value_inj c c' : cert_value c = cert_value c' -> c = c'.
Proof.
  destruct c, c'. unfold cert_value. cbn. intros E. apply VArr_inj in E.
  repeat (apply TxCodecProofs.cons_inj in E; let X := fresh in destruct E as [X E]). apply VBytes_inj in H. apply VNum_inj in H0, H1. congruence.
Qed.
Lemma header_value_inj h h' : header_value h = header_value h' -> same_but_upgrade h h'.
Proof.
  destruct h as [a b c d e f g r u v t cc], h' as [a' b' c' d' e' f' g' r' u' v' t' cc'].
  unfold header_value, same_but_upgrade, set_upgrade.
  cbn [round branch seed tx_root timestamp genesis_id genesis_hash rewards upgrade vote tx_counter compact_certs].
  intros E. apply VArr_inj in E. repeat (apply TxCodecProofs.cons_inj in E; let X := fresh "X" in destruct E as [X E]).
  apply VNum_inj in X, X3, X8. apply VBytes_inj in X0, X1, X2, X5. apply VStr_inj in X4. apply rewards_value_inj in X6. apply vote_value_inj in X7.
  apply VMap_inj, map_inj in X9; [congruence|]. intros [[] x] [[] y] Ee. cbn [snd] in Ee. f_equal. apply cert_value_inj. congruence.
Qed.
Lemma header_value_wf h : BlockSpec.header_fits h -> wf (header_value h).
Proof.
  intros (A1 & A2 & A3 & A4 & A5 & A6 & A7 & A8 & A9 & A10 & A11 & A12 & A13 & A14 & A15 & A16 & A17).
  apply wf_VArr; [vm_compute; reflexivity|].
  assert (Wb : forall s : bytes, short s -> wf (VBytes s)) by (intros s Hs; apply wf_VBytes; exact Hs).
  assert (Wn : forall n, n64 n -> wf (VNum n)) by (intros n Hn; apply wf_VNum; exact Hn).
  assert (Ws : forall s : bytes, short s -> wf (VStr s)) by (intros s Hs; exact Hs).
  assert (Wi : forall s : bytes, short s -> wf (VBin s)) by (intros s Hs; exact Hs).
  repeat (apply Forall_cons; [auto|]); [| | |apply Forall_nil].
  - apply wf_VArr; [vm_compute; reflexivity|]. repeat (apply Forall_cons; [auto|]). apply Forall_nil.
  - apply wf_VArr; [vm_compute; reflexivity|]. apply Forall_cons; [apply Ws, variant_name_short|]. repeat (apply Forall_cons; [first [apply Wn; assumption|exact I]|]). apply Forall_nil.
  - apply wf_VMap; [rewrite map_length; lia|]. apply Forall_map. revert A17. apply Forall_impl. intros [[] x] (B1 & B2 & B3). cbn [snd] in *.
    split; [vm_compute; reflexivity|]. apply wf_VArr; [vm_compute; reflexivity|]. repeat (apply Forall_cons; [auto|]). apply Forall_nil.
Qed.
Lemma header_hash_lemma H h h' : BlockSpec.header_fits h -> BlockSpec.header_fits h' -> header_hash H h = header_hash H h' ->
  same_but_upgrade h h' \/ collision_in H [header_rep h] [header_rep h'].
Proof.
  intros F F' E. destruct (bytes_eq_dec (header_rep h) (header_rep h')) as [Er|Er].
  - left. apply header_value_inj. apply encode_inj; [apply header_value_wf; assumption..|]. unfold header_rep, hash_rep in Er. apply app_inv_head in Er. exact Er.
  - right. exists (header_rep h), (header_rep h'). split; [left; reflexivity|]. split; [left; reflexivity|]. split; assumption.
Qed.

(** ** The payset commitment *)
Lemma stib_alike s s' : stib_fits s -> stib_fits s' -> encode (stib_value s) = encode (stib_value s') -> alike s s'.
Proof. intros F F' E. exact (stib_encode_inj s s' F F' E). Qed.
Lemma payset_rep_inj p p' : short p -> short p' -> Forall stib_fits p -> Forall stib_fits p' -> payset_rep p = payset_rep p' -> Forall2 alike p p'.
Proof.
  intros L L' F F' E. unfold payset_rep, hash_rep in E. apply app_inv_head in E.
  assert (W : forall q, short q -> Forall stib_fits q -> wf (VArr (map stib_value q))).
  { intros q Hq Fq. apply (wf_map_arr stib_value stib_fits); [intros a [_ A]; exact A|exact Hq|exact Fq]. }
  apply encode_inj in E; [|apply W; assumption..]. apply VArr_inj in E. clear L L' W. revert p' F' E.
  induction p as [|s p IH]; intros [|s' p'] F' E; cbn [map] in E; try discriminate; [constructor|]. apply TxCodecProofs.cons_inj in E. destruct E as [E1 E2].
  inversion F; subst. inversion F'; subst. constructor; [|apply IH; assumption]. apply stib_alike; try assumption. congruence.
Qed.

Section Commit.
Variables (table : list (version * params)) (H : bytes -> bytes).
Hypothesis Hlen : hash32 H.

Definition leaf_of (x : signed_tx_with_ad * signed_tx_in_block) : bytes :=
  str "TL" ++ H (tx_hash_rep (stx_tx (fst (fst x)))) ++ H (stib_hash_rep (snd x)).
Lemma leaf_reps_spec h l : forall ls, leaf_reps table H h l = Some ls ->
  exists ts, decode_all table h l = Ok ts /\ length ts = length l /\ ls = map leaf_of (combine ts l).
Proof.
  induction l as [|s l IH]; intros ls E; cbn [leaf_reps] in E; cbn [decode_all].
  - exists []. assert (ls = []) as -> by congruence. auto.
  - destruct (decode_signed_tx table h s) as [t|e|]; try discriminate. destruct (leaf_reps table H h l) as [ls'|] eqn:El; [|discriminate].
    destruct (IH _ eq_refl) as [ts [A [B C]]]. exists (t :: ts). cbn [bind]. rewrite A. cbn [bind]. split; [reflexivity|]. split; [cbn [length]; congruence|].
    cbn [combine map]. rewrite <- C. assert (ls = leaf_rep H t s :: ls') as -> by congruence. reflexivity.
Qed.
(** Commitment of a block: the root of a tree, or the hash of the list. *)
Lemma commit_inv b r : payset_commit_of table H b = Some r ->
  (r = H (payset_rep (payset b)) /\ exists p, params_of table (head b) = Some p /\ payset_commit p = Flat) \/
  (exists ts t, decode_payset_flat table b = Ok ts /\ length ts = length (payset b) /\
     MerkleArrayModel.from_array H (map leaf_of (combine ts (payset b))) = Some t /\ MerkleArrayModel.root t = Ok r /\
     exists p, params_of table (head b) = Some p /\ payset_commit p = Merkle).
Proof.
  unfold payset_commit_of. destruct (params_of table (head b)) as [p|] eqn:Ep; [|discriminate]. destruct (payset_commit p) eqn:Ec; [discriminate| |].
  - intros E. left. split; [unfold commit_flat in E; congruence|]. exists p. auto.
  - unfold tx_merkle_root. destruct (leaf_reps table H (head b) (payset b)) as [ls|] eqn:El; [|discriminate].
    destruct (leaf_reps_spec _ _ _ El) as [ts [A [B C]]]. destruct (MerkleArrayModel.from_array H ls) as [t|] eqn:Et; [|discriminate].
    destruct (MerkleArrayModel.root t) as [r'|e|] eqn:Er; try discriminate. intros E. right. exists ts, t. split; [exact A|]. split; [exact B|]. rewrite <- C. split; [exact Et|]. split; [congruence|]. exists p. auto.
Qed.
Lemma leaf_data_leaf x : leaf_data (leaf_of x).
Proof. intros [r E]. unfold leaf_of in E. cbn in E. discriminate. Qed.
Lemma leaves_data l : Forall leaf_data (map leaf_of l).
Proof. apply Forall_map, Forall_forall. intros x _. apply leaf_data_leaf. Qed.
Lemma leaf_inj x y : leaf_of x = leaf_of y -> H (tx_hash_rep (stx_tx (fst (fst x)))) = H (tx_hash_rep (stx_tx (fst (fst y)))) /\ H (stib_hash_rep (snd x)) = H (stib_hash_rep (snd y)).
Proof. unfold leaf_of. intros E. apply app_inv_head in E. apply app_inj_length in E; [exact E|]. rewrite !Hlen. reflexivity. Qed.

(** The root is the hash of one of the strings, or zero for an empty tree. *)
Lemma root_string xs t r : MerkleArrayModel.from_array H xs = Some t -> MerkleArrayModel.root t = Ok r ->
  r = zero32 \/ exists x, In x (tree_strings H xs) /\ H x = r /\ (In x xs \/ prefix_of (str "MA") x).
Proof.
  intros Ht R. destruct xs as [|x0 xs0] eqn:Ex.
  - left. rewrite (MerkleArrayProofs.root_empty H t Ht) in R. congruence.
  - right. rewrite <- Ex in *. assert (Nx : xs <> []) by (rewrite Ex; discriminate). destruct (MerkleArrayProofs.root_nonempty H xs t Ht Nx) as (r1 & R1 & U1).
    assert (r1 = r) as -> by congruence. clear R1. destruct (length t - 1)%nat as [|j] eqn:Ej.
    + cbn in U1. destruct xs as [|x [|x' xs]]; try discriminate. cbn in U1. exists x. split; [apply MerkleArrayProofs.tree_strings_elem; left; reflexivity|]. split; [congruence|]. left. left. reflexivity.
    + rewrite MerkleArrayProofs.ups_S, MerkleArrayProofs.layer_up_strings in U1.
      destruct (pair_strings (MerkleArrayProofs.ups H j (map H xs))) as [|s [|s' ss]] eqn:Es; try discriminate.
      cbn in U1. exists s. split; [|split; [congruence|]].
      * eapply (MerkleArrayProofs.tree_strings_upto H xs t (S j)); [exact Ht|lia|]. eapply MerkleArrayProofs.ups_S_in; [rewrite Es; left; reflexivity|lia].
      * right. destruct (MerkleArrayProofs.node_of_pair_strings (MerkleArrayProofs.ups H j (map H xs)) s) as [l' [r' ->]]; [rewrite Es; left; reflexivity|]. exists (l' ++ r'). reflexivity.
Qed.

Lemma in_leaf_inputs (x : signed_tx_with_ad * signed_tx_in_block) ts p : In x (combine ts p) ->
  In (tx_hash_rep (stx_tx (fst (fst x)))) (leaf_inputs ts p) /\ In (stib_hash_rep (snd x)) (leaf_inputs ts p).
Proof. intros I. unfold leaf_inputs. rewrite !in_flat_map. split; exists x; (split; [exact I|cbn; auto]). Qed.

(** Equal leaves: the same encodings and identifiers. *)
Lemma leaves_equal : forall ts p ts' p', length ts = length p -> length ts' = length p' ->
  map leaf_of (combine ts p) = map leaf_of (combine ts' p') ->
  collision_in H (leaf_inputs ts p) (leaf_inputs ts' p') \/
  (Forall2 (fun s s' => stib_hash_rep s = stib_hash_rep s') p p' /\ Forall2 (fun t t' => tx_hash_rep (stx_tx (fst t)) = tx_hash_rep (stx_tx (fst t'))) ts ts').
Proof.
  induction ts as [|t ts IH]; intros [|s p] [|t' ts'] [|s' p'] L L' E; try discriminate; [right; split; constructor|].
  cbn [combine map] in E. apply TxCodecProofs.cons_inj in E. destruct E as [E1 E2]. apply leaf_inj in E1. cbn [fst snd] in E1. destruct E1 as [E1 E3].
  destruct (in_leaf_inputs (t, s) (t :: ts) (s :: p) (or_introl eq_refl)) as [I1 I2].
  destruct (in_leaf_inputs (t', s') (t' :: ts') (s' :: p') (or_introl eq_refl)) as [I1' I2']. cbn [fst snd] in *.
  destruct (bytes_eq_dec (tx_hash_rep (stx_tx (fst t))) (tx_hash_rep (stx_tx (fst t')))) as [D1|D1].
  2:{ left. eexists _, _. split; [exact I1|]. split; [exact I1'|]. split; assumption. }
  destruct (bytes_eq_dec (stib_hash_rep s) (stib_hash_rep s')) as [D2|D2].
  2:{ left. eexists _, _. split; [exact I2|]. split; [exact I2'|]. split; assumption. }
  destruct (IH p ts' p' ltac:(cbn in L; congruence) ltac:(cbn in L'; congruence) E2) as [C|[C1 C2]].
  - left. eapply collision_in_mono; [..|exact C]; intros x Hx; unfold leaf_inputs; cbn [combine flat_map]; apply in_app_iff; right; exact Hx.
  - right. split; constructor; assumption.
Qed.

Lemma merkle_strings b ts : decode_payset_flat table b = Ok ts ->
  commit_strings table H b = payset_rep (payset b) :: leaf_inputs ts (payset b) ++ tree_strings H (map leaf_of (combine ts (payset b))).
Proof. intros E. unfold commit_strings. rewrite E. reflexivity. Qed.
Lemma in_commit_flat b : In (payset_rep (payset b)) (commit_strings table H b).
Proof. left. reflexivity. Qed.

Lemma flat_vs_merkle b r ts b' t : r = H (payset_rep (payset b)) -> decode_payset_flat table b' = Ok ts ->
  MerkleArrayModel.from_array H (map leaf_of (combine ts (payset b'))) = Some t -> MerkleArrayModel.root t = Ok r ->
  (exists x, In x (commit_strings table H b') /\ x <> payset_rep (payset b) /\ H x = H (payset_rep (payset b))) \/ H (payset_rep (payset b)) = zero32.
Proof.
  intros Er Ed Et R. destruct (root_string _ _ _ Et R) as [Z|[x [I [E D]]]]; [right; congruence|]. left. exists x. rewrite (merkle_strings b' ts Ed).
  split; [right; apply in_app_iff; right; exact I|]. split; [|congruence]. intros ->. destruct D as [D|[s D]].
  - apply in_map_iff in D. destruct D as [y [D _]]. unfold leaf_of, payset_rep, hash_rep in D. cbn in D. discriminate.
  - unfold payset_rep, hash_rep in D. cbn in D. discriminate.
Qed.

(** Equal commitments of trees. *)
Lemma merkle_equal b b' ts ts' t t' r : 
  decode_payset_flat table b = Ok ts -> length ts = length (payset b) -> decode_payset_flat table b' = Ok ts' -> length ts' = length (payset b') ->
  MerkleArrayModel.from_array H (map leaf_of (combine ts (payset b))) = Some t -> MerkleArrayModel.root t = Ok r ->
  MerkleArrayModel.from_array H (map leaf_of (combine ts' (payset b'))) = Some t' -> MerkleArrayModel.root t' = Ok r ->
  (Forall2 (fun s s' => stib_hash_rep s = stib_hash_rep s') (payset b) (payset b') /\ Forall2 (fun t t' => tx_hash_rep (stx_tx (fst t)) = tx_hash_rep (stx_tx (fst t'))) ts ts') \/
  collision_in H (commit_strings table H b) (commit_strings table H b') \/ zero_preimage_in H (commit_strings table H b ++ commit_strings table H b').
Proof.
  intros D L D' L' T R T' R'. rewrite (merkle_strings b ts D), (merkle_strings b' ts' D').
  destruct (MerkleArrayProofs.binding_lemma H Hlen _ _ _ _ _ T T' R R' (leaves_data _) (leaves_data _)) as [E|[C|Z]].
  - destruct (leaves_equal _ _ _ _ L L' E) as [C|C]; [|left; exact C]. right. left. eapply collision_in_mono; [..|exact C]; intros x Hx; right; apply in_app_iff; left; exact Hx.
  - right. left. eapply collision_in_mono; [..|exact C]; intros x Hx; right; apply in_app_iff; right; exact Hx.
  - right. right. eapply zero_preimage_mono; [|exact Z]. intros x Hx. apply in_app_iff in Hx. apply in_app_iff. destruct Hx as [Hx|Hx]; [left|right]; right; apply in_app_iff; right; exact Hx.
Qed.
Lemma Forall2_alike p p' : Forall stib_fits p -> Forall stib_fits p' -> Forall2 (fun s s' => stib_hash_rep s = stib_hash_rep s') p p' -> Forall2 alike p p'.
Proof.
  intros F F' A. revert F F'. induction A as [|s s' p p' E A IH]; intros F F'; [constructor|]. inversion F; subst. inversion F'; subst. constructor; [|apply IH; assumption].
  apply stib_alike; try assumption. unfold stib_hash_rep, hash_rep in E. apply app_inv_head in E. exact E.
Qed.
Lemma commit_lemma b b' r : payset_fits b -> payset_fits b' -> payset_commit_of table H b = Some r -> payset_commit_of table H b' = Some r ->
  Forall2 alike (payset b) (payset b') \/ collision_in H (commit_strings table H b) (commit_strings table H b') \/
  zero_preimage_in H (commit_strings table H b ++ commit_strings table H b').
Proof.
  intros [S1 F1] [S2 F2] E E'. destruct (commit_inv _ _ E) as [[E1 _]|[ts [t [D [L [T [R _]]]]]]], (commit_inv _ _ E') as [[E1' _]|[ts' [t' [D' [L' [T' [R' _]]]]]]].
  - destruct (bytes_eq_dec (payset_rep (payset b)) (payset_rep (payset b'))) as [Ee|Ee].
    + left. apply payset_rep_inj; assumption.
    + right. left. exists (payset_rep (payset b)), (payset_rep (payset b')). split; [apply in_commit_flat|]. split; [apply in_commit_flat|]. split; [exact Ee|congruence].
  - right. destruct (flat_vs_merkle b r ts' b' t' E1 D' T' R') as [[x [I [N1 Ex]]]|Z].
    + left. exists (payset_rep (payset b)), x. split; [apply in_commit_flat|]. split; [exact I|]. split; [congruence|congruence].
    + right. exists (payset_rep (payset b)). split; [apply in_app_iff; left; apply in_commit_flat|exact Z].
  - right. destruct (flat_vs_merkle b' r ts b t E1' D T R) as [[x [I [N1 Ex]]]|Z].
    + left. exists x, (payset_rep (payset b')). split; [exact I|]. split; [apply in_commit_flat|]. split; assumption.
    + right. exists (payset_rep (payset b')). split; [apply in_app_iff; right; apply in_commit_flat|exact Z].
  - destruct (merkle_equal b b' ts ts' t t' r D L D' L' T R T' R') as [[A _]|[C|Z]]; [left; apply Forall2_alike; assumption|auto..].
Qed.

(** Decoding changes only the genesis fields. *)
Lemma decode_same_but_genesis h s t ad : decode_signed_tx table h s = Ok (t, ad) ->
  ad = snd (stib_tx s) /\ exists tx, t = mkSigned (stx_sig (fst (stib_tx s))) (stx_msig (fst (stib_tx s))) (stx_lsig (fst (stib_tx s))) tx (stx_auth (fst (stib_tx s))).
Proof.
  unfold decode_signed_tx. destruct (params_of table h) as [p|]; [|discriminate]. destruct (stib_tx s) as [st a]. cbn [fst snd].
  assert (Hs : exists tx, st = mkSigned (stx_sig st) (stx_msig st) (stx_lsig st) tx (stx_auth st)) by (exists (stx_tx st); destruct st; reflexivity).
  destruct (negb (support_signed_tx_in_block p)).
  { intros E. assert (ad = a) by congruence. assert (t = st) by congruence. subst. auto. }
  destruct (negb (is_empty (id_of st))); [discriminate|]. destruct (negb (is_zero (hash_of st))); [discriminate|].
  destruct (require_genesis_hash p), (has_genesis_hash s), (has_genesis_id s); intros E; try discriminate; (assert (ad = a) by congruence);
    (match type of E with Ok (?x, _) = _ => assert (t = x) by congruence end); subst; (split; [reflexivity|]); first [exact Hs|eexists; reflexivity].
Qed.
Lemma decode_determined h h' s s' t t' : decode_signed_tx table h s = Ok t -> decode_signed_tx table h' s' = Ok t' -> alike s s' ->
  stx_tx (fst t) = stx_tx (fst t') -> t = t'.
Proof.
  intros D D' A E. destruct t as [t ad], t' as [t' ad']. cbn [fst] in E.
  assert (As : stib_tx s = stib_tx s') by (destruct A as [->|[A _]]; [reflexivity|exact A]).
  destruct (decode_same_but_genesis _ _ _ _ D) as [-> [tx ->]], (decode_same_but_genesis _ _ _ _ D') as [-> [tx' ->]]. cbn [stx_tx] in E. rewrite As. congruence.
Qed.
Lemma decode_all_Forall2 h l : forall ts, decode_all table h l = Ok ts -> Forall2 (fun s t => decode_signed_tx table h s = Ok t) l ts.
Proof.
  induction l as [|s l IH]; intros ts E; cbn [decode_all] in E; [assert (ts = []) as -> by congruence; constructor|].
  destruct (decode_signed_tx table h s) as [t|e|] eqn:Ed; cbn [bind] in E; try discriminate. destruct (decode_all table h l) as [ts'|e|] eqn:El; cbn [bind] in E; try discriminate.
  assert (ts = t :: ts') as -> by congruence. constructor; [exact Ed|apply IH; reflexivity].
Qed.
Lemma decoded_equal h h' : forall p p' ts ts', Forall2 alike p p' -> Forall2 (fun s t => decode_signed_tx table h s = Ok t) p ts ->
  Forall2 (fun s t => decode_signed_tx table h' s = Ok t) p' ts' -> Forall2 (fun t t' => stx_tx (fst t) = stx_tx (fst t')) ts ts' -> ts = ts'.
Proof.
  induction p as [|s p IH]; intros p' ts ts' A D D' E; inversion A; subst; inversion D; subst; inversion D'; subst; [reflexivity|]. inversion E; subst.
  f_equal; [eapply decode_determined; eassumption|eapply IH; eassumption].
Qed.

Lemma merkle_lemma b b' r l l' p p' : block_fits table b -> block_fits table b' ->
  params_of table (head b) = Some p -> payset_commit p = Merkle -> params_of table (head b') = Some p' -> payset_commit p' = Merkle ->
  payset_commit_of table H b = Some r -> payset_commit_of table H b' = Some r -> decode_payset_flat table b = Ok l -> decode_payset_flat table b' = Ok l' ->
  l = l' \/ collision_in H (commit_strings table H b) (commit_strings table H b') \/ zero_preimage_in H (commit_strings table H b ++ commit_strings table H b').
Proof.
  intros [[S1 F1] G1] [[S2 F2] G2] P1 M1 P2 M2 E E' D D'.
  destruct (commit_inv _ _ E) as [[_ [q [Q1 Q2]]]|[ts [t [D0 [L [T [R _]]]]]]]; [congruence|].
  destruct (commit_inv _ _ E') as [[_ [q [Q1 Q2]]]|[ts' [t' [D0' [L' [T' [R' _]]]]]]]; [congruence|].
  assert (ts = l) as -> by congruence. assert (ts' = l') as -> by congruence.
  destruct (merkle_equal b b' l l' t t' r D L D' L' T R T' R') as [[A B]|[C|Z]]; [left|auto..].
  eapply decoded_equal; [eapply Forall2_alike; [exact F1|exact F2|exact A]|apply decode_all_Forall2; exact D|apply decode_all_Forall2; exact D'|].
  specialize (G1 _ D). specialize (G2 _ D'). clear - B G1 G2. induction B as [|x y l l' Exy B IH]; [constructor|]. inversion G1; subst. inversion G2; subst. constructor; [|apply IH; assumption].
  apply tx_hash_rep_inj; assumption.
Qed.

(** With required genesis hashes the flags cannot be exchanged. *)
Lemma required_no_exchange h p s s' t t' : params_of table h = Some p -> support_signed_tx_in_block p = true -> require_genesis_hash p = true ->
  decode_signed_tx table h s = Ok t -> decode_signed_tx table h s' = Ok t' -> alike s s' -> s = s'.
Proof.
  intros P1 P2 P3 D D' [A|[A1 [A2 [A3 A4]]]]; [exact A|].
  assert (K : forall x y, decode_signed_tx table h x = Ok y -> has_genesis_hash x = false).
  { intros x y. unfold decode_signed_tx. rewrite P1, P2, P3. cbn [negb]. destruct (stib_tx x). destruct (negb _); [discriminate|]. destruct (negb _); [discriminate|]. destruct (has_genesis_hash x); [discriminate|reflexivity]. }
  apply K in D. apply K in D'. congruence.
Qed.
Lemma decode_header h h' s : params_of table h = params_of table h' -> genesis_id h = genesis_id h' -> genesis_hash h = genesis_hash h' ->
  decode_signed_tx table h s = decode_signed_tx table h' s.
Proof. intros P1 P2 P3. unfold decode_signed_tx. rewrite P1, P2, P3. reflexivity. Qed.
Lemma flat_lemma b b' r l l' p : payset_fits b -> payset_fits b' ->
  params_of table (head b) = Some p -> params_of table (head b') = Some p -> support_signed_tx_in_block p = true -> require_genesis_hash p = true ->
  genesis_id (head b) = genesis_id (head b') -> genesis_hash (head b) = genesis_hash (head b') ->
  payset_commit_of table H b = Some r -> payset_commit_of table H b' = Some r -> decode_payset_flat table b = Ok l -> decode_payset_flat table b' = Ok l' ->
  l = l' \/ collision_in H (commit_strings table H b) (commit_strings table H b') \/ zero_preimage_in H (commit_strings table H b ++ commit_strings table H b').
Proof.
  intros F1 F2 P1 P2 P3 P4 G1 G2 E E' D D'. destruct (commit_lemma b b' r F1 F2 E E') as [A|[C|Z]]; [left|auto..].
  apply decode_all_Forall2 in D, D'. revert A D D'. generalize (payset b) (payset b'). intros q q' A. revert l l'. induction A as [|s s' q q' As A IH]; intros l l' D D'; inversion D; subst; inversion D'; subst; [reflexivity|].
  assert (Eh : forall x, decode_signed_tx table (head b') x = decode_signed_tx table (head b) x) by (intros x; apply decode_header; congruence).
  f_equal; [|apply IH; assumption].
  match goal with X : decode_signed_tx table (head b') s' = Ok _ |- _ => rewrite Eh in X end.
  assert (s = s') by (eapply (required_no_exchange (head b)); eassumption). subst s'. congruence.
Qed.
End Commit.

(** ** Genesis *)
Lemma genesis_lemma table H v gb id hash b : create_block table H v gb id hash = Some b ->
  exists p a, lookup v table = Some p /\ find (gb_rewards_pool gb) (balances gb) = Some a /\ rewards_rate_refresh_interval p <> 0 /\
    rate (rewards (head b)) * rewards_rate_refresh_interval p <= micro_algos a /\
    (initial_rewards_rate_calculation p = true -> min_balance p <= micro_algos a ->
       rate (rewards (head b)) * rewards_rate_refresh_interval p + min_balance p <= micro_algos a) /\
    (initial_rewards_rate_calculation p = true -> micro_algos a < min_balance p -> rate (rewards (head b)) = 0) /\
    recalculation_round (rewards (head b)) = rewards_rate_refresh_interval p.
Proof.
  unfold create_block. destruct (lookup v table) as [p|]; [|discriminate]. destruct (find (gb_rewards_pool gb) (balances gb)) as [a|]; [|discriminate].
  unfold div64. destruct (N.eqb_spec (rewards_rate_refresh_interval p) 0) as [Z|Z]; [discriminate|]. intros E.
  match type of E with Some ?x = _ => assert (b = x) as -> by congruence end. exists p, a. cbn [head rewards rate recalculation_round]. clear E.
  pose proof (N.mul_div_le (micro_algos a) (rewards_rate_refresh_interval p) Z). pose proof (N.mul_div_le (sat_sub (micro_algos a) (min_balance p)) (rewards_rate_refresh_interval p) Z).
  assert (Hs : sat_sub (micro_algos a) (min_balance p) = micro_algos a - min_balance p) by reflexivity. rewrite Hs in *.
  split; [reflexivity|]. split; [reflexivity|]. split; [exact Z|]. destruct (initial_rewards_rate_calculation p).
  - split; [lia|]. split; [intros _ L; lia|]. split; [|reflexivity]. intros _ L. replace (micro_algos a - min_balance p) with 0 by lia. apply N.div_0_l. exact Z.
  - split; [lia|]. split; [discriminate|]. split; [discriminate|reflexivity].
Qed.
Lemma find_perm {A} k (l l' : list (bytes * A)) : Permutation l l' -> NoDup (map fst l) -> find k l = find k l'.
Proof.
  induction 1 as [|[k' a] l l' P IH|[k1 a1] [k2 a2] l|l l' l'' P1 IH1 P2 IH2]; intros D; cbn [find].
  - reflexivity.
  - cbn in D. inversion D; subst. rewrite IH by assumption. reflexivity.
  - cbn in D. inversion D as [|? ? D1 D2]; subst. destruct (bytes_eqb k k1) eqn:E1, (bytes_eqb k k2) eqn:E2; try reflexivity.
    apply bytes_eqb_true in E1, E2. exfalso. apply D1. left. congruence.
  - rewrite IH1 by assumption. apply IH2. eapply Permutation_NoDup; [apply Permutation_map; exact P1|exact D].
Qed.
Lemma create_block_perm table H v gb l id hash : Permutation (balances gb) l -> NoDup (map fst (balances gb)) ->
  create_block table H v gb id hash = create_block table H v (mkBalances l (gb_fee_sink gb) (gb_rewards_pool gb) (gb_timestamp gb)) id hash.
Proof. intros P D. unfold create_block. cbn [balances gb_rewards_pool gb_fee_sink gb_timestamp]. rewrite (find_perm _ _ _ P D). reflexivity. Qed.
Lemma find_None {A} k (l : list (bytes * A)) : find k l = None <-> ~ In k (map fst l).
Proof.
  induction l as [|[k' a] l IH]; cbn [find map In]; [tauto|]. destruct (bytes_eqb k k') eqn:E; cbn [fst].
  - apply bytes_eqb_true in E. subst. split; [discriminate|]. intros X. exfalso. apply X. left. reflexivity.
  - apply bytes_eqb_false in E. rewrite IH. split; [intros X [Y|Y]; congruence|tauto].
Qed.
Lemma create_block_panics table H v gb id hash : create_block table H v gb id hash = None <->
  lookup v table = None \/ ~ In (gb_rewards_pool gb) (map fst (balances gb)) \/ exists p, lookup v table = Some p /\ rewards_rate_refresh_interval p = 0.
Proof.
  rewrite <- find_None. unfold create_block. destruct (lookup v table) as [p|]; [|tauto]. destruct (find (gb_rewards_pool gb) (balances gb)) as [a|]; [|tauto].
  unfold div64. destruct (N.eqb_spec (rewards_rate_refresh_interval p) 0) as [Z|Z].
  - split; [|reflexivity]. intros _. right. right. exists p. auto.
  - split; [discriminate|]. intros [E|[E|[q [E1 E2]]]]; congruence.
Qed.

(** ** Restatements *)
Lemma new_block_time table H m now prev prev' b p : new_block table H m now prev = (prev', Some b) ->
  lookup (current (upgrade (head b))) table = Some p -> timestamp prev + max_timestamp_increment p < 2 ^ 64 ->
  (timestamp prev = 0 -> timestamp (head b) = now) /\
  (timestamp prev <> 0 -> timestamp prev <= timestamp (head b) <= timestamp prev + max_timestamp_increment p /\
     (timestamp prev <= now <= timestamp prev + max_timestamp_increment p -> timestamp (head b) = now)).
Proof.
  intros E Ep Hf. destruct (new_block_inv _ _ _ _ _ _ _ E) as [v [q [_ [_ [_ [P4 [P5 _]]]]]]]. assert (q = p) as -> by congruence.
  destruct (block_time_lemma _ _ _ _ _ Hf P5) as [A B]. split; [exact A|]. intros N0. destruct (B N0) as [B1 [B2 B3]]. split; [split; assumption|]. intros [? ?]. apply B3; assumption.
Qed.
Lemma rejects_time table H m self prev p : successor_fits table prev self -> lookup (current (upgrade self)) table = Some p ->
  timestamp prev <> 0 -> timestamp self < timestamp prev \/ timestamp prev + max_timestamp_increment p < timestamp self ->
  snd (pre_check table H m self prev) <> Ok tt.
Proof.
  intros F Ep N0 D E. apply (pre_check_lemma table H m self prev F) in E. destruct E as [p' [q [E1 [_ [_ [_ [_ [T _]]]]]]]].
  assert (p' = p) as -> by congruence. specialize (T N0). lia.
Qed.
Lemma pre_check_same table H m self prev : same_but_upgrade prev (fst (pre_check table H m self prev)).
Proof. destruct (pre_check_effect table H m self prev) as [u E]. rewrite E. reflexivity. Qed.
Lemma matches_commit table H b : contents_match_header table H b = Some true -> payset_commit_of table H b = Some (tx_root (head b)).
Proof.
  unfold contents_match_header. destruct (payset_commit_of table H b) as [c|]; [|discriminate]. intros E. assert (E' : bytes_eqb c (tx_root (head b)) = true) by congruence.
  apply bytes_eqb_true in E'. congruence.
Qed.
Lemma flat_matches H b : match params_of built_in (head b) with Some p => match payset_commit p with Flat => true | _ => false end | None => false end = true ->
  tx_root (head b) = commit_flat H (payset b) -> contents_match_header built_in H b = Some true.
Proof.
  unfold contents_match_header, payset_commit_of. destruct (params_of built_in (head b)) as [p|]; [|discriminate]. destruct (payset_commit p); try discriminate.
  intros _ ->. rewrite bytes_eqb_refl. reflexivity.
Qed.
Lemma matching_lemma table H b b' : hash32 H -> payset_fits b -> payset_fits b' -> tx_root (head b) = tx_root (head b') ->
  contents_match_header table H b = Some true -> contents_match_header table H b' = Some true ->
  Forall2 alike (payset b) (payset b') \/ collision_in H (commit_strings table H b) (commit_strings table H b') \/
  zero_preimage_in H (commit_strings table H b ++ commit_strings table H b').
Proof. intros Hl F F' R M M'. apply matches_commit in M, M'. rewrite <- R in M'. exact (commit_lemma table H Hl b b' _ F F' M M'). Qed.
Lemma matching_merkle table H b b' l l' p p' : hash32 H -> block_fits table b -> block_fits table b' -> tx_root (head b) = tx_root (head b') ->
  contents_match_header table H b = Some true -> contents_match_header table H b' = Some true ->
  params_of table (head b) = Some p -> payset_commit p = Merkle -> params_of table (head b') = Some p' -> payset_commit p' = Merkle ->
  decode_payset_flat table b = Ok l -> decode_payset_flat table b' = Ok l' ->
  l = l' \/ collision_in H (commit_strings table H b) (commit_strings table H b') \/
  zero_preimage_in H (commit_strings table H b ++ commit_strings table H b').
Proof. intros Hl F F' R M M' P1 P2 P3 P4 D D'. apply matches_commit in M, M'. rewrite <- R in M'. exact (merkle_lemma table H Hl b b' _ l l' p p' F F' P1 P2 P3 P4 M M' D D'). Qed.
Lemma matching_required table H b b' l l' p : hash32 H -> payset_fits b -> payset_fits b' -> tx_root (head b) = tx_root (head b') ->
  contents_match_header table H b = Some true -> contents_match_header table H b' = Some true ->
  params_of table (head b) = Some p -> params_of table (head b') = Some p -> support_signed_tx_in_block p = true -> require_genesis_hash p = true ->
  genesis_id (head b) = genesis_id (head b') -> genesis_hash (head b) = genesis_hash (head b') ->
  decode_payset_flat table b = Ok l -> decode_payset_flat table b' = Ok l' ->
  l = l' \/ collision_in H (commit_strings table H b) (commit_strings table H b') \/
  zero_preimage_in H (commit_strings table H b ++ commit_strings table H b').
Proof. intros Hl F F' R M M' P1 P2 P3 P4 G1 G2 D D'. apply matches_commit in M, M'. rewrite <- R in M'. exact (flat_lemma table H Hl b b' _ l l' p F F' P1 P2 P3 P4 G1 G2 M M' D D'). Qed.

(** Sizes of a concrete value, by computation. *)
Fixpoint wfb (v : value) : bool :=
  match v with
  | VNil | VBool _ => true
  | VInt z => ((- 2 ^ 63 <=? z) && (z <? 2 ^ 64))%Z
  | VStr s | VBin s | VExt _ s => N.of_nat (length s) <? 2 ^ 32
  | VFloat s => Nat.eqb (length s) 4 || Nat.eqb (length s) 8
  | VArr l => (N.of_nat (length l) <? 2 ^ 32) && fold_right (fun x p => wfb x && p) true l
  | VMap l => (N.of_nat (length l) <? 2 ^ 32) && fold_right (fun '(k, x) p => (wfb k && wfb x) && p) true l
  end.
Lemma wfb_sound : forall v, wfb v = true -> wf v.
Proof.
  fix IH 1. intros [|b|z|s|s|s|t s|l|l]; cbn [wfb wf]; intros E.
  - exact I.
  - exact I.
  - apply andb_true_iff in E. destruct E as [E1 E2]. split; [apply Z.leb_le; exact E1|apply Z.ltb_lt; exact E2].
  - apply N.ltb_lt. exact E.
  - apply N.ltb_lt. exact E.
  - apply orb_true_iff in E. destruct E as [E|E]; apply Nat.eqb_eq in E; auto.
  - apply N.ltb_lt. exact E.
  - apply andb_true_iff in E. destruct E as [E1 E2]. split; [apply N.ltb_lt; exact E1|]. clear E1. revert E2. induction l as [|x l IHl]; cbn [fold_right]; [exact (fun _ => I)|].
    intros E. apply andb_true_iff in E. destruct E as [E1 E2]. split; [apply IH; exact E1|apply IHl; exact E2].
  - apply andb_true_iff in E. destruct E as [E1 E2]. split; [apply N.ltb_lt; exact E1|]. clear E1. revert E2. induction l as [|[k x] l IHl]; cbn [fold_right]; [exact (fun _ => I)|].
    intros E. apply andb_true_iff in E. destruct E as [E1 E2]. apply andb_true_iff in E1. destruct E1 as [E1 E3]. split; [split; apply IH; assumption|apply IHl; exact E2].
Qed.
