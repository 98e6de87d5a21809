From Verif Require Import Base BaseFacts TrieModel TrieSpec TrieCodecProofs TrieProofs TrieRefine TrieBind TrieAny TrieCostSpec.

(** ** What calls leave alone *)
Definition keeps (st st' : store) (id : N) : Prop :=
  storage st' id = storage st id /\ (cache st' id = cache st id \/ cache st id = None /\ exists n, cache st' id = Some n /\ dirty n = false).
Definition touch (C : list N) (st st' : store) : Prop := forall id, ~ In id C -> keeps st st' id.
Lemma keeps_refl st id : keeps st st id. Proof. split; auto. Qed.
Lemma keeps_trans a b c id : keeps a b id -> keeps b c id -> keeps a c id.
Proof.
  intros [S1 C1] [S2 C2]. split; [congruence|]. destruct C2 as [C2|[N2 X2]].
  - rewrite C2. exact C1.
  - destruct C1 as [C1|[N1 X1]]; [right; split; [congruence|exact X2]|right; split; [exact N1|exact X2]].
Qed.
Lemma touch_refl C st : touch C st st. Proof. intros id _. apply keeps_refl. Qed.
Lemma touch_trans C D a b c : touch C a b -> touch D b c -> touch (C ++ D) a c.
Proof. intros X Y id Nid. rewrite in_app_iff in Nid. eapply keeps_trans; [apply X|apply Y]; tauto. Qed.
Lemma touch_incl C D a b : incl C D -> touch C a b -> touch D a b.
Proof. intros I0 X id Nid. apply X. intros Y. apply Nid, I0, Y. Qed.
Lemma touch_again C a b c : touch C a b -> touch C b c -> touch C a c.
Proof. intros X Y. eapply touch_incl; [|eapply touch_trans; eassumption]. intros id. rewrite in_app_iff. tauto. Qed.

Lemma deserialize_clean d n : deserialize d = Some n -> dirty n = false.
Proof.
  unfold deserialize. intros E. repeat match type of E with
  | match ?x with _ => _ end = _ => destruct x; try discriminate
  | (if ?x then _ else _) = _ => destruct x; try discriminate
  | (let '(_, _) := ?x in _) = _ => destruct x
  end; injection E as <-; reflexivity.
Qed.
Lemma get_touch id st n st' : get_node id st = Ok (n, st') -> touch [] st st' /\ storage st id <> None /\ (cache st id = Some n \/ cache st id = None /\ dirty n = false).
Proof.
  unfold get_node. destruct (storage st id) as [data|] eqn:Es; [|discriminate]. destruct (deserialize data) as [n0|] eqn:Ed; [|discriminate].
  destruct (cache st id) as [c|] eqn:Ec; intros E.
  - assert (c = n) by congruence. assert (st' = st) by congruence. subst. split; [apply touch_refl|]. split; [discriminate|auto].
  - assert (n0 = n) by congruence. subst n0. assert (st' = mkStore (storage st) (upd (cache st) id (Some n)) (next_node_id st)) by congruence. subst st'.
    pose proof (deserialize_clean _ _ Ed) as Dn. split; [|split; [discriminate|auto]]. intros x _. split; [reflexivity|]. cbn [cache]. destruct (N.eq_dec x id) as [-> |Nx].
    + rewrite upd_eq. right. split; [exact Ec|]. exists n. auto.
    + rewrite upd_neq by exact Nx. left. reflexivity.
Qed.
Lemma set_touch id n st : touch [id] st (set_node id n st).
Proof.
  intros x Nx. assert (x <> id) by (intros ->; apply Nx; left; reflexivity). destruct (set_same st id n x H) as [A B]. split; [exact B|left; exact A].
Qed.
Lemma delete_touch id st : touch [id] st (delete_node id st).
Proof.
  intros x Nx. assert (x <> id) by (intros ->; apply Nx; left; reflexivity). destruct (delete_same st id x H) as [A B]. split; [exact B|left; exact A].
Qed.
Lemma allocate_touch m st n id st' : allocate_new_node m st = Ok (n, id, st') -> touch [id] st st'.
Proof.
  unfold allocate_new_node. destruct (add64 m (next_node_id st) 1) as [nxt|]; [|discriminate]. intros E.
  assert (id = next_node_id st) by congruence. assert (st' = mkStore (storage st) (upd (cache st) id (Some default_node)) nxt) by congruence. subst st'.
  intros x Nx. split; [reflexivity|]. left. cbn [cache]. apply upd_neq. intros ->. apply Nx. left. reflexivity.
Qed.
(** A node is allocated and written. *)
Lemma fresh_touch m st n id st' nd : allocate_new_node m st = Ok (n, id, st') -> touch [id] st (set_node id nd st').
Proof. intros E. eapply touch_again; [eapply allocate_touch; exact E|apply set_touch]. Qed.

Lemma find_touch : forall d self st b st', find d self st = Ok (b, st') -> touch [] st st'.
Proof.
  induction d as [|x d IH]; intros self st b st' E; cbn [find] in E; destruct (children self) as [cs|]; try discriminate.
  - assert (st' = st) by congruence. subst. apply touch_refl.
  - destruct (nth_error cs (idx x)) as [[cid|]|]; try discriminate.
    + destruct (get_node cid st) as [[child st1]|e|] eqn:G; cbn [bind] in E; try discriminate. apply get_touch in G as [G _].
      eapply touch_again; [exact G|]. eapply IH. exact E.
    + assert (st' = st) by congruence. subst. apply touch_refl.
  - assert (st' = st) by congruence. subst. apply touch_refl.
Qed.

Lemma chain_touch m d path : forall i id st id' st', parent_chain m d path i id st = Ok (id', st') -> exists C, length C = i /\ touch C st st'.
Proof.
  induction i as [|i IH]; intros id st id' st' E; cbn [parent_chain] in E.
  - assert (st' = st) by congruence. subst. exists []. split; [reflexivity|apply touch_refl].
  - destruct (nth_error d i) as [b|]; [|discriminate]. destruct (allocate_new_node m st) as [[[n0 id2] st1]|e|] eqn:A; cbn [bind] in E; try discriminate.
    apply IH in E as [C [L T]]. exists (id2 :: C). split; [cbn; congruence|]. change (id2 :: C) with ([id2] ++ C). eapply touch_trans; [eapply fresh_touch; exact A|exact T].
Qed.
Lemma split_touch m d path self st id st' : split_leaf m d path self st = Ok (id, st') -> exists C, (length C <= length d + 2)%nat /\ touch C st st'.
Proof.
  unfold split_leaf. destruct (first_diff (nhash self) d) as [k|]; [|discriminate]. destruct (nth_error d k) as [bd|] eqn:Ed; [|discriminate].
  destruct (nth_error (nhash self) k) as [bh|]; [|discriminate].
  destruct (allocate_new_node m st) as [[[n1 id1] st1]|e|] eqn:A1; cbn [bind]; try discriminate.
  match goal with |- context [allocate_new_node m ?s] => destruct (allocate_new_node m s) as [[[n2 id2] st2]|e|] eqn:A2; cbn [bind]; try discriminate end.
  match goal with |- context [allocate_new_node m ?s] => destruct (allocate_new_node m s) as [[[n3 id3] st3]|e|] eqn:A3; cbn [bind]; try discriminate end.
  intros E. apply chain_touch in E as [C [L T]]. exists ([id1] ++ [id2] ++ [id3] ++ C). split.
  - assert (k < length d)%nat by (apply nth_error_Some; congruence). rewrite !app_length. cbn [length]. lia.
  - eapply touch_trans; [eapply fresh_touch; exact A1|]. eapply touch_trans; [eapply fresh_touch; exact A2|]. eapply touch_trans; [eapply fresh_touch; exact A3|exact T].
Qed.
Lemma node_add_touch m : forall d path self st id st', node_add m d path self st = Ok (id, st') -> exists C, (length C <= length d + 2)%nat /\ touch C st st'.
Proof.
  induction d as [|b d IH]; intros path self st id st' E; cbn [node_add] in E; destruct (children self) as [cs|]; try discriminate; try (eapply split_touch; exact E).
  destruct (nth_error cs (idx b)) as [[cur|]|]; try discriminate.
  - destruct (get_node cur st) as [[child st1]|e|] eqn:G; cbn [bind] in E; try discriminate. apply get_touch in G as [G _].
    destruct (node_add m d (path ++ [b]) child st1) as [[u st2]|e|] eqn:A; cbn [bind] in E; try discriminate. apply IH in A as [C [L T]].
    assert (Es : st' = set_node cur (mkNode true path (Some (set_nth (idx b) (Some u) cs))) st2) by congruence. subst st'.
    exists (C ++ [cur]). split; [rewrite app_length; cbn; lia|]. eapply touch_trans; [|apply set_touch]. apply (touch_trans [] C _ st1); assumption.
  - destruct (allocate_new_node m st) as [[[n1 id1] st1]|e|] eqn:A1; cbn [bind] in E; try discriminate.
    match type of E with context [allocate_new_node m ?s] => destruct (allocate_new_node m s) as [[[n2 id2] st2]|e|] eqn:A2; cbn [bind] in E; try discriminate end.
    match type of E with Ok (_, ?s) = _ => assert (Es : st' = s) by congruence end. subst st'. exists ([id1] ++ [id2]). split; [cbn; lia|].
    eapply touch_trans; [eapply fresh_touch; exact A1|eapply fresh_touch; exact A2].
Qed.
Lemma node_remove_touch : forall d path self st id st', node_remove d path self st = Ok (id, st') -> exists C, (length C <= 2 * length d)%nat /\ touch C st st'.
Proof.
  induction d as [|b d IH]; intros path self st id st' E; cbn [node_remove] in E; destruct (children self) as [cs|]; try discriminate.
  destruct (nth_error cs (idx b)) as [[nid|]|]; try discriminate.
  destruct (get_node nid st) as [[n st1]|e|] eqn:G; cbn [bind] in E; try discriminate. apply get_touch in G as [G _].
  match type of E with context [bind ?o _] => destruct o as [[cs' st2]|e|] eqn:R; cbn [bind] in E; try discriminate end.
  assert (T2 : exists C, (length C <= 2 * length d)%nat /\ touch C st1 st2).
  { destruct (is_leaf n).
    - assert (st2 = st1) by congruence. subst. exists []. split; [cbn; lia|apply touch_refl].
    - destruct (node_remove d (path ++ [b]) n st1) as [[u st3]|e|] eqn:A; cbn [bind] in R; try discriminate. apply IH in A. assert (st3 = st2) by congruence. subst. exact A. }
  destruct T2 as [C [L T2]]. destruct (scan_children 0 cs' (0%nat, 0%N, 0%N)) as [[hi ci] num].
  match type of E with context [bind ?o _] => destruct o as [[n' st3]|e|] eqn:Q; cbn [bind] in E; try discriminate end.
  assert (T3 : touch [ci] st2 st3).
  { destruct (num =? 1)%N; [|assert (st3 = st2) by congruence; subst; apply touch_refl].
    destruct (get_node ci st2) as [[child st4]|e|] eqn:G2; cbn [bind] in Q; try discriminate. apply get_touch in G2 as [G2 _].
    assert (G2' : touch [ci] st2 st4) by (eapply touch_incl; [|exact G2]; intros ? []).
    destruct (is_leaf child).
    - assert (Es : st3 = delete_node ci st4) by congruence. subst st3. eapply touch_again; [exact G2'|apply delete_touch].
    - assert (st3 = st4) by congruence. subst. exact G2'. }
  assert (Es : st' = set_node nid n' st3) by congruence. subst st'. exists (C ++ [ci] ++ [nid]). split; [rewrite !app_length; cbn [length]; lia|].
  apply (touch_trans [] (C ++ [ci] ++ [nid]) _ st1); [exact G|]. eapply touch_trans; [exact T2|]. eapply touch_trans; [exact T3|apply set_touch].
Qed.

Lemma add_touch m d t b t' : add m d t = Ok (b, t') -> exists C, (length C <= length d + 3)%nat /\ touch C (tstore t) (tstore t') /\ (b = false -> C = []).
Proof.
  unfold add. destruct (root t) as [r|].
  - destruct (get_node r (tstore t)) as [[p st1]|e|] eqn:G; cbn [bind]; try discriminate. apply get_touch in G as [G _].
    destruct (find d p st1) as [[found st2]|e|] eqn:F; cbn [bind]; try discriminate. apply find_touch in F. pose proof (touch_again _ _ _ _ G F) as T1. destruct found.
    + intros E. assert (Et : t' = mkTrie (Some r) st2 (element_length t)) by congruence. subst t'. cbn [tstore]. exists []. split; [cbn; lia|]. auto.
    + destruct (node_add m d [] p st2) as [[u st3]|e|] eqn:A; cbn [bind]; try discriminate. apply node_add_touch in A as [C [L T]]. intros E.
      assert (Et : t' = mkTrie (Some u) (delete_node r st3) (element_length t)) by congruence. subst t'. cbn [tstore]. exists (C ++ [r]).
      split; [rewrite app_length; cbn; lia|]. split; [|congruence]. eapply touch_trans; [|apply delete_touch]. apply (touch_trans [] C _ st2); assumption.
  - destruct (allocate_new_node m (tstore t)) as [[[n1 id1] st1]|e|] eqn:A1; cbn [bind]; try discriminate. intros E.
    assert (Et : t' = mkTrie (Some id1) (set_node id1 (mkNode false d None) st1) (len32 d)) by congruence. subst t'. cbn [tstore].
    exists [id1]. split; [cbn; lia|]. split; [eapply fresh_touch; exact A1|congruence].
Qed.
Lemma trie_delete_touch d t b t' : delete d t = Ok (b, t') -> exists C, (length C <= 2 * length d + 1)%nat /\ touch C (tstore t) (tstore t') /\ (b = false -> C = []).
Proof.
  unfold delete. destruct (root t) as [r|].
  - destruct (negb (N.of_nat (length d) =? element_length t)%N); [discriminate|].
    destruct (get_node r (tstore t)) as [[p st1]|e|] eqn:G; cbn [bind]; try discriminate. apply get_touch in G as [G _].
    destruct (find d p st1) as [[found st2]|e|] eqn:F; cbn [bind]; try discriminate. apply find_touch in F. pose proof (touch_again _ _ _ _ G F) as T1. destruct found; cbn [negb].
    2:{ intros E. assert (Et : t' = mkTrie (Some r) st2 (element_length t)) by congruence. subst t'. cbn [tstore]. exists []. split; [cbn; lia|]. auto. }
    destruct (is_leaf p).
    + intros E. assert (Et : t' = mkTrie None (delete_node r st2) 0) by congruence. subst t'. cbn [tstore]. exists [r]. split; [cbn; lia|]. split; [|congruence].
      apply (touch_trans [] [r] _ st2); [exact T1|apply delete_touch].
    + destruct (node_remove d [] p st2) as [[u st3]|e|] eqn:A; cbn [bind]; try discriminate. apply node_remove_touch in A as [C [L T]]. intros E.
      assert (Et : t' = mkTrie (Some u) (delete_node r st3) (element_length t)) by congruence. subst t'. cbn [tstore]. exists (C ++ [r]).
      split; [rewrite app_length; cbn; lia|]. split; [|congruence]. eapply touch_trans; [|apply delete_touch]. apply (touch_trans [] C _ st2); assumption.
  - intros E. assert (Et : t' = t) by congruence. subst t'. exists []. split; [cbn; lia|]. split; [apply touch_refl|auto].
Qed.

(** ** Computing hashes rewrites only what is dirty *)
Definition settled (D : list N) (st : store) : Prop := forall id n, ~ In id D -> storage st id <> None -> cache st id = Some n -> dirty n = false.
Lemma settled_touch D st st' : settled D st -> touch D st st' -> settled D st'.
Proof.
  intros Se T id n Nid Hs Hc. destruct (T id Nid) as [Es [Ec|[_ [n' [En Dn]]]]]; [|congruence]. apply (Se id n Nid); congruence.
Qed.
Lemma get_dirty D st id n st' : settled D st -> get_node id st = Ok (n, st') -> dirty n = true -> In id D.
Proof.
  intros Se G Dn. apply get_touch in G as [_ [Hs Hc]]. destruct (in_dec N.eq_dec id D) as [X|X]; [exact X|]. exfalso.
  destruct Hc as [Hc|[_ Hc]]; [|congruence]. rewrite (Se id n X Hs Hc) in Dn. discriminate.
Qed.
Lemma accumulate_touch : forall cs i st s st', accumulate i cs st = Ok (s, st') -> touch [] st st'.
Proof.
  induction cs as [|[id|] cs IH]; intros i st s st' E; cbn [accumulate] in E.
  - assert (st' = st) by congruence. subst. apply touch_refl.
  - destruct (get_node id st) as [[child st1]|e|] eqn:G; cbn [bind] in E; try discriminate. apply get_touch in G as [G _].
    destruct (accumulate (S i) cs st1) as [[rest st2]|e|] eqn:A; cbn [bind] in E; try discriminate. apply IH in A.
    assert (st2 = st') by congruence. subst. eapply touch_again; eassumption.
  - eapply IH. exact E.
Qed.
Lemma nil_touch D a b : touch [] a b -> touch D a b. Proof. apply touch_incl. intros ? []. Qed.
Lemma hash_touch H D : forall fuel self st n st', settled D st -> calculate_hash H fuel self st = Ok (n, st') -> touch D st st'.
Proof.
  induction fuel as [|f IH]; intros self st n st' Se E; cbn [calculate_hash] in E; [discriminate|].
  destruct (children self) as [cs|]; [|assert (st' = st) by congruence; subst; apply touch_refl].
  destruct (negb (dirty self)); [assert (st' = st) by congruence; subst; apply touch_refl|].
  destruct (hash_children (calculate_hash H f) cs st) as [st1|e|] eqn:Hc; cbn [bind] in E; try discriminate.
  destruct (accumulate 0 cs st1) as [[acc st2]|e|] eqn:Ac; cbn [bind] in E; try discriminate. assert (st2 = st') by congruence. subst st2. apply accumulate_touch in Ac.
  assert (T : forall r st st1, settled D st -> hash_children (calculate_hash H f) r st = Ok st1 -> touch D st st1).
  { clear - IH. induction r as [|[id|] r IHr]; intros st st1 Se E; cbn [hash_children] in E.
    - assert (st1 = st) by congruence. subst. apply touch_refl.
    - destruct (get_node id st) as [[child st2]|e|] eqn:G; cbn [bind] in E; try discriminate. pose proof (get_dirty D st id child st2 Se G) as Di. apply get_touch in G as [G _].
      apply (nil_touch D) in G. pose proof (settled_touch D st st2 Se G) as Se2. destruct (negb (is_leaf child) && dirty child) eqn:Q.
      + apply andb_true_iff in Q as [_ Q]. specialize (Di Q). destruct (calculate_hash H f child st2) as [[child' st3]|e|] eqn:Ch; cbn [bind] in E; try discriminate.
        pose proof (IH child st2 child' st3 Se2 Ch) as T3. assert (T4 : touch D st3 (set_node id child' st3)) by (eapply touch_incl; [|apply set_touch]; intros x [<- | []]; exact Di).
        pose proof (touch_again _ _ _ _ T3 T4) as T5. eapply touch_again; [exact G|]. eapply touch_again; [exact T5|]. apply IHr; [|exact E]. eapply settled_touch; [exact Se2|exact T5].
      + eapply touch_again; [exact G|]. apply IHr; [exact Se2|exact E].
    - apply IHr; assumption. }
  eapply touch_again; [eapply T; [exact Se|exact Hc]|apply nil_touch; exact Ac].
Qed.
Lemma root_touch H D t h t' : settled D (tstore t) -> root_hash H t = Ok (h, t') -> exists r, touch (r :: D) (tstore t) (tstore t').
Proof.
  intros Se. unfold root_hash. destruct (root t) as [r|]; [|intros E; assert (t' = t) by congruence; subst; exists 0%N; apply touch_refl].
  destruct (get_node r (tstore t)) as [[n st1]|e|] eqn:G; cbn [bind]; try discriminate. apply get_touch in G as [G _]. apply (nil_touch D) in G.
  match goal with |- context [calculate_hash H ?f n st1] => destruct (calculate_hash H f n st1) as [[n2 st2]|e|] eqn:Ch; cbn [bind]; try discriminate end.
  intros E. match type of E with Ok (_, ?x) = _ => assert (Et : t' = x) by congruence end. subst t'. cbn [tstore]. exists r.
  apply (hash_touch H D) in Ch; [|eapply settled_touch; eassumption]. pose proof (touch_again _ _ _ _ G Ch) as T.
  eapply touch_incl; [|eapply touch_trans; [exact T|apply set_touch]]. intros x. rewrite in_app_iff. cbn. tauto.
Qed.

(** ** After the root hash nothing is dirty *)
Lemma good_clean H st n path t : good H st n path t -> pclean t -> forall x, own t x -> exists nd, cache st x = Some nd /\ dirty nd = false.
Proof.
  induction 1 as [n path id s Hl Ha|n path id d cs Hl Ha Hc IH Hid Hdj H2 Hcl]; intros P x Ox.
  - inversion Ox; subst. destruct Ha as (A & _). eexists. split; [exact A|reflexivity].
  - cbn in P. subst d. inversion Ox as [|? ? ?|? ? ? i c ? Hi Oc]; subst.
    + destruct Ha as (A & _). eexists. split; [exact A|reflexivity].
    + eapply IH; [exact Hi| |exact Oc]. eapply Hcl; [reflexivity|exact Hi].
Qed.
Lemma hashed_settled H (Hlen : hash32 H) n L t S h t' : stands H n L t S -> root_hash H t = Ok (h, t') -> settled [] (tstore t').
Proof.
  intros R. unfold stands in R. unfold root_hash. destruct (root t) as [r|] eqn:Er.
  - destruct R as (pt & <- & G & Hm & Ho & Hb & Hel). rewrite (get_agree _ _ _ (good_agree _ _ _ _ _ G)). cbn [bind].
    destruct (calculate_hash_spec H Hlen (Datatypes.S (N.to_nat (element_length t) + N.to_nat (next_node_id (tstore t)))) n [] pt (tstore t) G)
      as (st' & E & N' & G' & S'); [intros l Dl; pose proof (descent_short _ _ _ _ _ _ G Hb Dl); lia|].
    rewrite E. cbn [bind]. intros E'. match type of E' with Ok (_, ?x) = _ => assert (Et : t' = x) by congruence end. subst t'. cbn [tstore].
    intros x nd _ Hx Hc. assert (Ox : own (cl pt) x).
    { apply own_cl1. destruct (N.eq_dec x (pid pt)) as [-> |Hne]; [apply own_pid|].
      destruct (set_same st' (pid pt) (cell H [] (cl pt)) x Hne) as [_ E2]. rewrite E2 in Hx.
      destruct (storage (tstore t) x) eqn:Es; [apply Ho; congruence|]. exfalso.
      assert (Hnx : ~ own pt x) by (intros Hox; apply Ho in Hox; congruence). destruct (S' x Hnx) as [_ E3]. congruence. }
    destruct (good_clean H _ _ _ _ G' (pclean_cl pt) x Ox) as [nd' [A B]]. congruence.
  - destruct R as [_ Hst]. intros E. assert (t' = t) by congruence. subst t'. intros x nd _ Hx. rewrite Hst in Hx. contradiction.
Qed.

Lemma step_touch H m o t r t' : (forall D, D = [] -> o = RootHash -> settled D (tstore t)) -> step H m o t = Ok (r, t') ->
  exists C, (length C <= most_changes o)%nat /\ touch C (tstore t) (tstore t') /\ (r = RBool false -> C = []).
Proof.
  intros Se E. destruct o as [k|k|]; cbn [step] in E.
  - destruct (add m k t) as [[b t1]|e|] eqn:A; cbn [bind] in E; try discriminate. apply add_touch in A as [C [L [T F]]]. assert (t1 = t') by congruence. subst t1.
    exists C. split; [exact L|]. split; [exact T|]. intros X. apply F. congruence.
  - destruct (delete k t) as [[b t1]|e|] eqn:A; cbn [bind] in E; try discriminate. apply trie_delete_touch in A as [C [L [T F]]]. assert (t1 = t') by congruence. subst t1.
    exists C. split; [exact L|]. split; [exact T|]. intros X. apply F. congruence.
  - destruct (root_hash H t) as [[h t1]|e|] eqn:A; cbn [bind] in E; try discriminate. assert (t1 = t') by congruence. subst t1.
    apply (root_touch H []) in A as [r0 T]; [|apply Se; reflexivity]. exists [r0]. split; [cbn; lia|]. split; [exact T|]. intros X. congruence.
Qed.
Lemma step_changes H m o t r t' : o <> RootHash -> step H m o t = Ok (r, t') ->
  exists ids, (length ids <= most_changes o)%nat /\ changes_only ids t t' /\ (r = RBool false -> ids = []).
Proof.
  intros No E. destruct (step_touch H m o t r t') as [C [L [T F]]]; [intros D _ X; contradiction|exact E|]. exists C. split; [exact L|]. split; [|exact F].
  intros id X. apply T. exact X.
Qed.
Lemma hashed_update H (Hlen : hash32 H) m n ops xs t0 h0 t o r t1 h t2 :
  Forall (key_upto n) ops -> small_history n ops -> run H m ops new_trie = Ok (xs, t0) -> root_hash H t0 = Ok (h0, t) ->
  step H m o t = Ok (r, t1) -> root_hash H t1 = Ok (h, t2) ->
  exists ids, (length ids <= most_changes o + 1)%nat /\ changes_only ids t t2.
Proof.
  intros Hk Hs R R0 St R2. pose proof (any_history H Hlen m n ops Hk Hs) as A. destruct (ref_run H ops [] 0) as [[xs' S]|e|]; [|congruence|congruence].
  destruct A as (t' & L & E & G & _). assert (t' = t0) by congruence. subst t'. pose proof (hashed_settled H Hlen n L t0 S h0 t G R0) as Se.
  destruct (step_touch H m o t r t1) as [C [Lc [T _]]]; [intros D -> _; exact Se|exact St|].
  assert (Se1 : settled C (tstore t1)).
  { apply (settled_touch C (tstore t)); [|exact T]. intros id nd _. apply Se. intros []. }
  destruct (root_touch H C t1 h t2 Se1 R2) as [r0 T2]. exists (r0 :: C). split; [cbn; lia|].
  intros id Nid. destruct (T2 id Nid) as [E2 _]. destruct (T id) as [E1 _]; [intros X; apply Nid; right; exact X|]. congruence.
Qed.
