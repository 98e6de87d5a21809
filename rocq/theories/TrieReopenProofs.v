From Verif Require Import Base BaseFacts TrieModel TrieSpec TrieCodecProofs TrieProofs TrieRefine TrieBind TrieAny TrieCostProofs TrieReopenModel TrieReopenSpec.

(** ** Stores from which the same nodes are read *)
Definition view (st : store) (id : N) : outcome trie_error node :=
  match storage st id with
  | None => Err MissingNode
  | Some data => match deserialize data with None => Err NodeDecodingFailure | Some n => Ok (match cache st id with Some c => c | None => n end) end
  end.
Definition alike (st st' : store) : Prop := forall id, view st id = view st' id.
Definition twin (st st' : store) : Prop := alike st st' /\ next_node_id st = next_node_id st'.
(** Outcomes that are the same up to such stores. *)
Definition same {A} (R : store -> store -> Prop) (o o' : outcome trie_error (A * store)) : Prop :=
  match o, o' with
  | Ok (a, s), Ok (a', s') => a = a' /\ R s s'
  | Err e, Err e' => e = e'
  | Panic, Panic => True
  | _, _ => False
  end.
Lemma same_bind {A B} (R : store -> store -> Prop) (o o' : outcome trie_error (A * store)) (k k' : A * store -> outcome trie_error (B * store)) :
  same R o o' -> (forall a s s', R s s' -> same R (k (a, s)) (k' (a, s'))) -> same R (bind o k) (bind o' k').
Proof. unfold same. destruct o as [[a s]|e|], o' as [[a' s']|e'|]; try tauto; cbn [bind]. intros [-> X] F. exact (F a' s s' X). Qed.
Lemma same_ok {A} (R : store -> store -> Prop) (a : A) s s' : R s s' -> same R (Ok (a, s)) (Ok (a, s')).
Proof. intros X. split; [reflexivity|exact X]. Qed.

Lemma get_view id st : match get_node id st with Ok (n, st') => view st id = Ok n /\ alike st st' | Err e => view st id = Err e | Panic => False end.
Proof.
  unfold get_node, view. destruct (storage st id) as [data|] eqn:Es; [|reflexivity]. destruct (deserialize data) as [n|] eqn:Ed; [|reflexivity].
  destruct (cache st id) as [c|] eqn:Ec; (split; [reflexivity|]); intros x; [reflexivity|]. unfold view. cbn [storage cache]. unfold upd.
  destruct (N.eqb_spec x id) as [-> |_]; [rewrite Es, Ed, Ec|]; reflexivity.
Qed.
Lemma get_alike id st st' : alike st st' -> same alike (get_node id st) (get_node id st').
Proof.
  intros A. pose proof (get_view id st) as V. pose proof (get_view id st') as V'. unfold same.
  destruct (get_node id st) as [[n s]|e|], (get_node id st') as [[n' s']|e'|]; try contradiction; try (rewrite (A id) in V; congruence).
  - destruct V as [V W], V' as [V' W']. rewrite (A id) in V. split; [congruence|]. intros x. rewrite <- W, <- W'. apply A.
  - destruct V as [V _]. rewrite (A id) in V. congruence.
  - destruct V' as [V' _]. rewrite (A id) in V. congruence.
Qed.
Lemma get_next id st n st' : get_node id st = Ok (n, st') -> next_node_id st' = next_node_id st.
Proof.
  unfold get_node. destruct (storage st id) as [d|]; [|discriminate]. destruct (deserialize d); [|discriminate].
  destruct (cache st id); intros E; [congruence|]. match type of E with Ok (_, ?x) = _ => assert (Es : st' = x) by congruence end. subst st'. reflexivity.
Qed.
Lemma get_twin id st st' : twin st st' -> same twin (get_node id st) (get_node id st').
Proof.
  intros [A Nx]. pose proof (get_alike id st st' A) as X. unfold same in *. destruct (get_node id st) as [[n s]|e|] eqn:E1, (get_node id st') as [[n' s']|e'|] eqn:E2; try assumption; try contradiction.
  destruct X as [-> X]. split; [reflexivity|]. split; [exact X|]. apply get_next in E1, E2. congruence.
Qed.
Lemma set_twin id n st st' : twin st st' -> twin (set_node id n st) (set_node id n st').
Proof.
  intros [A Nx]. split; [|exact Nx]. intros x. specialize (A x). unfold view, set_node, store_node in *. cbn [storage cache]. unfold upd. destruct (x =? id)%N; [reflexivity|exact A].
Qed.
Lemma delete_twin id st st' : twin st st' -> twin (delete_node id st) (delete_node id st').
Proof.
  intros [A Nx]. split; [|exact Nx]. intros x. specialize (A x). unfold view, delete_node, store_node in *. cbn [storage cache]. unfold upd. destruct (x =? id)%N; [reflexivity|exact A].
Qed.
Lemma allocate_twin m st st' : twin st st' -> same twin (allocate_new_node m st) (allocate_new_node m st').
Proof.
  intros [A Nx]. unfold allocate_new_node. rewrite <- Nx. destruct (add64 m (next_node_id st) 1) as [z|]; [|exact Logic.I]. split; [reflexivity|]. split; [|reflexivity].
  intros x. specialize (A x). unfold view in *. cbn [storage cache]. unfold upd. destruct (x =? next_node_id st)%N; [|exact A].
  destruct (storage st x) as [a|], (storage st' x) as [b|]; try destruct (deserialize a); try destruct (deserialize b); congruence.
Qed.

Lemma find_same (R : store -> store -> Prop) (G : forall id s s', R s s' -> same R (get_node id s) (get_node id s')) :
  forall d self st st', R st st' -> same R (find d self st) (find d self st').
Proof.
  induction d as [|x d IH]; intros self st st' X; cbn [find]; destruct (children self) as [cs|]; try (apply same_ok; exact X); try exact Logic.I.
  destruct (nth_error cs (idx x)) as [[cid|]|]; [|apply same_ok; exact X|exact Logic.I].
  apply same_bind; [apply G; exact X|]. intros c s s' Y. apply IH. exact Y.
Qed.
Lemma chain_twin m d path : forall i id st st', twin st st' -> same twin (parent_chain m d path i id st) (parent_chain m d path i id st').
Proof.
  induction i as [|i IH]; intros id st st' X; cbn [parent_chain]; [apply same_ok; exact X|]. destruct (nth_error d i); [|exact Logic.I].
  apply same_bind; [apply allocate_twin; exact X|]. intros [n id2] s s' Y. apply IH. apply set_twin. exact Y.
Qed.
Lemma split_twin m d path self st st' : twin st st' -> same twin (split_leaf m d path self st) (split_leaf m d path self st').
Proof.
  intros X. unfold split_leaf. destruct (first_diff (nhash self) d) as [k|]; [|exact Logic.I]. destruct (nth_error d k), (nth_error (nhash self) k); try exact Logic.I.
  apply same_bind; [apply allocate_twin; exact X|]. intros [n1 id1] s1 s1' Y1. apply same_bind; [apply allocate_twin, set_twin; exact Y1|]. intros [n2 id2] s2 s2' Y2.
  apply same_bind; [apply allocate_twin, set_twin; exact Y2|]. intros [n3 id3] s3 s3' Y3. apply chain_twin, set_twin. exact Y3.
Qed.
Lemma node_add_twin m : forall d path self st st', twin st st' -> same twin (node_add m d path self st) (node_add m d path self st').
Proof.
  induction d as [|b d IH]; intros path self st st' X; cbn [node_add]; destruct (children self) as [cs|]; try exact Logic.I; try (apply split_twin; exact X).
  destruct (nth_error cs (idx b)) as [[cur|]|]; [| |exact Logic.I].
  - apply same_bind; [apply get_twin; exact X|]. intros c s s' Y. apply same_bind; [apply IH; exact Y|]. intros u s2 s2' Z. apply same_ok, set_twin. exact Z.
  - apply same_bind; [apply allocate_twin; exact X|]. intros [n1 id1] s1 s1' Y1. apply same_bind; [apply allocate_twin, set_twin; exact Y1|]. intros [n2 id2] s2 s2' Y2.
    apply same_ok, set_twin. exact Y2.
Qed.
Lemma node_remove_twin : forall d path self st st', twin st st' -> same twin (node_remove d path self st) (node_remove d path self st').
Proof.
  induction d as [|b d IH]; intros path self st st' X; cbn [node_remove]; destruct (children self) as [cs|]; try exact Logic.I.
  destruct (nth_error cs (idx b)) as [[nid|]|]; try exact Logic.I. apply same_bind; [apply get_twin; exact X|]. intros n s s' Y. apply same_bind.
  - destruct (is_leaf n); [apply same_ok; exact Y|]. apply same_bind; [apply IH; exact Y|]. intros u s2 s2' Z. apply same_ok. exact Z.
  - intros cs' s2 s2' Z. destruct (scan_children 0 cs' (0%nat, 0%N, 0%N)) as [[hi ci] num]. apply same_bind.
    + destruct (num =? 1)%N; [|apply same_ok; exact Z]. apply same_bind; [apply get_twin; exact Z|]. intros c s3 s3' W. destruct (is_leaf c); apply same_ok; [apply delete_twin|]; exact W.
    + intros n' s3 s3' W. apply same_ok, set_twin. exact W.
Qed.
Lemma accumulate_twin : forall cs i st st', twin st st' -> same twin (accumulate i cs st) (accumulate i cs st').
Proof.
  induction cs as [|[id|] cs IH]; intros i st st' X; cbn [accumulate]; [apply same_ok; exact X| |apply IH; exact X].
  apply same_bind; [apply get_twin; exact X|]. intros c s s' Y. apply same_bind; [apply IH; exact Y|]. intros r s2 s2' Z. apply same_ok. exact Z.
Qed.
Definition same_store (o o' : outcome trie_error store) : Prop :=
  match o, o' with Ok s, Ok s' => twin s s' | Err e, Err e' => e = e' | Panic, Panic => True | _, _ => False end.
Lemma hash_children_twin rec (Rec : forall n s s', twin s s' -> same twin (rec n s) (rec n s')) :
  forall cs st st', twin st st' -> same_store (hash_children rec cs st) (hash_children rec cs st').
Proof.
  induction cs as [|[id|] cs IH]; intros st st' X; cbn [hash_children]; [exact X| |apply IH; exact X].
  pose proof (get_twin id st st' X) as G. destruct (get_node id st) as [[c s]|e|], (get_node id st') as [[c' s']|e'|]; cbn [same bind] in *; try exact G; try contradiction.
  destruct G as [-> Y]. destruct (negb (is_leaf c') && dirty c'); [|apply IH; exact Y].
  pose proof (Rec c' s s' Y) as Q. destruct (rec c' s) as [[c2 s2]|e|], (rec c' s') as [[c2' s2']|e'|]; cbn [same bind] in *; try exact Q; try contradiction.
  destruct Q as [-> Z]. apply IH, set_twin. exact Z.
Qed.
Lemma calculate_twin H : forall fuel self st st', twin st st' -> same twin (calculate_hash H fuel self st) (calculate_hash H fuel self st').
Proof.
  induction fuel as [|f IH]; intros self st st' X; cbn [calculate_hash]; [exact Logic.I|]. destruct (children self) as [cs|]; [|apply same_ok; exact X].
  destruct (negb (dirty self)); [apply same_ok; exact X|].
  pose proof (hash_children_twin (calculate_hash H f) IH cs st st' X) as Q.
  destruct (hash_children (calculate_hash H f) cs st) as [s|e|], (hash_children (calculate_hash H f) cs st') as [s'|e'|]; cbn [same_store bind] in *; try exact Q; try contradiction.
  apply same_bind; [apply accumulate_twin; exact Q|]. intros a s2 s2' Y. apply same_ok. exact Y.
Qed.

(** ** Tries *)
Definition twins (t t' : trie) : Prop := root t = root t' /\ element_length t = element_length t' /\ twin (tstore t) (tstore t').
Definition same_trie {A} (o o' : outcome trie_error (A * trie)) : Prop :=
  match o, o' with
  | Ok (a, s), Ok (a', s') => a = a' /\ twins s s'
  | Err e, Err e' => e = e'
  | Panic, Panic => True
  | _, _ => False
  end.
Lemma trie_bind {A B} (o o' : outcome trie_error (A * store)) (k k' : A * store -> outcome trie_error (B * trie)) :
  same twin o o' -> (forall a s s', twin s s' -> same_trie (k (a, s)) (k' (a, s'))) -> same_trie (bind o k) (bind o' k').
Proof. unfold same, same_trie. destruct o as [[a s]|e|], o' as [[a' s']|e'|]; try tauto; cbn [bind]. intros [-> X] F. exact (F a' s s' X). Qed.
Lemma trie_ok {A} (a : A) r l s s' : twin s s' -> same_trie (Ok (a, mkTrie r s l)) (Ok (a, mkTrie r s' l)).
Proof. intros X. split; [reflexivity|]. split; [reflexivity|]. split; [reflexivity|exact X]. Qed.
Lemma step_twins H m o t t' : twins t t' -> same_trie (step H m o t) (step H m o t').
Proof.
  intros TW. pose proof TW as (Er & El & X). pose proof (proj2 X) as Nx.
  assert (Lift : forall A (f : A -> result) (p q : outcome trie_error (A * trie)), same_trie p q ->
            same_trie (bind p (fun '(a, u) => Ok (f a, u))) (bind q (fun '(a, u) => Ok (f a, u)))).
  { intros A f p q. unfold same_trie. destruct p as [[a s]|e|], q as [[a' s']|e'|]; cbn [bind]; try tauto. intros [-> Y]. auto. }
  destruct o as [k|k|]; cbn [step]; apply Lift.
  - unfold add. rewrite <- Er, <- El. destruct (root t) as [r|].
    + apply trie_bind; [apply get_twin; exact X|]. intros p s s' Y. apply trie_bind; [apply find_same; [exact get_twin|exact Y]|]. intros b s2 s2' Z.
      destruct b; [apply trie_ok; exact Z|]. apply trie_bind; [apply node_add_twin; exact Z|]. intros u s3 s3' W. apply trie_ok, delete_twin. exact W.
    + apply trie_bind; [apply allocate_twin; exact X|]. intros [n id] s s' Y. apply trie_ok, set_twin. exact Y.
  - unfold delete. rewrite <- Er, <- El. destruct (root t) as [r|]; [|split; [reflexivity|exact TW]].
    destruct (negb (N.of_nat (length k) =? element_length t)%N); [reflexivity|].
    apply trie_bind; [apply get_twin; exact X|]. intros p s s' Y. apply trie_bind; [apply find_same; [exact get_twin|exact Y]|]. intros b s2 s2' Z.
    destruct (negb b); [apply trie_ok; exact Z|]. destruct (is_leaf p); [apply trie_ok, delete_twin; exact Z|].
    apply trie_bind; [apply node_remove_twin; exact Z|]. intros u s3 s3' W. apply trie_ok, delete_twin. exact W.
  - unfold root_hash. rewrite <- Er, <- El, <- Nx. destruct (root t) as [r|]; [|split; [reflexivity|exact TW]].
    apply trie_bind; [apply get_twin; exact X|]. intros p s s' Y. apply trie_bind; [apply calculate_twin; exact Y|]. intros n s2 s2' Z. apply trie_ok, set_twin. exact Z.
Qed.
Lemma run_twins H m : forall ops t t', twins t t' -> answers (run H m ops t) = answers (run H m ops t').
Proof.
  induction ops as [|o ops IH]; intros t t' X; cbn [run]; [reflexivity|]. pose proof (step_twins H m o t t' X) as S.
  destruct (step H m o t) as [[x u]|e|], (step H m o t') as [[x' u']|e'|]; cbn [same_trie bind] in *; try contradiction; try congruence.
  destruct S as [-> Y]. specialize (IH u u' Y). destruct (run H m ops u) as [[xs v]|e|], (run H m ops u') as [[xs' v']|e'|]; cbn [answers bind] in *; congruence.
Qed.

(** ** After the root hash *)
Definition all_clean (st : store) : Prop := forall x, storage st x <> None -> exists nd, agree st x nd /\ dirty nd = false.
Lemma own_agree H st n path t : good H st n path t -> forall x, own t x -> exists nd, agree st x nd.
Proof.
  induction 1 as [n path id s Hl Ha|n path id d cs Hl Ha Hc IH Hid Hdj H2 Hcl]; intros x Ox; inversion Ox; subst; eauto.
Qed.
Lemma hashed_clean H (Hlen : hash32 H) n L t S h t' : stands H n L t S -> NoDup S -> root_hash H t = Ok (h, t') ->
  stands H n L t' S /\ all_clean (tstore t').
Proof.
  intros R Nd E. destruct (root_gen H Hlen n L n t S R Nd (stands_bound _ _ _ _ _ R)) as (t2 & E2 & R2 & _). assert (t2 = t') by congruence. subst t2.
  split; [exact R2|]. pose proof (hashed_settled H Hlen n L t S h t' R E) as Se. intros x Hx. unfold stands in R2. destruct (root t') as [r|].
  - destruct R2 as (pt & _ & G & _ & Ho & _). destruct (own_agree H _ _ _ _ G x (proj1 (Ho x) Hx)) as [nd A]. exists nd. split; [exact A|].
    apply (Se x nd); [intros []|exact Hx|apply A].
  - destruct R2 as [_ Z]. rewrite Z in Hx. contradiction.
Qed.
Lemma clean_node nd : dirty nd = false -> mkNode false (nhash nd) (children nd) = nd.
Proof. destruct nd as [d h c]. cbn. intros ->. reflexivity. Qed.
Lemma clean_alike st z : all_clean st -> alike st (mkStore (storage st) (fun _ => None) z).
Proof.
  intros C x. unfold view. cbn [storage cache]. destruct (storage st x) as [data|] eqn:Ex; [|reflexivity]. destruct (C x) as [nd [(A & B & O) D]]; [congruence|]. rewrite A.
  assert (data = serialize nd) by congruence. subst data. rewrite deserialize_serialize by exact O. rewrite clean_node by exact D. reflexivity.
Qed.
Lemma history_clean H (Hlen : hash32 H) m n ops xs S t0 h t : Forall (key_upto n) ops -> small_history n ops -> ref_run H ops [] 0 = Ok (xs, S) ->
  run H m ops new_trie = Ok (xs, t0) -> root_hash H t0 = Ok (h, t) -> exists L, stands H n L t S /\ all_clean (tstore t).
Proof.
  intros Hk Hs E R Rh. destruct (any_state H Hlen m n ops xs S Hk Hs E) as (t' & L & R' & G & Nd & _). assert (t' = t0) by congruence. subst t'.
  exists L. exact (hashed_clean H Hlen n L t0 S h t G Nd Rh).
Qed.

Lemma reopen_hash H (Hlen : hash32 H) m n ops xs S t0 h t : Forall (key_upto n) ops -> small_history n ops -> ref_run H ops [] 0 = Ok (xs, S) ->
  run H m ops new_trie = Ok (xs, t0) -> root_hash H t0 = Ok (h, t) ->
  (exists t', root_hash H (reopen t) = Ok (h, t')) /\ forall m' k, In k S -> exists t', add m' k (reopen t) = Ok (false, t').
Proof.
  intros Hk Hs E R Rh. destruct (history_clean H Hlen m n ops xs S t0 h t Hk Hs E R Rh) as [L [G C]]. split.
  - assert (Again : exists t', root_hash H t = Ok (h, t')).
    { destruct (any_state H Hlen m n ops xs S Hk Hs E) as (t' & L0 & R' & G0 & Nd & _). assert (t' = t0) by congruence. subst t'.
      destruct (root_gen H Hlen n L0 n t0 S G0 Nd (stands_bound _ _ _ _ _ G0)) as (t1 & E1 & _).
      destruct (root_gen H Hlen n L n t S G Nd (stands_bound _ _ _ _ _ G)) as (t2 & E2 & _). exists t2. rewrite E2. congruence. }
    destruct Again as [t' A]. unfold root_hash in A |- *. unfold reopen. cbn [root tstore element_length next_node_id]. unfold stands in G. destruct (root t) as [r|].
    + destruct G as (pt & <- & G & _). pose proof (good_agree _ _ _ _ _ G) as Ag. destruct (C (pid pt)) as [nd [Ag' D]]; [destruct Ag as (_ & X & _); congruence|].
      rewrite (get_agree _ _ _ Ag') in A. cbn [bind] in A. destruct Ag' as (_ & B & O). unfold get_node. cbn [storage cache]. rewrite B, deserialize_serialize by exact O. cbn [bind].
      rewrite clean_node by exact D. cbn [calculate_hash] in A |- *. rewrite D in *. cbn [negb] in *. destruct (children nd); cbn [bind] in *; eexists; f_equal; f_equal; congruence.
    + eexists. f_equal. f_equal. congruence.
  - intros m' k Ik. unfold add, reopen. cbn [root tstore]. unfold stands in G. destruct (root t) as [r|]; [|destruct G as [-> _]; destruct Ik].
    destruct G as (pt & <- & G & Hm & _). pose proof (clean_alike (tstore t) 0 C) as Al. pose proof (get_alike (pid pt) _ _ Al) as Ge.
    rewrite (get_agree _ _ _ (good_agree _ _ _ _ _ G)) in Ge. destruct (get_node (pid pt) (mkStore (storage (tstore t)) (fun _ => None) 0)) as [[p s]|e|]; cbn [same] in Ge; try contradiction.
    destruct Ge as [<- Al2]. cbn [bind]. pose proof (find_same alike get_alike k (cell H [] pt) _ _ Al2) as Fs.
    destruct (find_gen H (tstore t) n [] pt k G) as [[F (r1 & r2 & M1 & M2 & Ne)]|(b & F & Hb & _)].
    + rewrite F in Fs. exfalso. apply Hm in Ik. apply Ne.
      pose proof (mem_prefix_free _ _ _ _ Ik M1 eq_refl) as A. pose proof (mem_prefix_free _ _ _ _ Ik M2 eq_refl) as B. apply (app_inv_head k). congruence.
    + rewrite F in Fs. destruct (find k (cell H [] pt) s) as [[b' s']|e|]; cbn [same] in Fs; try contradiction. destruct Fs as [<- _]. cbn [bind].
      assert (b = true) by (apply Hb, Hm; exact Ik). subst b. eexists. reflexivity.
Qed.
Lemma reopen_delete t k : root t <> None -> k <> [] -> delete k (reopen t) = Err ElementLengthMismatch.
Proof.
  intros Rt Nk. unfold delete, reopen. cbn [root element_length]. destruct (root t) as [r|]; [|contradiction]. destruct k as [|b k]; [contradiction|]. reflexivity.
Qed.
Lemma drop_cache_lemma H (Hlen : hash32 H) m n ops xs t0 h t m' later : Forall (key_upto n) ops -> small_history n ops ->
  run H m ops new_trie = Ok (xs, t0) -> root_hash H t0 = Ok (h, t) ->
  answers (run H m' later (drop_cache t)) = answers (run H m' later t).
Proof.
  intros Hk Hs R Rh. pose proof (any_history H Hlen m n ops Hk Hs) as A. destruct (ref_run H ops [] 0) as [[xs' S]|e|] eqn:E; [|congruence|congruence].
  assert (xs' = xs) by (destruct A as (t' & L & X & _); congruence). subst xs'. destruct (history_clean H Hlen m n ops xs S t0 h t Hk Hs E R Rh) as [L [_ C]].
  symmetry. apply run_twins. split; [reflexivity|]. split; [reflexivity|]. split; [|reflexivity]. apply clean_alike. exact C.
Qed.
