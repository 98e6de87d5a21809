(** Keys of another length. *)
From Verif Require Import Base BaseFacts TrieModel TrieSpec TrieCodecProofs TrieProofs TrieRefine.

Lemma first_diff_none_iff s : forall d, first_diff s d = None <-> comparable s d.
Proof.
  induction s as [|x s IH]; intros [|y d]; cbn [first_diff].
  - split; [intros _; apply comparable_nil|reflexivity].
  - split; [intros _; apply nil_comparable|reflexivity].
  - split; [intros _; apply comparable_nil|reflexivity].
  - rewrite comparable_cons. destruct (byte_eqb_reflect x y) as [->|N].
    + rewrite <- IH. destruct (first_diff s d); cbn; split; try discriminate; intuition congruence.
    + split; [discriminate|]. intros [E _]. contradiction.
Qed.
Lemma first_diff_some s : forall d i, first_diff s d = Some i -> exists a b, nth_error s i = Some a /\ nth_error d i = Some b.
Proof.
  induction s as [|x s IH]; intros [|y d] i; cbn [first_diff]; try discriminate.
  destruct (byte_eqb_reflect x y) as [->|N].
  - destruct (first_diff s d) as [j|] eqn:E; cbn; [|discriminate]. intros E'. injection E' as <-. exact (IH d j E).
  - intros E. injection E as <-. exists x, y. auto.
Qed.
Lemma chain_total m d path i : forall id st, (i <= length d)%nat -> (next_node_id st + N.of_nat i < two64)%N ->
  exists r, parent_chain m d path i id st = Ok r.
Proof.
  induction i as [|i IH]; intros id st Hi Hn; cbn [parent_chain]; [eauto|].
  destruct (nth_error d i) as [b|] eqn:E; [|apply nth_error_None in E; lia].
  destruct (allocate_spec m st) as (st' & A & N' & _); [lia|]. rewrite A. cbn [bind]. apply IH; [lia|]. cbn [set_node next_node_id]. lia.
Qed.
Lemma split_leaf_other m d path s st : (next_node_id st + N.of_nat (length d) + 3 < two64)%N ->
  (comparable s d -> split_leaf m d path (mkNode false s None) st = Panic) /\
  (~ comparable s d -> exists r, split_leaf m d path (mkNode false s None) st = Ok r).
Proof.
  intros Hn. unfold split_leaf. cbn [nhash]. split; intros C.
  - apply first_diff_none_iff in C. rewrite C. reflexivity.
  - destruct (first_diff s d) as [i|] eqn:E; [|apply first_diff_none_iff in E; contradiction].
    destruct (first_diff_some s d i E) as (a & b & E1 & E2). rewrite E1, E2.
    assert (Hi : (i < length d)%nat) by (apply nth_error_Some; congruence).
    destruct (allocate_spec m st) as (st1 & A1 & N1 & _); [lia|]. rewrite A1. cbn [bind].
    match goal with |- context [allocate_new_node m ?x] => destruct (allocate_spec m x) as (st2 & A2 & N2 & _) end; [cbn [set_node next_node_id]; lia|].
    rewrite A2. cbn [bind]. cbn [set_node next_node_id] in N2.
    match goal with |- context [allocate_new_node m ?x] => destruct (allocate_spec m x) as (st3 & A3 & N3 & _) end; [cbn [set_node next_node_id]; lia|].
    rewrite A3. cbn [bind]. cbn [set_node next_node_id] in N3. apply chain_total; [lia|]. cbn [set_node next_node_id]. lia.
Qed.
Lemma other_spec H m st n path t : good H st n path t -> forall d, ~ mem t d -> (next_node_id st + N.of_nat (length d) + 3 < two64)%N ->
  ((exists k, mem t k /\ comparable k d) ->
     find d (cell H path t) st = Panic \/ (find d (cell H path t) st = Ok (false, st) /\ node_add m d path (cell H path t) st = Panic)) /\
  ((forall k, mem t k -> ~ comparable k d) ->
     find d (cell H path t) st = Ok (false, st) /\ exists r, node_add m d path (cell H path t) st = Ok r).
Proof.
  induction 1 as [n path id s Hl Ha|n path id dd cs Hl Ha Hc IH Hid Hdj H2 Hcl]; intros d Hd Hn.
  - assert (F : find d (cell H path (PLeaf id s)) st = Ok (false, st)).
    { assert (F : find d (cell H path (PLeaf id s)) st = Ok (bytes_eqb d s, st)) by (destruct d; reflexivity).
      rewrite F. destruct (bytes_eqb_reflect d s) as [->|N]; [exfalso; apply Hd; constructor|reflexivity]. }
    destruct (split_leaf_other m d path s st Hn) as [S1 S2].
    assert (A : node_add m d path (cell H path (PLeaf id s)) st = split_leaf m d path (mkNode false s None) st) by (destruct d; reflexivity).
    rewrite A, F. split.
    + intros (k & Hk & C). inversion Hk; subst. right. split; [reflexivity|]. apply S1. exact C.
    + intros C. split; [reflexivity|]. apply S2. apply C. constructor.
  - destruct d as [|b d].
    + split; [intros _; left; reflexivity|]. intros C. exfalso. destruct H2 as (k & _ & Hk & _). exact (C k Hk (comparable_nil k)).
    + cbn [cell find node_add children]. destruct (slot cs b Hl) as [[c Hh]|[E1 E2]].
      * rewrite (has_map cs (idx b) c Hh). pose proof (Hc _ _ Hh) as Gc. rewrite (get_agree _ _ _ (good_agree _ _ _ _ _ Gc)). cbn [bind].
        cbn [length] in Hn. destruct (IH _ _ Hh d) as [I1 I2]; [intros Hm; apply Hd; econstructor; eassumption|lia|]. rewrite b8_idx in *. split.
        -- intros (k & Hk & C). inversion Hk as [|? ? ? b' c' k' Hh' Hk']; subst. apply comparable_cons in C as [-> C].
           unfold has in *. assert (c' = c) as -> by congruence.
           destruct I1 as [I1|[I1 I3]]; [exists k'; auto|left; exact I1|right]. split; [exact I1|]. rewrite I3. reflexivity.
        -- intros C. destruct I2 as (F & [r0 st0] & R).
           { intros k Hk C'. apply (C (b :: k)); [econstructor; eassumption|]. apply comparable_cons. auto. }
           split; [exact F|]. rewrite R. cbn [bind]. eauto.
      * rewrite E2. cbn [length] in Hn. split.
        -- intros (k & Hk & C). exfalso. inversion Hk as [|? ? ? b' c' k' Hh' Hk']; subst. apply comparable_cons in C as [-> _]. unfold has in *. congruence.
        -- intros C. split; [reflexivity|]. destruct (allocate_spec m st) as (st1 & A1 & N1 & _); [lia|]. rewrite A1. cbn [bind].
           match goal with |- context [allocate_new_node m ?x] => destruct (allocate_spec m x) as (st2 & A2 & N2 & _) end; [cbn [set_node next_node_id]; lia|].
           rewrite A2. cbn [bind]. eauto.
Qed.
Lemma comparable_dec a : forall b, {comparable a b} + {~ comparable a b}.
Proof.
  intros b. destruct (first_diff a b) eqn:E; [right|left].
  - intros C. apply first_diff_none_iff in C. congruence.
  - apply first_diff_none_iff. exact E.
Qed.
Lemma add_other_lemma H (Hlen : hash32 H) m n ops xs t k :
  Forall (key_length n) ops -> small_history n ops -> (N.of_nat (length ops) * (N.of_nat n + 3) + N.of_nat (length k) + 3 < two64)%N ->
  run H m ops new_trie = Ok (xs, t) -> length k <> n ->
  ((exists x, In x (members ops) /\ comparable x k) /\ add m k t = Panic) \/
  ((forall x, In x (members ops) -> ~ comparable x k) /\ exists t', add m k t = Ok (true, t')).
Proof.
  intros Hk Hs Hb E Hl.
  destruct (run_spec_counted H Hlen m n ops new_trie [] (new_represents H n) (NoDup_nil _) Hk (proj1 Hs)) as (t0 & E0 & R0 & B0); [cbn [new_trie tstore new_store next_node_id]; lia|].
  assert (t0 = t) as -> by congruence. fold (members ops) in R0. destruct R0 as [R0 Hall]. unfold stands in R0. unfold add. cbn [new_trie tstore new_store next_node_id] in B0.
  destruct (root t) as [r|].
  - destruct R0 as (pt & <- & G & Hm & _). rewrite (get_agree _ _ _ (good_agree _ _ _ _ _ G)). cbn [bind].
    destruct (other_spec H m _ _ _ _ G k) as [O1 O2]; [rewrite Hm; intros Hin; rewrite Forall_forall in Hall; exact (Hl (Hall _ Hin))|lia|].
    destruct (Exists_dec (fun x => comparable x k) (members ops)) as [X|X]; [intros x; apply comparable_dec| |].
    + left. apply Exists_exists in X as (x & Hx & C). split; [eauto|].
      destruct O1 as [O1|[O1 O3]]; [exists x; split; [apply Hm; exact Hx|exact C]| |]; rewrite O1; [reflexivity|]. cbn [bind]. rewrite O3. reflexivity.
    + right. assert (X' : forall x, In x (members ops) -> ~ comparable x k).
      { intros x Hx C. apply X. apply Exists_exists. eauto. }
      split; [exact X'|]. destruct O2 as (F & [r0 st0] & R); [intros x Hx; apply X', Hm; exact Hx|]. rewrite F. cbn [bind]. rewrite R. cbn [bind]. eauto.
  - destruct R0 as [-> _]. right. split; [intros x []|]. destruct (allocate_spec m (tstore t)) as (st1 & A1 & _); [lia|]. rewrite A1. cbn [bind]. eauto.
Qed.
