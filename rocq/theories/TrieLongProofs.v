(** The length the trie remembers fits 32 bits, so longer keys cannot be deleted. *)
From Verif Require Import Base BaseFacts TrieModel TrieSpec TrieCodecProofs TrieRefine TrieBind.
Local Open Scope N_scope.

Definition remembers32 (t : trie) : Prop := element_length t < 2 ^ 32.
Lemma len32_fits d : len32 d < 2 ^ 32.
Proof. unfold len32. apply N.mod_lt. discriminate. Qed.
Lemma add_remembers m d t b t' : remembers32 t -> add m d t = Ok (b, t') -> remembers32 t'.
Proof.
  unfold remembers32, add. intros R. destruct (root t) as [r|].
  - destruct (get_node r (tstore t)) as [[p s]| |]; cbn [bind]; try discriminate.
    destruct (find d p s) as [[f s']| |]; cbn [bind]; try discriminate. destruct f; [intros E; injection E as _ <-; exact R|].
    destruct (node_add m d [] p s') as [[u s'']| |]; cbn [bind]; try discriminate. intros E. injection E as _ <-. exact R.
  - destruct (allocate_new_node m (tstore t)) as [[[x id] s]| |]; cbn [bind]; try discriminate. intros E. injection E as _ <-. apply len32_fits.
Qed.
Lemma delete_remembers d t b t' : remembers32 t -> delete d t = Ok (b, t') -> remembers32 t'.
Proof.
  unfold remembers32, delete. intros R. destruct (root t) as [r|]; [|intros E; injection E as _ <-; exact R].
  destruct (negb _); try discriminate. destruct (get_node r (tstore t)) as [[p s]| |]; cbn [bind]; try discriminate.
  destruct (find d p s) as [[f s']| |]; cbn [bind]; try discriminate. destruct f; cbn [negb]; [|intros E; injection E as _ <-; exact R].
  destruct (is_leaf p); [intros E; injection E as _ <-; reflexivity|].
  destruct (node_remove d [] p s') as [[u s'']| |]; cbn [bind]; try discriminate. intros E. injection E as _ <-. exact R.
Qed.
Lemma root_hash_remembers H t h t' : remembers32 t -> root_hash H t = Ok (h, t') -> remembers32 t'.
Proof.
  unfold remembers32, root_hash. intros R. destruct (root t) as [r|]; [|intros E; injection E as _ <-; exact R].
  destruct (get_node r (tstore t)) as [[p s]| |]; cbn [bind]; try discriminate.
  match goal with |- bind ?c _ = _ -> _ => destruct c as [[p' s']| |] end; cbn [bind]; try discriminate. intros E. injection E as _ <-. exact R.
Qed.
Lemma step_remembers H m o t x t' : remembers32 t -> step H m o t = Ok (x, t') -> remembers32 t'.
Proof.
  intros R. destruct o as [k|k|]; cbn [step].
  - destruct (add m k t) as [[b s]| |] eqn:E; cbn [bind]; try discriminate. intros F. injection F as _ <-. exact (add_remembers m k t b s R E).
  - destruct (delete k t) as [[b s]| |] eqn:E; cbn [bind]; try discriminate. intros F. injection F as _ <-. exact (delete_remembers k t b s R E).
  - destruct (root_hash H t) as [[h s]| |] eqn:E; cbn [bind]; try discriminate. intros F. injection F as _ <-. exact (root_hash_remembers H t h s R E).
Qed.
Lemma run_remembers H m ops : forall t xs t', remembers32 t -> run H m ops t = Ok (xs, t') -> remembers32 t'.
Proof.
  induction ops as [|o r IH]; intros t xs t' R; cbn [run]; [intros E; injection E as _ <-; exact R|].
  destruct (step H m o t) as [[x s]| |] eqn:E; cbn [bind]; try discriminate. destruct (run H m r s) as [[ys s']| |] eqn:F; cbn [bind]; try discriminate.
  intros G. injection G as _ <-. exact (IH s ys s' (step_remembers H m o t x s R E) F).
Qed.

Lemma never_deleted H m ops xs t d : run H m ops new_trie = Ok (xs, t) -> 2 ^ 32 <= N.of_nat (length d) ->
  step H m (Delete d) t = Err ElementLengthMismatch \/ step H m (Delete d) t = Ok (RBool false, t).
Proof.
  intros E L. assert (R : remembers32 t) by exact (run_remembers H m ops new_trie xs t eq_refl E). cbn [step]. unfold delete.
  destruct (root t) as [r|]; [|right; reflexivity]. left.
  destruct (N.eqb_spec (N.of_nat (length d)) (element_length t)) as [A|A]; [|reflexivity]. unfold remembers32 in R. rewrite A in L. lia.
Qed.
Lemma long_key H m (d : bytes) : 2 ^ 32 <= N.of_nat (length d) ->
  exists t, run H m [Add d] new_trie = Ok ([RBool true], t) /\ step H m (Delete d) t = Err ElementLengthMismatch.
Proof.
  intros L. eexists. split; [reflexivity|]. cbn [step]. unfold delete. cbn [root element_length].
  destruct (N.eqb_spec (N.of_nat (length d)) (len32 d)) as [A|A]; [|reflexivity]. pose proof (len32_fits d). rewrite <- A in H0. lia.
Qed.
Lemma short_key H m (d : bytes) : hash32 H -> N.of_nat (length d) < 2 ^ 32 ->
  exists t, run H m [Add d; Delete d; Add d; RootHash; Delete d; RootHash] new_trie =
    Ok ([RBool true; RBool true; RBool true; RHash (set_root H (length d) [d]); RBool true; RHash zero32], t).
Proof.
  intros Hh L. destruct (set_behaviour_lemma H Hh m (length d) [Add d; Delete d; Add d; RootHash; Delete d; RootHash]) as [t E].
  - repeat (constructor; [cbn [key_length]; trivial|]). constructor.
  - split; [exact L|]. unfold two64. change (N.of_nat (length [Add d; Delete d; Add d; RootHash; Delete d; RootHash])) with 6. change (2 ^ 32) with 4294967296 in L. lia.
  - exists t. rewrite E. assert (B : bytes_eqb d d = true) by apply bytes_eqb_refl.
    assert (M : is_member d [d] = true) by (unfold is_member; cbn [existsb]; rewrite B; reflexivity).
    assert (R : remove_key d [d] = []) by (unfold remove_key; cbn [filter]; rewrite B; reflexivity).
    assert (M0 : is_member d [] = false) by reflexivity.
    repeat (cbn [expected expected_step members_step negb]; rewrite ?M0, ?M, ?R). reflexivity.
Qed.
Lemma find_leaf k b h st : find k (mkNode b h None) st = Ok (bytes_eqb k h, st).
Proof. destruct k; reflexivity. Qed.
Lemma lengths_confused H m (d k : bytes) : N.of_nat (length d) = N.of_nat (length k) + 2 ^ 32 -> N.of_nat (length d) < 2 ^ 64 -> N.of_nat (length k) < 2 ^ 32 ->
  exists t, run H m [Add d] new_trie = Ok ([RBool true], t) /\ exists t', step H m (Delete k) t = Ok (RBool false, t').
Proof.
  intros E U L. eexists. split; [reflexivity|]. cbn [step]. unfold delete. cbn [root element_length tstore].
  assert (R : len32 d = N.of_nat (length k)).
  { unfold len32. rewrite E. rewrite <- (N.mul_1_l (2 ^ 32)) at 1. rewrite N.mod_add by discriminate. apply N.mod_small. exact L. }
  rewrite R, N.eqb_refl. cbn [negb].
  assert (B : bytes_eqb k d = false) by (apply bytes_eqb_neq; intros ->; change (2 ^ 32) with 4294967296 in *; lia).
  unfold get_node, set_node. cbn [storage cache].
  assert (N0 : serialize (mkNode false d None) <> []) by (unfold serialize; destruct (write_varint _); cbn; [destruct d; discriminate|discriminate]).
  assert (D : deserialize (serialize (mkNode false d None)) = Some (mkNode false d None)).
  { apply (deserialize_serialize (mkNode false d None)). split; [cbn [nhash]; unfold u64, max64, two64 in *; change (2 ^ 64) with 18446744073709551616 in *; lia|exact Logic.I]. }
  unfold store_node. destruct (serialize (mkNode false d None)) as [|x r] eqn:S; [contradiction|].
  unfold upd. rewrite N.eqb_refl. rewrite D. cbn [bind]. rewrite find_leaf, B. cbn [bind negb]. eexists. reflexivity.
Qed.
