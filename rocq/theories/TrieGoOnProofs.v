From Verif Require Import Base BaseFacts TrieModel TrieSpec TrieCodecProofs TrieProofs TrieRefine TrieBind TrieAny TrieGoOnModel TrieGoOnSpec.

Lemma step_gen H (Hlen : hash32 H) m n o t S L : stands H n L t S -> NoDup S -> key_upto n o -> (N.of_nat n < 2 ^ 32)%N ->
  (next_node_id (tstore t) + N.of_nat n + 3 < two64)%N ->
  match ref_step H S L o with
  | Ok (x, (S', L')) => exists t', step H m o t = Ok (x, t') /\ stands H n L' t' S' /\ (next_node_id (tstore t') <= next_node_id (tstore t) + N.of_nat n + 3)%N
  | Err e => step H m o t = Err e
  | Panic => step H m o t = Panic
  end.
Proof.
  intros R Hn Ho Hb Hc. destruct o as [k|k|]; cbn [ref_step step].
  - pose proof (add_gen H m n L k t S R Ho Hb) as A. destruct (ref_add S L k) as [[b [S' L']]|e|]; cbn [bind]; specialize (A Hc).
    + destruct A as (t' & E & R' & B). rewrite E. cbn [bind]. eauto.
    + rewrite A. reflexivity.
    + rewrite A. reflexivity.
  - pose proof (delete_gen H n L k t S R Hn Hb) as A. destruct (ref_delete S L k) as [[b [S' L']]|e|]; cbn [bind];
      (assert (Hc' : (next_node_id (tstore t) <= two64)%N) by lia); specialize (A Hc').
    + destruct A as (t' & E & R' & B). rewrite E. cbn [bind]. exists t'. repeat split; [exact R'|lia].
    + rewrite A. reflexivity.
    + rewrite A. reflexivity.
  - destruct (root_gen H Hlen n L (longest S) t S R Hn (longest_bound S)) as (t' & E & R' & B). rewrite E. cbn [bind]. exists t'. repeat split; [exact R'|lia].
Qed.
Lemma ref_err H S L o e : ref_step H S L o = Err e -> e = ElementLengthMismatch.
Proof.
  destruct o as [k|k|]; cbn [ref_step].
  - unfold ref_add. destruct (is_member k S); [discriminate|]. destruct S; [discriminate|]. destruct (existsb _ _); discriminate.
  - unfold ref_delete. destruct S; [discriminate|]. destruct (negb _); [cbn; congruence|]. destruct (is_member _ _); [discriminate|]. destruct (2 <=? _)%nat; discriminate.
  - discriminate.
Qed.
Lemma go_on_gen H (Hlen : hash32 H) m n ops : forall t S L, stands H n L t S -> NoDup S -> prefix_free S -> Forall (key_upto n) ops -> (N.of_nat n < 2 ^ 32)%N ->
  (next_node_id (tstore t) + N.of_nat (length ops) * (N.of_nat n + 3) < two64)%N -> run_on H m ops t = ref_run_on H ops S L.
Proof.
  induction ops as [|o ops IH]; intros t S L R Hn Hp Hk Hb Hc; cbn [run_on ref_run_on]; [reflexivity|].
  pose proof (Forall_inv Hk) as Ho. apply Forall_inv_tail in Hk. cbn [length] in Hc. assert (Hc1 : (next_node_id (tstore t) + N.of_nat n + 3 < two64)%N) by lia.
  pose proof (step_gen H Hlen m n o t S L R Hn Ho Hb Hc1) as St. destruct (ref_step H S L o) as [[x [S' L']]|e|] eqn:Es.
  - destruct St as (t' & E & R' & B). rewrite E. f_equal. destruct (ref_step_nodup H S L o x S' L' Hn Hp Es) as [Hn' Hp']. apply IH; try assumption. lia.
  - rewrite St. pose proof (ref_err H S L o e Es). subst e. f_equal. apply IH; try assumption. lia.
  - rewrite St. reflexivity.
Qed.
Lemma go_on_lemma H (Hlen : hash32 H) m n ops : Forall (key_upto n) ops -> small_history n ops -> run_on H m ops new_trie = ref_run_on H ops [] 0.
Proof.
  intros Hk [Hb Hs]. apply (go_on_gen H Hlen m n ops new_trie [] 0 (new_stands H n 0) (NoDup_nil _) free_nil Hk Hb). cbn [new_trie tstore new_store next_node_id]. lia.
Qed.
