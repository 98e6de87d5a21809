(** Histories with keys of any lengths. *)
From Verif Require Import Base BaseFacts TrieModel TrieSpec TrieCodecProofs TrieProofs TrieRefine TrieBind.

Lemma longest_bound S k : In k S -> (length k <= longest S)%nat.
Proof. induction S as [|x S IH]; cbn [In longest fold_right]; [intros []|]. intros [<- |Hk]; [lia|]. specialize (IH Hk). unfold longest in IH. lia. Qed.

Lemma ref_step_nodup H S L o x S' L' : NoDup S -> prefix_free S -> ref_step H S L o = Ok (x, (S', L')) -> NoDup S' /\ prefix_free S'.
Proof.
  intros Hn Hp. destruct o as [k|k|]; cbn [ref_step].
  - unfold ref_add. destruct (member_iff k S) as [Hin|Hin]; [cbn [bind]; intros E; injection E as <- <- <-; auto|].
    destruct S as [|y S].
    { cbn [bind]. intros E; injection E as <- <- <-. split; [repeat constructor; intros []|]. intros a b [<- |[]] [<- |[]]; reflexivity. }
    destruct (existsb _ _) eqn:Ex; cbn [bind]; [discriminate|]. intros E; injection E as <- <- <-. split; [constructor; assumption|].
    assert (Q : forall a, In a (y :: S) -> ~ comparable a k).
    { intros a Ha C. assert (existsb (fun x => begins_with k x || begins_with x k) (y :: S) = true); [|congruence].
      apply existsb_exists. exists a. split; [exact Ha|]. apply clash_spec. exact C. }
    assert (Sy : forall a b, comparable a b -> comparable b a) by (unfold comparable; tauto).
    intros a b [<- |Ha] [<- |Hb] C; [reflexivity| | |apply Hp; assumption]; exfalso; [apply (Q b Hb), Sy, C|apply (Q a Ha), C].
  - unfold ref_delete. destruct S as [|y S]; [cbn [bind]; intros E; injection E as <- <- <-; auto|].
    set (T := y :: S) in *. clearbody T. destruct (negb _); [discriminate|]. destruct (member_iff k T) as [Hin|Hin].
    + cbn [bind]. intros E; injection E as <- <- <-. split; [apply NoDup_filter; exact Hn|].
      intros a b Ha Hb. apply in_remove_key in Ha as [Ha _]. apply in_remove_key in Hb as [Hb _]. apply Hp; assumption.
    + destruct (2 <=? _)%nat; cbn [bind]; [discriminate|]. intros E; injection E as <- <- <-. auto.
  - intros E; injection E as <- <- <-. auto.
Qed.

Lemma run_gen H (Hlen : hash32 H) m n ops : forall t S L,
  stands H n L t S -> NoDup S -> prefix_free S -> Forall (key_upto n) ops -> (N.of_nat n < 2 ^ 32)%N ->
  (next_node_id (tstore t) + N.of_nat (length ops) * (N.of_nat n + 3) < two64)%N ->
  match ref_run H ops S L with
  | Ok (xs, S') => exists t' L', run H m ops t = Ok (xs, t') /\ stands H n L' t' S' /\ NoDup S' /\ prefix_free S'
  | Err e => run H m ops t = Err e
  | Panic => run H m ops t = Panic
  end.
Proof.
  induction ops as [|o ops IH]; intros t S L R Hn Hp Hk Hb Hc; cbn [ref_run run].
  - exists t, L. auto.
  - pose proof (Forall_inv Hk) as Ho. apply Forall_inv_tail in Hk. cbn [length] in Hc.
    assert (St : match ref_step H S L o with
                 | Ok (x, (S', L')) => exists t', step H m o t = Ok (x, t') /\ stands H n L' t' S' /\
                     (next_node_id (tstore t') <= next_node_id (tstore t) + N.of_nat n + 3)%N
                 | Err e => step H m o t = Err e
                 | Panic => step H m o t = Panic
                 end).
    { destruct o as [k|k|]; cbn [ref_step step].
      - pose proof (add_gen H m n L k t S R Ho Hb) as A. destruct (ref_add S L k) as [[b [S' L']]|e|]; cbn [bind];
          (assert (Hc' : (next_node_id (tstore t) + N.of_nat n + 3 < two64)%N) by lia); specialize (A Hc').
        + destruct A as (t' & E & R' & B). rewrite E. cbn [bind]. eauto.
        + rewrite A. reflexivity.
        + rewrite A. reflexivity.
      - pose proof (delete_gen H n L k t S R Hn Hb) as A. destruct (ref_delete S L k) as [[b [S' L']]|e|]; cbn [bind];
          (assert (Hc' : (next_node_id (tstore t) <= two64)%N) by lia); specialize (A Hc').
        + destruct A as (t' & E & R' & B). rewrite E. cbn [bind]. exists t'. repeat split; [exact R'|lia].
        + rewrite A. reflexivity.
        + rewrite A. reflexivity.
      - destruct (root_gen H Hlen n L (longest S) t S R Hn (longest_bound S)) as (t' & E & R' & B). rewrite E. cbn [bind].
        exists t'. repeat split; [exact R'|lia]. }
    destruct (ref_step H S L o) as [[x [S' L']]|e|] eqn:Es; cbn [bind].
    + destruct St as (t' & E & R' & B). rewrite E. cbn [bind]. destruct (ref_step_nodup H S L o x S' L' Hn Hp Es) as [Hn' Hp'].
      specialize (IH t' S' L' R' Hn' Hp' Hk Hb). destruct (ref_run H ops S' L') as [[xs S'']|e|]; cbn [bind];
        (match type of IH with ?P -> _ => assert (Hc' : P) by lia end); specialize (IH Hc').
      * destruct IH as (t2 & L2 & E2 & R2 & N2 & P2). rewrite E2. cbn [bind]. exists t2, L2. auto.
      * rewrite IH. reflexivity.
      * rewrite IH. reflexivity.
    + rewrite St. reflexivity.
    + rewrite St. reflexivity.
Qed.

Lemma free_nil : prefix_free [].
Proof. intros a b []. Qed.

Lemma any_history H (Hlen : hash32 H) m n ops : Forall (key_upto n) ops -> small_history n ops ->
  match ref_run H ops [] 0 with
  | Ok (xs, S') => exists t' L', run H m ops new_trie = Ok (xs, t') /\ stands H n L' t' S' /\ NoDup S' /\ prefix_free S'
  | Err e => run H m ops new_trie = Err e
  | Panic => run H m ops new_trie = Panic
  end.
Proof.
  intros Hk [Hb Hs]. apply (run_gen H Hlen m n ops new_trie [] 0 (new_stands H n 0) (NoDup_nil _) free_nil Hk Hb).
  cbn [new_trie tstore new_store next_node_id]. lia.
Qed.

Lemma any_behaviour_lemma H (Hlen : hash32 H) m n ops : Forall (key_upto n) ops -> small_history n ops ->
  match ref_run H ops [] 0 with
  | Ok (xs, _) => exists t, run H m ops new_trie = Ok (xs, t)
  | Err e => run H m ops new_trie = Err e
  | Panic => run H m ops new_trie = Panic
  end.
Proof.
  intros Hk Hs. pose proof (any_history H Hlen m n ops Hk Hs) as A. destruct (ref_run H ops [] 0) as [[xs S]|e|]; [|exact A|exact A].
  destruct A as (t & L & E & _). eauto.
Qed.

Lemma any_state H (Hlen : hash32 H) m n ops xs S : Forall (key_upto n) ops -> small_history n ops -> ref_run H ops [] 0 = Ok (xs, S) ->
  exists t L, run H m ops new_trie = Ok (xs, t) /\ stands H n L t S /\ NoDup S /\ prefix_free S.
Proof. intros Hk Hs E. pose proof (any_history H Hlen m n ops Hk Hs) as A. rewrite E in A. exact A. Qed.

Lemma stands_bound H n L t S : stands H n L t S -> forall k, In k S -> (length k <= n)%nat.
Proof.
  unfold stands. destruct (root t); [|intros [-> _] k []]. intros (pt & _ & G & Hm & _) k Hk. apply Hm in Hk. exact (mem_length _ _ _ _ _ _ G Hk).
Qed.

Lemma any_root_lemma H (Hlen : hash32 H) m m' n n' ops ops' xs xs' S S' :
  Forall (key_upto n) ops -> small_history n ops -> Forall (key_upto n') ops' -> small_history n' ops' ->
  ref_run H ops [] 0 = Ok (xs, S) -> ref_run H ops' [] 0 = Ok (xs', S') -> (forall k, In k S <-> In k S') ->
  exists t t' h t1 t1', run H m ops new_trie = Ok (xs, t) /\ run H m' ops' new_trie = Ok (xs', t') /\
    root_hash H t = Ok (h, t1) /\ root_hash H t' = Ok (h, t1').
Proof.
  intros Hk Hs Hk' Hs' E E' Hm.
  destruct (any_state H Hlen m n ops xs S Hk Hs E) as (t & L & R & G & Hn & _).
  destruct (any_state H Hlen m' n' ops' xs' S' Hk' Hs' E') as (t' & L' & R' & G' & Hn' & _).
  destruct (root_gen H Hlen n L n t S G Hn (stands_bound _ _ _ _ _ G)) as (t1 & E1 & _).
  destruct (root_gen H Hlen n' L' n t' S' G' Hn') as (t1' & E1' & _).
  { intros k Hk1. apply (stands_bound _ _ _ _ _ G). apply Hm. exact Hk1. }
  exists t, t', (set_root H n S), t1, t1'. repeat split; try assumption.
  rewrite E1'. f_equal. f_equal. symmetry. apply set_root_ext; assumption.
Qed.

Lemma any_commits_lemma H (Hlen : hash32 H) m m' n ops ops' xs xs' S S' t t' h t1 t1' :
  (n <= 256)%nat ->
  Forall (key_upto n) ops -> small_history n ops -> Forall (key_upto n) ops' -> small_history n ops' ->
  ref_run H ops [] 0 = Ok (xs, S) -> ref_run H ops' [] 0 = Ok (xs', S') ->
  run H m ops new_trie = Ok (xs, t) -> run H m' ops' new_trie = Ok (xs', t') ->
  root_hash H t = Ok (h, t1) -> root_hash H t' = Ok (h, t1') ->
  (forall k, In k S <-> In k S') \/
  collision_in H (root_strings H n S) (root_strings H n S') \/
  zero_preimage_in H (root_strings H n S ++ root_strings H n S').
Proof.
  intros Hb Hk Hs Hk' Hs' E E' R R' Q Q'.
  destruct (any_state H Hlen m n ops xs S Hk Hs E) as (t0 & L & R0 & G & Hn & Hp). assert (t0 = t) as -> by congruence.
  destruct (any_state H Hlen m' n ops' xs' S' Hk' Hs' E') as (t0' & L' & R0' & G' & Hn' & Hp'). assert (t0' = t') as -> by congruence.
  destruct (root_gen H Hlen n L n t S G Hn (stands_bound _ _ _ _ _ G)) as (t2 & E1 & _).
  destruct (root_gen H Hlen n L' n t' S' G' Hn' (stands_bound _ _ _ _ _ G')) as (t2' & E1' & _).
  apply root_binds_any; try assumption; try (apply Forall_forall; eapply stands_bound; eassumption). congruence.
Qed.

Lemma any_storage_lemma H (Hlen : hash32 H) m n ops xs S :
  Forall (key_upto n) ops -> small_history n ops -> ref_run H ops [] 0 = Ok (xs, S) ->
  exists t, run H m ops new_trie = Ok (xs, t) /\
    (forall id, storage (tstore t) id <> None <->
                exists r, root t = Some r /\ reachable (storage (tstore t)) r id) /\
    (forall p b p' b' c, child (storage (tstore t)) p b c -> child (storage (tstore t)) p' b' c ->
        root t <> Some c /\ p = p' /\ b = b') /\
    (S = [] <-> forall id, storage (tstore t) id = None).
Proof.
  intros Hk Hs E. destruct (any_state H Hlen m n ops xs S Hk Hs E) as (t & L & R & G & _). exists t. split; [exact R|].
  exact (stands_storage _ _ _ _ _ G).
Qed.

(** A key whose length differs from that of the first key stays: no deletion removes it while another key is there. *)
Lemma any_free_lemma H (Hlen : hash32 H) n ops xs S :
  Forall (key_upto n) ops -> small_history n ops -> ref_run H ops [] 0 = Ok (xs, S) -> NoDup S /\ prefix_free S.
Proof. intros Hk Hs E. destruct (any_state H Hlen Debug n ops xs S Hk Hs E) as (t & L & _ & _ & A). exact A. Qed.
