(** Proofs for TrieFaultProps: every failure is reported. *)
From Verif Require Import Base BaseFacts TrieModel TrieFaultModel TrieFaultSpec.

Definition spend (n : nat) (k : option nat) : option nat := option_map (fun j => j - n) k.
Definition sim_at {A} (a : act A) (o : outcome trie_error (A * store)) (st : store) : Prop :=
  exists n,
  (forall k, spared n k -> match o with
    | Ok (x, st') => a st k = (Ok x, st', spend n k)
    | Err e => exists st', a st k = (Err (Other e), st', spend n k)
    | Panic => exists st', a st k = (Panic, st', spend n k)
    end) /\
  forall j, j < n -> exists st', a st (Some j) = (Err StorageAccessFailed, st', Some O).
Definition sim {A} (a : act A) (f : store -> outcome trie_error (A * store)) : Prop := forall st, sim_at a (f st) st.

Lemma spend0 k : spend 0 k = k.
Proof. destruct k as [j|]; cbn; [rewrite Nat.sub_0_r|]; reflexivity. Qed.
Lemma sim_ret {A} (a : A) : sim (ret a) (fun st => Ok (a, st)).
Proof. intros st. exists 0. split; [intros k _; unfold ret; rewrite spend0; reflexivity|intros j L; inversion L]. Qed.
Lemma sim_panics {A} : sim (@panics A) (fun _ => Panic).
Proof. intros st. exists 0. split; [intros k _; exists st; unfold panics; rewrite spend0; reflexivity|intros j L; inversion L]. Qed.
Lemma sim_plain {A} (f : store -> outcome trie_error (A * store)) : sim (plain f) f.
Proof.
  intros st. exists 0. split; [|intros j L; inversion L]. intros k _. unfold plain. rewrite spend0.
  destruct (f st) as [[a st']|e|]; [reflexivity|exists st; reflexivity..].
Qed.
Lemma sim_access : sim access (fun st => Ok (tt, st)).
Proof.
  intros st. exists 1. split.
  - intros [[|j]|] L; cbn in *; [lia|rewrite Nat.sub_0_r|]; reflexivity.
  - intros [|j] L; [|lia]. exists st. reflexivity.
Qed.
Lemma sim_at_bind {A B} (a : act A) (b : A -> act B) o (g : A * store -> outcome trie_error (B * store)) st :
  sim_at a o st -> (forall x st', sim_at (b x) (g (x, st')) st') -> sim_at (andthen a b) (bind o g) st.
Proof.
  intros (n & S1 & S2) G. destruct o as [[x st']|e|].
  - cbn [bind]. destruct (G x st') as (n' & G1 & G2). exists (n + n'). split.
    + intros k Hk. assert (Hn : spared n k) by (destruct k; cbn in *; lia). assert (Hn' : spared n' (spend n k)) by (destruct k; cbn in *; lia).
      specialize (G1 _ Hn'). assert (E : spend n' (spend n k) = spend (n + n') k) by (destruct k; cbn; f_equal; lia). rewrite E in G1.
      unfold andthen. rewrite (S1 k Hn). exact G1.
    + intros j L. unfold andthen. destruct (Nat.lt_ge_cases j n) as [Q|Q].
      * destruct (S2 j Q) as (s & ->). exists s. reflexivity.
      * rewrite (S1 (Some j) Q). cbn [spend option_map]. apply G2. lia.
  - cbn [bind]. exists n. split.
    + intros k Hk. destruct (S1 k Hk) as (s & E). exists s. unfold andthen. rewrite E. reflexivity.
    + intros j L. destruct (S2 j L) as (s & E). exists s. unfold andthen. rewrite E. reflexivity.
  - cbn [bind]. exists n. split.
    + intros k Hk. destruct (S1 k Hk) as (s & E). exists s. unfold andthen. rewrite E. reflexivity.
    + intros j L. destruct (S2 j L) as (s & E). exists s. unfold andthen. rewrite E. reflexivity.
Qed.
Lemma sim_get id : sim (f_get id) (get_node id).
Proof. intros st. apply (sim_at_bind access _ (Ok (tt, st)) (fun x => get_node id (snd x))); [apply sim_access|]. intros x st'. apply sim_plain. Qed.
Lemma sim_set id n : sim (f_set id n) (fun st => Ok (tt, set_node id n st)).
Proof.
  intros st. exists 1. split.
  - intros [[|j]|] L; cbn in *; [lia|rewrite Nat.sub_0_r|]; reflexivity.
  - intros [|j] L; [|lia]. eexists. reflexivity.
Qed.
Lemma sim_remove id : sim (f_remove id) (fun st => Ok (tt, delete_node id st)).
Proof.
  intros st. exists 1. split.
  - intros [[|j]|] L; cbn in *; [lia|rewrite Nat.sub_0_r|]; reflexivity.
  - intros [|j] L; [|lia]. eexists. reflexivity.
Qed.
Lemma sim_allocate m : sim (f_allocate m) (allocate_new_node m).
Proof. apply sim_plain. Qed.
(** Steps that always succeed. *)
Lemma sim_then {A B} (a : act A) (b : A -> act B) x st1 o st :
  sim_at a (Ok (x, st1)) st -> sim_at (b x) o st1 -> sim_at (andthen a b) o st.
Proof.
  intros (n & S1 & S2) (n' & G1 & G2). exists (n + n'). split.
  - intros k Hk. assert (Hn : spared n k) by (destruct k; cbn in *; lia). assert (Hn' : spared n' (spend n k)) by (destruct k; cbn in *; lia).
    specialize (G1 _ Hn'). assert (E : spend n' (spend n k) = spend (n + n') k) by (destruct k; cbn; f_equal; lia). rewrite E in G1.
    unfold andthen. rewrite (S1 k Hn). exact G1.
  - intros j L. unfold andthen. destruct (Nat.lt_ge_cases j n) as [Q|Q].
    + destruct (S2 j Q) as (s & ->). exists s. reflexivity.
    + rewrite (S1 (Some j) Q). cbn [spend option_map]. apply G2. lia.
Qed.
Lemma then_set {B} id n (b : unit -> act B) o st : sim_at (b tt) o (set_node id n st) -> sim_at (andthen (f_set id n) b) o st.
Proof. apply sim_then. apply (sim_set id n st). Qed.
Lemma then_remove {B} id (b : unit -> act B) o st : sim_at (b tt) o (delete_node id st) -> sim_at (andthen (f_remove id) b) o st.
Proof. apply sim_then. apply (sim_remove id st). Qed.

Lemma sim_find : forall d self, sim (f_find d self) (find d self).
Proof.
  induction d as [|b d IH]; intros self st; cbn [f_find find]; (destruct (children self) as [cs|]; [|apply sim_ret]); [apply sim_panics|].
  destruct (nth_error cs (idx b)) as [[id|]|]; [|apply sim_ret|apply sim_panics].
  apply sim_at_bind; [apply sim_get|]. intros x st'. apply IH.
Qed.
Lemma sim_chain m d path : forall i id, sim (f_parent_chain m d path i id) (parent_chain m d path i id).
Proof.
  induction i as [|i IH]; intros id st; cbn [f_parent_chain parent_chain]; [apply sim_ret|].
  destruct (nth_error d i) as [b|]; [|apply sim_panics]. apply sim_at_bind; [apply sim_allocate|]. intros [x id2] st'. apply then_set, IH.
Qed.
Lemma sim_split m d path self : sim (f_split_leaf m d path self) (split_leaf m d path self).
Proof.
  intros st. unfold f_split_leaf, split_leaf. destruct (first_diff _ _) as [i|]; [|apply sim_panics].
  destruct (nth_error d i); [|apply sim_panics]. destruct (nth_error (nhash self) i); [|apply sim_panics].
  apply sim_at_bind; [apply sim_allocate|]. intros [x1 id1] st1. apply then_set.
  apply sim_at_bind; [apply sim_allocate|]. intros [x2 id2] st2. apply then_set.
  apply sim_at_bind; [apply sim_allocate|]. intros [x3 id3] st3. apply then_set. apply sim_chain.
Qed.
Lemma sim_add m : forall d path self, sim (f_node_add m d path self) (node_add m d path self).
Proof.
  induction d as [|b d IH]; intros path self st; cbn [f_node_add node_add]; (destruct (children self) as [cs|]; [|apply sim_split]); [apply sim_panics|].
  destruct (nth_error cs (idx b)) as [[id|]|]; [| |apply sim_panics].
  - apply sim_at_bind; [apply sim_get|]. intros x st1. apply sim_at_bind; [apply IH|]. intros y st2. apply then_set, sim_ret.
  - apply sim_at_bind; [apply sim_allocate|]. intros [x id1] st1. apply then_set. apply sim_at_bind; [apply sim_allocate|]. intros [y id2] st2. apply then_set, sim_ret.
Qed.
Lemma sim_node_remove : forall d path self, sim (f_node_remove d path self) (node_remove d path self).
Proof.
  induction d as [|b d IH]; intros path self st; cbn [f_node_remove node_remove]; (destruct (children self) as [cs|]; [|apply sim_panics]); [apply sim_panics|].
  destruct (nth_error cs (idx b)) as [[id|]|]; [|apply sim_panics..].
  apply sim_at_bind; [apply sim_get|]. intros x st1. apply sim_at_bind.
  { destruct (is_leaf x); [apply sim_ret|]. apply sim_at_bind; [apply IH|]. intros y st2. apply sim_ret. }
  intros cs' st2. destruct (scan_children 0 cs' _) as [[hi ci] num]. apply sim_at_bind.
  { destruct (num =? 1)%N; [|apply sim_ret]. apply sim_at_bind; [apply sim_get|]. intros y st3. destruct (is_leaf y); [|apply sim_ret]. apply then_remove, sim_ret. }
  intros y st3. apply then_set, sim_ret.
Qed.
Lemma sim_accumulate : forall cs i, sim (f_accumulate i cs) (accumulate i cs).
Proof.
  induction cs as [|[id|] cs IH]; intros i st; cbn [f_accumulate accumulate]; [apply sim_ret| |apply IH].
  apply sim_at_bind; [apply sim_get|]. intros x st1. apply sim_at_bind; [apply IH|]. intros y st2. apply sim_ret.
Qed.
Definition with_tt (o : outcome trie_error store) : outcome trie_error (unit * store) := bind o (fun st => Ok (tt, st)).
Lemma sim_hash_children rec frec (R : forall n, sim (frec n) (rec n)) : forall cs, sim (f_hash_children frec cs) (fun st => with_tt (hash_children rec cs st)).
Proof.
  induction cs as [|[id|] cs IH]; intros st; cbn [f_hash_children hash_children]; [apply sim_ret| |apply IH].
  pose proof (sim_at_bind (f_get id) (fun child => if negb (is_leaf child) && dirty child then do child' <- frec child; do _ <- f_set id child'; f_hash_children frec cs else f_hash_children frec cs)
    (get_node id st) (fun '(child, st) => with_tt (if negb (is_leaf child) && dirty child then let? (child', st) := rec child st in hash_children rec cs (set_node id child' st) else hash_children rec cs st)%outcome) st (sim_get id st)) as X.
  replace (with_tt _) with (bind (get_node id st) (fun '(child, st) => with_tt (if negb (is_leaf child) && dirty child then let? (child', st) := rec child st in hash_children rec cs (set_node id child' st) else hash_children rec cs st)%outcome))
    by (destruct (get_node id st) as [[? ?]|?|]; reflexivity).
  apply X. clear X. intros child st1. destruct (negb (is_leaf child) && dirty child); [|apply IH].
  replace (with_tt _) with (bind (rec child st1) (fun '(child', st) => with_tt (hash_children rec cs (set_node id child' st)))) by (destruct (rec child st1) as [[? ?]|?|]; reflexivity).
  apply sim_at_bind; [apply R|]. intros y st2. apply then_set. apply IH.
Qed.
Lemma sim_calculate H : forall fuel self, sim (f_calculate_hash H fuel self) (calculate_hash H fuel self).
Proof.
  induction fuel as [|f IH]; intros self st; cbn [f_calculate_hash calculate_hash]; [apply sim_panics|].
  destruct (children self) as [cs|]; [|apply sim_ret]. destruct (negb (dirty self)); [apply sim_ret|].
  pose proof (sim_hash_children _ _ IH cs st) as X.
  match goal with |- sim_at (andthen ?a ?b) (bind ?o ?g) st => replace (bind o g) with (bind (with_tt o) (fun x : unit * store => g (snd x))) by (destruct o; reflexivity) end.
  apply sim_at_bind; [exact X|]. intros [] st1. cbn [snd]. apply sim_at_bind; [apply sim_accumulate|]. intros y st2. apply sim_ret.
Qed.
(** A call without faults. *)
Definition pure_call (H : bytes -> bytes) (m : mode) (o : op) (t : trie) : outcome trie_error (result * option N * N * store) :=
  match step H m o t with Ok (x, t') => Ok (x, root t', element_length t', tstore t') | Err e => Err e | Panic => Panic end.
Lemma bind_match {A B C} (o : outcome trie_error A) (f : A -> outcome trie_error B) (g : B -> outcome trie_error C) : bind (bind o f) g = bind o (fun a => bind (f a) g).
Proof. destruct o; reflexivity. Qed.
Definition repack {A} (o : outcome trie_error (A * trie)) : outcome trie_error (A * option N * N * store) :=
  bind o (fun '(x, t') => Ok (x, root t', element_length t', tstore t')).
Lemma pure_repack H m o t : pure_call H m o t = repack (step H m o t).
Proof. unfold pure_call, repack. destruct (step H m o t) as [[? ?]|?|]; reflexivity. Qed.
Lemma sim_call H m o t : ~ ((exists d, o = Add d) /\ root t = None) -> sim_at (f_call H m o t) (pure_call H m o t) (tstore t).
Proof.
  intros NA. rewrite pure_repack. unfold f_call, step, repack.
  destruct o as [d|d|]; rewrite !bind_match.
  - unfold add. destruct (root t) as [r|] eqn:Rt; [|exfalso; apply NA; split; [exists d; reflexivity|reflexivity]]. rewrite !bind_match.
    apply sim_at_bind; [apply sim_get|]. intros p st1. rewrite !bind_match. apply sim_at_bind; [apply sim_find|]. intros [|] st2.
    + cbn [bind root tstore element_length]. apply (sim_ret (RBool false, Some r, element_length t) st2).
    + rewrite !bind_match. apply sim_at_bind; [apply sim_add|]. intros u st3. cbn [bind root tstore element_length]. apply then_remove.
      apply (sim_ret (RBool true, Some u, element_length t)).
  - unfold delete. destruct (root t) as [r|] eqn:Rt.
    2:{ cbn [bind]. rewrite Rt. apply (sim_ret (RBool false, None, element_length t) (tstore t)). }
    destruct (negb _). { cbn [bind]. apply (sim_plain (fun _ : store => Err ElementLengthMismatch) (tstore t)). }
    rewrite !bind_match.
    apply sim_at_bind; [apply sim_get|]. intros p st1. rewrite !bind_match. apply sim_at_bind; [apply sim_find|]. intros [|] st2; cbn [negb].
    + destruct (is_leaf p).
      * cbn [bind root tstore element_length]. apply then_remove. apply (sim_ret (RBool true, None, 0%N)).
      * rewrite !bind_match. apply sim_at_bind; [apply sim_node_remove|]. intros u st3. cbn [bind root tstore element_length]. apply then_remove.
        apply (sim_ret (RBool true, Some u, element_length t)).
    + cbn [bind root tstore element_length]. apply (sim_ret (RBool false, Some r, element_length t) st2).
  - unfold root_hash. destruct (root t) as [r|] eqn:Rt.
    2:{ cbn [bind]. rewrite Rt. apply (sim_ret (RHash zero32, None, element_length t) (tstore t)). }
    rewrite !bind_match. apply sim_at_bind; [apply sim_get|]. intros p st1. rewrite !bind_match. apply sim_at_bind; [apply sim_calculate|]. intros u st2.
    cbn [bind root tstore element_length]. apply then_set. apply (sim_ret (RHash _, Some r, element_length t)).
Qed.
Lemma first_add_fault H m d t : root t = None ->
  exists n, (forall k, spared n k -> unharmed (step H m (Add d) t) (f_step H m (Add d) t k)) /\
    forall j, j < n -> fst (f_step H m (Add d) t (Some j)) = Panic.
Proof.
  intros Rt. unfold f_step, f_call, step, add. rewrite Rt. unfold f_allocate, plain, andthen at 1.
  destruct (allocate_new_node m (tstore t)) as [[[nd id] st1]|e|] eqn:A; cbn [bind].
  - exists 1. split.
    + intros [[|j]|] L; cbn in L; [lia| |]; reflexivity.
    + intros [|j] L; [|lia]. unfold andthen at 1. rewrite A. reflexivity.
  - unfold allocate_new_node in A. destruct (add64 _ _ _); discriminate.
  - exists 0. split; [intros k _; reflexivity|intros j L; inversion L].
Qed.
Lemma reported_lemma H m o t : exists n,
  (forall k, spared n k -> unharmed (step H m o t) (f_step H m o t k)) /\
  forall j, j < n -> fst (f_step H m o t (Some j)) = Err StorageAccessFailed \/ (fst (f_step H m o t (Some j)) = Panic /\ root t = None).
Proof.
  assert (D : ((exists d, o = Add d) /\ root t = None) \/ ~ ((exists d, o = Add d) /\ root t = None)).
  { destruct o as [d|d|]; [|right; intros [[? ?] _]; discriminate..]. destruct (root t); [right; intros [_ ?]; discriminate|left; eauto]. }
  destruct D as [[[d ->] Rt]|NA].
  - destruct (first_add_fault H m d t Rt) as (n & A & B). exists n. split; [exact A|]. intros j L. right. auto.
  - destruct (sim_call H m o t NA) as (n & A & B). exists n. split.
    + intros k Hk. specialize (A k Hk). unfold pure_call in A. unfold f_step, unharmed. destruct (step H m o t) as [[x [r s l]]|e|].
      * rewrite A. reflexivity.
      * destruct A as (s & ->). reflexivity.
      * destruct A as (s & ->). reflexivity.
    + intros j L. left. destruct (B j L) as (s & E). unfold f_step. rewrite E. reflexivity.
Qed.
