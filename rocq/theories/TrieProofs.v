(** Proofs about the Merkle trie. *)
From Verif Require Import Base BaseFacts TrieModel TrieSpec TrieCodecProofs.
From Coq Require FinFun.

(** ** Cells of the store *)

Definition agree (st : store) (id : N) (n : node) : Prop :=
  cache st id = Some n /\ storage st id = Some (serialize n) /\ node_ok n.

Definition same_at (st st' : store) (x : N) : Prop :=
  cache st' x = cache st x /\ storage st' x = storage st x.

Lemma same_refl st x : same_at st st x.
Proof. split; reflexivity. Qed.
Lemma same_trans a b c x : same_at a b x -> same_at b c x -> same_at a c x.
Proof. unfold same_at. intros [? ?] [? ?]. split; congruence. Qed.

Lemma agree_same st st' x n : same_at st st' x -> agree st x n -> agree st' x n.
Proof. intros [E1 E2] (A & B & C). repeat split; try congruence; apply C. Qed.

Lemma serialize_nonempty n : serialize n <> [].
Proof.
  unfold serialize. pose proof (write_varint_nonempty (N.of_nat (length (nhash n)))).
  destruct (write_varint _); [contradiction|discriminate].
Qed.

Lemma get_agree st id n : agree st id n -> get_node id st = Ok (n, st).
Proof.
  intros (A & B & C). unfold get_node. rewrite B, deserialize_serialize by exact C.
  rewrite A. reflexivity.
Qed.

Lemma upd_eq {A} f k (v : option A) : upd f k v k = v.
Proof. unfold upd. rewrite N.eqb_refl. reflexivity. Qed.
Lemma upd_neq {A} f k (v : option A) x : x <> k -> upd f k v x = f x.
Proof. unfold upd. intros Hx. destruct (N.eqb_spec x k); [contradiction|reflexivity]. Qed.

Lemma set_agree st id n : node_ok n -> agree (set_node id n st) id n.
Proof.
  intros Hn. unfold agree, set_node, store_node. cbn [cache storage]. rewrite !upd_eq.
  pose proof (serialize_nonempty n). destruct (serialize n); [contradiction|]. auto.
Qed.

Lemma set_same st id n x : x <> id -> same_at st (set_node id n st) x.
Proof. intros Hx. unfold same_at, set_node, store_node. cbn. rewrite !upd_neq by exact Hx. auto. Qed.

Lemma delete_same st id x : x <> id -> same_at st (delete_node id st) x.
Proof. intros Hx. unfold same_at, delete_node, store_node. cbn. rewrite !upd_neq by exact Hx. auto. Qed.

Lemma delete_absent st id : storage (delete_node id st) id = None.
Proof. unfold delete_node, store_node. cbn. apply upd_eq. Qed.

Lemma allocate_spec m st :
  (next_node_id st + 1 < two64)%N ->
  exists st', allocate_new_node m st = Ok (default_node, next_node_id st, st') /\
    next_node_id st' = (next_node_id st + 1)%N /\
    (forall x, x <> next_node_id st -> same_at st st' x).
Proof.
  intros Hn. unfold allocate_new_node, add64.
  destruct (N.ltb_spec (next_node_id st + 1) two64) as [_|?]; [|lia].
  eexists; split; [reflexivity|]. split; [reflexivity|].
  intros x Hx. split; cbn; [apply upd_neq; exact Hx|reflexivity].
Qed.

(** ** Shapes of the trie *)

(** A trie with node identifiers and dirty flags. *)
Inductive ptree :=
| PLeaf (id : N) (s : bytes)
| PNode (id : N) (d : bool) (cs : list (option ptree)).

Definition pid (t : ptree) : N := match t with PLeaf id _ => id | PNode id _ _ => id end.
Definition pleaf (t : ptree) : bool := match t with PLeaf _ _ => true | PNode _ _ _ => false end.
Definition pclean (t : ptree) : Prop :=
  match t with PLeaf _ _ => True | PNode _ d _ => d = false end.

Definition has (cs : list (option ptree)) (i : nat) (c : ptree) : Prop :=
  nth_error cs i = Some (Some c).

Inductive mem : ptree -> bytes -> Prop :=
| mem_leaf id s : mem (PLeaf id s) s
| mem_child id d cs b c k : has cs (idx b) c -> mem c k -> mem (PNode id d cs) (b :: k).

Inductive own : ptree -> N -> Prop :=
| own_leaf id s : own (PLeaf id s) id
| own_root id d cs : own (PNode id d cs) id
| own_child id d cs i c x : has cs i c -> own c x -> own (PNode id d cs) x.

Lemma own_pid t : own t (pid t).
Proof. destruct t; constructor. Qed.

Definition entry (leaf : bool) (i : nat) (h : bytes) : bytes :=
  (if leaf then x00 else x01) :: b8 (N.of_nat (length h)) :: b8 (N.of_nat i) :: h.

Section Hash.
Variable H : bytes -> bytes.
Hypothesis Hlen : hash32 H.

(** The label of a subtree once all its hashes are computed. *)
Fixpoint digest (path : bytes) (t : ptree) : bytes :=
  match t with
  | PLeaf _ s => s
  | PNode _ _ cs =>
      H (b8 (N.of_nat (length path)) :: path ++
         (fix go (i : nat) (cs : list (option ptree)) : bytes :=
            match cs with
            | [] => []
            | None :: r => go (S i) r
            | Some c :: r => entry (pleaf c) i (digest (path ++ [b8 (N.of_nat i)]) c) ++ go (S i) r
            end) 0%nat cs)
  end.

Fixpoint children_string (path : bytes) (i : nat) (cs : list (option ptree)) : bytes :=
  match cs with
  | [] => []
  | None :: r => children_string path (S i) r
  | Some c :: r =>
      entry (pleaf c) i (digest (path ++ [b8 (N.of_nat i)]) c) ++ children_string path (S i) r
  end.

Lemma digest_node path id d cs :
  digest path (PNode id d cs) =
  H (b8 (N.of_nat (length path)) :: path ++ children_string path 0 cs).
Proof.
  cbn [digest]. do 3 f_equal. generalize 0%nat.
  induction cs as [|[c|] cs IH]; intros i; cbn; rewrite ?IH; reflexivity.
Qed.

(** The cell that represents the root of a subtree. *)
Definition cell (path : bytes) (t : ptree) : node :=
  match t with
  | PLeaf _ s => mkNode false s None
  | PNode _ d cs => mkNode d (if d then path else digest path t) (Some (map (option_map pid) cs))
  end.

Definition two_members (t : ptree) : Prop := exists k1 k2, mem t k1 /\ mem t k2 /\ k1 <> k2.

(** The store represents the subtree [t] holding keys of at most [n] bytes below [path]. *)
Inductive good (st : store) : nat -> bytes -> ptree -> Prop :=
| good_leaf n path id s :
    (length s <= n)%nat -> agree st id (cell path (PLeaf id s)) -> good st n path (PLeaf id s)
| good_node n path id d cs :
    length cs = 256%nat ->
    agree st id (cell path (PNode id d cs)) ->
    (forall i c, has cs i c -> good st n (path ++ [b8 (N.of_nat i)]) c) ->
    (forall i c, has cs i c -> ~ own c id) ->
    (forall i j c c' x, has cs i c -> has cs j c' -> own c x -> own c' x -> i = j) ->
    two_members (PNode id d cs) ->
    (d = false -> forall i c, has cs i c -> pclean c) ->
    good st (S n) path (PNode id d cs).

Lemma good_agree st n path t : good st n path t -> agree st (pid t) (cell path t).
Proof. destruct 1; assumption. Qed.

Lemma good_frame st st' n path t :
  good st n path t -> (forall x, own t x -> same_at st st' x) -> good st' n path t.
Proof.
  induction 1 as [n path id s Hl Ha|n path id d cs Hl Ha Hc IH Hid Hdj H2 Hcl]; intros Hs.
  - constructor; [exact Hl|]. eapply agree_same; [apply Hs; constructor|exact Ha].
  - constructor; try assumption.
    + eapply agree_same; [apply Hs; constructor|exact Ha].
    + intros i c Hi. apply (IH i c Hi). intros x Hx. apply Hs. econstructor; eassumption.
Qed.

Lemma mem_length st n path t k : good st n path t -> mem t k -> (length k <= n)%nat.
Proof.
  intros G. revert k. induction G as [n path id s Hl Ha|n path id d cs Hl Ha Hc IH Hid Hdj H2 Hcl];
    intros k Hk; inversion Hk; subst; [assumption|].
  cbn. apply le_n_S. eapply IH; eassumption.
Qed.
(** Any bound on the lengths will do. *)
Lemma good_bound st n path t : good st n path t -> forall n', (forall k, mem t k -> (length k <= n')%nat) -> good st n' path t.
Proof.
  induction 1 as [n path id s Hl Ha|n path id d cs Hl Ha Hc IH Hid Hdj H2 Hcl]; intros n' Hb.
  - constructor; [apply Hb; constructor|exact Ha].
  - destruct n' as [|n'].
    { exfalso. destruct H2 as (k & _ & Hk & _). pose proof (Hb _ Hk). inversion Hk; subst. cbn in *. lia. }
    constructor; try assumption. intros i c Hi. apply (IH i c Hi). intros k Hk.
    assert (Hi' : (i < 256)%nat) by (rewrite <- Hl; apply nth_error_Some; unfold has in Hi; congruence).
    assert (M : mem (PNode id d cs) (b8 (N.of_nat i) :: k)) by (econstructor; [rewrite idx_b8 by exact Hi'; exact Hi|exact Hk]).
    apply Hb in M. cbn in M. lia.
Qed.
(** No member begins with another. *)
Lemma mem_prefix_free t k k' r : mem t k -> mem t k' -> k' = k ++ r -> k' = k.
Proof.
  intros Hk. revert k' r. induction Hk as [id s|id d cs b c k Hh Hk IH]; intros k' r Hk' E.
  - inversion Hk'; reflexivity.
  - subst k'. cbn [app] in *. inversion Hk' as [|? ? ? b' c' k0 Hh' Hk0]; subst.
    f_equal. unfold has in *. assert (c' = c) as -> by congruence. eapply IH; [eassumption|reflexivity].
Qed.

Lemma has_member st n path t : good st n path t -> exists k, mem t k.
Proof.
  destruct 1 as [n path id s Hl Ha|n path id d cs Hl Ha Hc Hid Hdj H2 Hcl].
  - exists s. constructor.
  - destruct H2 as (k & _ & Hk & _). eauto.
Qed.

Lemma has_map cs i c : has cs i c -> nth_error (map (option_map pid) cs) i = Some (Some (pid c)).
Proof. unfold has. intros E. rewrite nth_error_map, E. reflexivity. Qed.

Lemma slot cs b : length cs = 256%nat ->
  (exists c, has cs (idx b) c) \/
  (nth_error cs (idx b) = Some None /\ nth_error (map (option_map pid) cs) (idx b) = Some None).
Proof.
  intros Hl. unfold has. rewrite nth_error_map. pose proof (idx_lt b).
  destruct (nth_error cs (idx b)) as [[c|]|] eqn:E; [eauto|auto|].
  apply nth_error_None in E. lia.
Qed.

(** ** Searching *)

Lemma find_gen st n path t d :
  good st n path t ->
  (find d (cell path t) st = Panic /\
     exists r1 r2, mem t (d ++ r1) /\ mem t (d ++ r2) /\ r1 <> r2) \/
  (exists b, find d (cell path t) st = Ok (b, st) /\ (b = true <-> mem t d) /\
     forall r1 r2, mem t (d ++ r1) -> mem t (d ++ r2) -> r1 = r2).
Proof.
  intros G. revert d. induction G as [n path id s Hl Ha|n path id dd cs Hl Ha Hc IH Hid Hdj H2 Hcl];
    intros d.
  - right. cbn [cell]. exists (bytes_eqb d s). split.
    { destruct d; reflexivity. }
    split.
    + destruct (bytes_eqb_reflect d s) as [->|Hn].
      * split; [intros _; constructor|reflexivity].
      * split; [discriminate|]. intros Hm. inversion Hm; subst. contradiction.
    + assert (L : forall k, mem (PLeaf id s) k -> k = s) by (intros k Hk; inversion Hk; reflexivity).
      intros r1 r2 M1 M2. apply L in M1. apply L in M2. apply (app_inv_head d). congruence.
  - destruct d as [|b d].
    { left. split; [reflexivity|]. exact H2. }
    cbn [cell find children].
    destruct (slot cs b Hl) as [[c Hh]|[E1 E2]].
    + rewrite (has_map cs (idx b) c Hh).
      pose proof (Hc _ _ Hh) as Gc. rewrite (get_agree _ _ _ (good_agree _ _ _ _ Gc)).
      cbn [bind].
      assert (Hd : forall k, mem (PNode id dd cs) (b :: k) <-> mem c k).
      { intros k. split.
        - intros Hm. inversion Hm as [|? ? ? ? c' ? Hh' Hm']; subst.
          unfold has in *. assert (c' = c) as -> by congruence. exact Hm'.
        - intros Hm. econstructor; eassumption. }
      destruct (IH _ _ Hh d) as [(E & r1 & r2 & M1 & M2 & Hr)|(r & E & Hr & U)].
      * left. split; [exact E|]. exists r1, r2. cbn [app]. rewrite !Hd. auto.
      * right. exists r. split; [exact E|]. cbn [app]. rewrite Hd. split; [exact Hr|].
        intros r1 r2. rewrite !Hd. apply U.
    + rewrite E2. right. exists false. split; [reflexivity|].
      assert (Hno : forall k, ~ mem (PNode id dd cs) (b :: k)).
      { intros k Hm. inversion Hm as [|? ? ? ? c' ? Hh' Hm']; subst. unfold has in *. congruence. }
      split; [split; [discriminate|intros Hm; destruct (Hno _ Hm)]|].
      intros r1 r2 M1 _. destruct (Hno _ M1).
Qed.

(** ** Replacing one child *)

Lemma has_set_eq cs i (c : ptree) : (i < length cs)%nat -> has (set_nth i (Some c) cs) i c.
Proof. intros Hi. unfold has. apply nth_set_nth_eq. exact Hi. Qed.

Lemma has_set_inv cs i j o c :
  has (set_nth i o cs) j c -> (i = j /\ o = Some c) \/ (i <> j /\ has cs j c).
Proof.
  unfold has. intros E. destruct (Nat.eq_dec i j) as [->|Hij].
  - destruct (Nat.lt_ge_cases j (length cs)) as [Hl|Hl].
    + rewrite nth_set_nth_eq in E by exact Hl. left. split; congruence.
    + assert (Hn : nth_error (set_nth j o cs) j = None).
      { apply nth_error_None. rewrite set_nth_length. exact Hl. }
      congruence.
  - rewrite nth_set_nth_neq in E by exact Hij. auto.
Qed.

Lemma has_set_neq cs i j o c : i <> j -> has cs j c -> has (set_nth i o cs) j c.
Proof. unfold has. intros Hij E. rewrite nth_set_nth_neq by exact Hij. exact E. Qed.

Lemma map_set_nth {A B} (f : A -> B) i v l : map f (set_nth i v l) = set_nth i (f v) (map f l).
Proof. revert i; induction l as [|x l IH]; intros [|i]; cbn; rewrite ?IH; reflexivity. Qed.

Lemma ids_ok cs (bound : N) :
  (bound <= two64)%N ->
  (forall i c, has cs i c -> (pid c < bound)%N) ->
  Forall (fun o => match o with Some c => u64 c | None => True end) (map (option_map pid) cs).
Proof.
  intros Hb Hh. apply Forall_forall. intros o Ho. apply in_map_iff in Ho as (p & <- & Hp).
  destruct p as [c|]; cbn; [|exact I].
  apply In_nth_error in Hp as [i Hi]. specialize (Hh i c Hi). unfold u64. lia.
Qed.

Lemma node_ok_inner path cs (bound : N) d :
  length cs = 256%nat -> (bound <= two64)%N ->
  (forall i c, has cs i c -> (pid c < bound)%N) ->
  u64 (N.of_nat (length path)) ->
  node_ok (mkNode d path (Some (map (option_map pid) cs))).
Proof.
  intros Hl Hb Hh Hp. split; [exact Hp|]. cbn. rewrite map_length. split; [exact Hl|].
  eapply ids_ok; eassumption.
Qed.

Lemma node_ok_leaf s : u64 (N.of_nat (length s)) -> node_ok (mkNode false s None).
Proof. intros Hs. split; [exact Hs|exact I]. Qed.

Definition below (st : store) (t : ptree) : Prop := forall x, own t x -> (x < next_node_id st)%N.

Lemma has_pid_below st id d cs i c :
  below st (PNode id d cs) -> has cs i c -> (pid c < next_node_id st)%N.
Proof. intros Hb Hh. apply Hb. econstructor; [exact Hh|apply own_pid]. Qed.

(** The result of an insertion. *)
Definition inserted (st st' : store) (t t' : ptree) (d : bytes) : Prop :=
  (forall k, mem t' k <-> mem t k \/ k = d) /\
  (next_node_id st <= next_node_id st')%N /\
  (forall x, own t' x <-> (own t x /\ x <> pid t) \/ (next_node_id st <= x < next_node_id st')%N) /\
  (forall x, ~ own t x -> ~ (next_node_id st <= x < next_node_id st')%N -> same_at st st' x).

Lemma firstn_succ (d : bytes) i b : nth_error d i = Some b -> firstn (S i) d = firstn i d ++ [b].
Proof.
  revert d; induction i as [|i IH]; intros [|x d] E; cbn in *; try discriminate.
  - congruence.
  - f_equal. apply IH. exact E.
Qed.

Definition none_slots : list (option ptree) := repeat None 256.

Lemma none_slots_has i c : ~ has none_slots i c.
Proof.
  unfold has, none_slots. intros E. apply nth_error_In in E. apply repeat_spec in E. discriminate.
Qed.

Lemma none_slots_length : length none_slots = 256%nat.
Proof. apply repeat_length. Qed.

Lemma none_slots_map : map (option_map pid) none_slots = no_children.
Proof. unfold none_slots, no_children. generalize 256%nat. induction n; cbn; congruence. Qed.

Lemma two_members_lift id d cs b c :
  has cs (idx b) c -> two_members c -> two_members (PNode id d cs).
Proof.
  intros Hh (k1 & k2 & M1 & M2 & Hn). exists (b :: k1), (b :: k2).
  repeat split; [econstructor; eassumption..|congruence].
Qed.

Lemma chain_spec m d path i : forall t st n,
  (i <= length d)%nat ->
  good st n (path ++ firstn i d) t -> two_members t -> below st t ->
  (next_node_id st + N.of_nat i < two64)%N ->
  u64 (N.of_nat (length path + length d)) ->
  exists t' st', parent_chain m d path i (pid t) st = Ok (pid t', st') /\
    good st' (i + n) path t' /\ pleaf t' = pleaf t && Nat.eqb i 0 /\
    (forall k, mem t' k <-> exists k', k = firstn i d ++ k' /\ mem t k') /\
    next_node_id st' = (next_node_id st + N.of_nat i)%N /\
    (forall x, own t' x <-> own t x \/ (next_node_id st <= x < next_node_id st')%N) /\
    (forall x, (x < next_node_id st \/ next_node_id st' <= x)%N -> same_at st st' x).
Proof.
  induction i as [|i IH]; intros t st n Hi G H2 Hb Hnext Hu.
  - cbn [parent_chain firstn] in *. rewrite app_nil_r in G.
    exists t, st. split; [reflexivity|]. split; [exact G|]. split; [rewrite andb_true_r; reflexivity|].
    split; [intros k; split; [intros Hk; exists k; auto|intros (k' & -> & Hk); exact Hk]|].
    split; [lia|]. split; [intros x; split; [auto|intros [?|?]; [assumption|lia]]|].
    intros x _. apply same_refl.
  - cbn [parent_chain].
    destruct (nth_error d i) as [b|] eqn:Eb.
    2:{ apply nth_error_None in Eb. lia. }
    rewrite (firstn_succ d i b Eb) in G.
    destruct (allocate_spec m st) as (st1 & E1 & Hn1 & Hs1); [lia|].
    rewrite E1. cbn [bind].
    set (id2 := next_node_id st) in *.
    set (cs := set_nth (idx b) (Some t) none_slots).
    assert (Hcs : has cs (idx b) t).
    { apply has_set_eq. rewrite none_slots_length. apply idx_lt. }
    assert (Hcs' : forall j c, has cs j c -> j = idx b /\ c = t).
    { intros j c Hj. apply has_set_inv in Hj as [[<- E]|[_ Hj]]; [split; congruence|].
      exfalso. eapply none_slots_has. exact Hj. }
    set (t1 := PNode id2 true cs).
    replace (set_nth (idx b) (Some (pid t)) no_children) with (map (option_map pid) cs)
      by (unfold cs; rewrite map_set_nth, none_slots_map; reflexivity).
    set (nd := mkNode true (path ++ firstn i d) (Some (map (option_map pid) cs))).
    assert (Hok : node_ok nd).
    { eapply (node_ok_inner _ _ id2).
      - unfold cs. rewrite set_nth_length. apply none_slots_length.
      - unfold id2. lia.
      - intros j c Hj. apply Hcs' in Hj as [_ ->]. apply Hb, own_pid.
      - unfold u64 in *. rewrite app_length, firstn_length. lia. }
    assert (Hnid : ~ own t id2) by (intros Ho; apply Hb in Ho; unfold id2 in Ho; lia).
    assert (G1 : good (set_node id2 nd st1) (S n) (path ++ firstn i d) t1).
    { constructor.
      - unfold cs. rewrite set_nth_length. apply none_slots_length.
      - apply set_agree. exact Hok.
      - intros j c Hj. apply Hcs' in Hj as [-> ->]. rewrite b8_idx, <- app_assoc.
        eapply good_frame; [exact G|]. intros x Hx.
        assert (x <> id2) by (intros ->; contradiction).
        eapply same_trans; [apply Hs1; assumption|]. apply set_same; assumption.
      - intros j c Hj. apply Hcs' in Hj as [-> ->]. exact Hnid.
      - intros j1 j2 c1 c2 x A B _ _. apply Hcs' in A as [-> _], B as [-> _]. reflexivity.
      - eapply two_members_lift; eassumption.
      - discriminate. }
    destruct (IH t1 (set_node id2 nd st1) (S n)) as (t' & st' & E & G' & Hlf & Hm & Hn & Ho & Hs).
    + lia.
    + exact G1.
    + eapply two_members_lift; eassumption.
    + intros x Hx. cbn [next_node_id set_node]. rewrite Hn1. inversion Hx as [|?|? ? ? j c ? Hj Hc]; subst.
      * unfold id2. lia.
      * apply Hcs' in Hj as [-> ->]. apply Hb in Hc. unfold id2. lia.
    + cbn [next_node_id set_node]. rewrite Hn1. unfold id2. lia.
    + exact Hu.
    + cbn [next_node_id set_node] in *. rewrite Hn1 in *.
      exists t', st'. split; [exact E|]. split; [replace (S i + n)%nat with (i + S n)%nat by lia; exact G'|].
      split; [rewrite Hlf; cbn; rewrite andb_false_r; reflexivity|].
      split.
      { intros k. rewrite Hm. rewrite (firstn_succ d i b Eb). split.
        - intros (k' & -> & Hk). inversion Hk as [|? ? ? b' c k'' Hh' Hk'']; subst.
          apply Hcs' in Hh' as [Eb' ->]. apply idx_inj in Eb'. subst b'.
          exists k''. rewrite <- app_assoc. auto.
        - intros (k' & -> & Hk). exists (b :: k'). rewrite <- app_assoc. split; [reflexivity|].
          econstructor; eassumption. }
      split; [rewrite Hn; lia|]. rewrite Hn in *.
      assert (Ht1 : forall x, own t1 x <-> own t x \/ x = id2).
      { intros x. split.
        - intros Hx. inversion Hx as [|?|? ? ? j c ? Hj Hc]; subst; [auto|].
          apply Hcs' in Hj as [-> ->]. auto.
        - intros [Hx| ->]; [econstructor; eassumption|constructor]. }
      split.
      { intros x. rewrite Ho, Ht1. unfold id2. split.
        - intros [[?| ->]|?]; [auto|right; lia|right; lia].
        - intros [?|Hx]; [auto|]. destruct (N.eq_dec x (next_node_id st)); [auto|right; lia]. }
      { intros x Hx. assert (Hxid : x <> id2) by (unfold id2; lia).
        eapply same_trans; [apply Hs1; exact Hxid|]. eapply same_trans; [apply set_same; exact Hxid|].
        apply Hs. unfold id2 in Hx. lia. }
Qed.

Lemma comparable_cons x y a b : comparable (x :: a) (y :: b) <-> x = y /\ comparable a b.
Proof.
  unfold comparable. split.
  - intros [[r E]|[r E]]; injection E as -> ->; split; auto; [left|right]; eauto.
  - intros [-> [[r ->]|[r ->]]]; [left|right]; exists r; reflexivity.
Qed.
Lemma comparable_nil a : comparable a [].
Proof. left. exists a. reflexivity. Qed.
Lemma nil_comparable a : comparable [] a.
Proof. right. exists a. reflexivity. Qed.
Lemma first_diff_spec s d :
  ~ comparable s d ->
  exists i a b, first_diff s d = Some i /\ nth_error s i = Some a /\ nth_error d i = Some b /\
    a <> b /\ firstn i s = firstn i d.
Proof.
  revert d; induction s as [|x s IH]; intros [|y d] Hn.
  1,2: destruct (Hn (nil_comparable _)). 1: destruct (Hn (comparable_nil _)).
  cbn [first_diff]. destruct (byte_eqb_reflect x y) as [->|Hxy].
  - destruct (IH d) as (i & a & b & E & E1 & E2 & Hab & Ef).
    + intros C. apply Hn. apply comparable_cons. auto.
    + exists (S i), a, b. rewrite E. cbn. repeat split; try assumption. congruence.
  - exists 0%nat, x, y. repeat split; congruence.
Qed.

Lemma nth_split_firstn (d : bytes) i b :
  nth_error d i = Some b -> d = firstn i d ++ b :: skipn (S i) d.
Proof.
  revert d; induction i as [|i IH]; intros [|x d] E; cbn in *; try discriminate.
  - congruence.
  - f_equal. apply IH. exact E.
Qed.

Lemma split_leaf_spec m d path id s st n :
  (length s <= n)%nat -> (length d <= n)%nat -> ~ comparable s d -> (id < next_node_id st)%N ->
  agree st id (mkNode false s None) ->
  (next_node_id st + N.of_nat (length d) + 2 < two64)%N ->
  u64 (N.of_nat (length path + n)) ->
  exists t' st', split_leaf m d path (mkNode false s None) st = Ok (pid t', st') /\
    good st' n path t' /\ pleaf t' = false /\
    inserted st st' (PLeaf id s) t' d /\
    (next_node_id st' <= next_node_id st + N.of_nat (length d) + 2)%N.
Proof.
  intros Hl Hld Hn Hid Ha Hnext Hu.
  destruct (first_diff_spec s d Hn) as (i & a & b & E & E1 & E2 & Hab & Ef).
  assert (Hi : (i < length d)%nat) by (apply nth_error_Some; congruence).
  assert (Hi' : (i < length s)%nat) by (apply nth_error_Some; congruence).
  unfold split_leaf. cbn [nhash]. rewrite E, E2, E1.
  destruct (allocate_spec m st) as (st1 & A1 & N1 & S1); [lia|]. rewrite A1. cbn [bind].
  set (id1 := next_node_id st) in *.
  set (c1 := PLeaf id1 (skipn (S i) s)).
  set (st1' := set_node id1 (mkNode false (skipn (S i) s) None) st1) in *.
  destruct (allocate_spec m st1') as (st2 & A2 & N2 & S2).
  { cbn [next_node_id set_node st1']. rewrite N1. unfold id1. lia. }
  rewrite A2. cbn [bind].
  set (id2 := next_node_id st1') in *.
  assert (Eid2 : id2 = (id1 + 1)%N) by (unfold id2; cbn; exact N1).
  set (c2 := PLeaf id2 (skipn (S i) d)).
  set (st2' := set_node id2 (mkNode false (skipn (S i) d) None) st2) in *.
  destruct (allocate_spec m st2') as (st3 & A3 & N3 & S3).
  { cbn [next_node_id set_node st2']. rewrite N2. fold id2. rewrite Eid2. unfold id1. lia. }
  rewrite A3. cbn [bind].
  set (id3 := next_node_id st2') in *.
  assert (Eid3 : id3 = (id1 + 2)%N) by (unfold id3; cbn; rewrite N2; fold id2; lia).
  set (cs := set_nth (idx a) (Some c1) (set_nth (idx b) (Some c2) none_slots)).
  assert (Hiab : idx a <> idx b) by (intros Ei; apply idx_inj in Ei; contradiction).
  assert (Hcs1 : has cs (idx a) c1).
  { apply has_set_eq. rewrite set_nth_length, none_slots_length. apply idx_lt. }
  assert (Hcs2 : has cs (idx b) c2).
  { apply has_set_neq; [exact Hiab|]. apply has_set_eq. rewrite none_slots_length. apply idx_lt. }
  assert (Hcs : forall j c, has cs j c -> (j = idx a /\ c = c1) \/ (j = idx b /\ c = c2)).
  { intros j c Hj. apply has_set_inv in Hj as [[<- Ej]|[_ Hj]]; [left; split; congruence|].
    apply has_set_inv in Hj as [[<- Ej]|[_ Hj]]; [right; split; congruence|].
    exfalso. eapply none_slots_has. exact Hj. }
  replace (set_nth (idx a) (Some id1) (set_nth (idx b) (Some id2) no_children))
    with (map (option_map pid) cs)
    by (unfold cs; rewrite !map_set_nth, none_slots_map; reflexivity).
  set (nd := mkNode true (path ++ firstn i d) (Some (map (option_map pid) cs))).
  set (st3' := set_node id3 nd st3).
  set (t0 := PNode id3 true cs).
  assert (Hcl : length cs = 256%nat)
    by (unfold cs; rewrite !set_nth_length; apply none_slots_length).
  assert (Hok : node_ok nd).
  { eapply (node_ok_inner _ _ id3); [exact Hcl| | |].
    - rewrite Eid3. unfold id1. lia.
    - intros j c Hj. apply Hcs in Hj as [[_ ->]|[_ ->]]; cbn; lia.
    - unfold u64 in *. rewrite app_length, firstn_length. lia. }
  assert (Hchain1 : forall x, x <> id1 -> x <> id2 -> x <> id3 -> same_at st st3' x).
  { intros x X1 X2 X3. eapply same_trans; [apply S1; exact X1|].
    eapply same_trans; [apply set_same; exact X1|]. eapply same_trans; [apply S2; exact X2|].
    eapply same_trans; [apply set_same; exact X2|]. eapply same_trans; [apply S3; exact X3|].
    apply set_same. exact X3. }
  assert (Ag1 : agree st3' id1 (mkNode false (skipn (S i) s) None)).
  { eapply agree_same; [|apply (set_agree st1 id1)].
    - assert (id1 <> id2) by lia. assert (id1 <> id3) by lia.
      eapply same_trans; [apply S2; assumption|]. eapply same_trans; [apply (set_same st2 id2); assumption|].
      eapply same_trans; [apply S3; assumption|]. apply (set_same st3 id3); assumption.
    - apply node_ok_leaf. rewrite skipn_length. unfold u64 in *. lia. }
  assert (Ag2 : agree st3' id2 (mkNode false (skipn (S i) d) None)).
  { eapply agree_same; [|apply (set_agree st2 id2)].
    - assert (id2 <> id3) by lia. eapply same_trans; [apply S3; assumption|]. apply (set_same st3 id3); assumption.
    - apply node_ok_leaf. rewrite skipn_length. unfold u64 in *. lia. }
  assert (M1 : mem t0 (a :: skipn (S i) s)) by (econstructor; [exact Hcs1|constructor]).
  assert (M2 : mem t0 (b :: skipn (S i) d)) by (econstructor; [exact Hcs2|constructor]).
  assert (M0 : forall k, mem t0 k -> k = a :: skipn (S i) s \/ k = b :: skipn (S i) d).
  { intros k Hk. inversion Hk as [|? ? ? b' c k' Hh Hk']; subst.
    apply Hcs in Hh as [[Ei ->]|[Ei ->]]; apply idx_inj in Ei; subst b'; inversion Hk'; subst; auto. }
  assert (T2 : two_members t0).
  { exists (a :: skipn (S i) s), (b :: skipn (S i) d). repeat split; [exact M1|exact M2|congruence]. }
  assert (G0 : good st3' (S (n - S i)) (path ++ firstn i d) t0).
  { constructor.
    - exact Hcl.
    - apply set_agree. exact Hok.
    - intros j c Hj. apply Hcs in Hj as [[-> ->]|[-> ->]].
      + constructor; [rewrite skipn_length; lia|exact Ag1].
      + constructor; [rewrite skipn_length; lia|exact Ag2].
    - intros j c Hj. apply Hcs in Hj as [[-> ->]|[-> ->]]; intros Ho; inversion Ho; lia.
    - intros j1 j2 k1 k2 x A B O1 O2.
      apply Hcs in A as [[-> ->]|[-> ->]], B as [[-> ->]|[-> ->]]; try reflexivity;
        inversion O1; inversion O2; subst; lia.
    - exact T2.
    - discriminate. }
  assert (N3' : next_node_id st3' = (id1 + 3)%N) by (cbn; rewrite N3; fold id3; lia).
  assert (O0 : forall x, own t0 x <-> (id1 <= x < id1 + 3)%N).
  { intros x. split.
    - intros Hx. inversion Hx as [|?|? ? ? j c ? Hj Hc]; subst; [lia|].
      apply Hcs in Hj as [[-> ->]|[-> ->]]; inversion Hc; subst; lia.
    - intros Hx. assert (x = id1 \/ x = id2 \/ x = id3) as [->|[->| ->]] by lia.
      + econstructor; [exact Hcs1|constructor].
      + econstructor; [exact Hcs2|constructor].
      + constructor. }
  destruct (chain_spec m d path i t0 st3' (S (n - S i))) as
    (t' & st' & Ec & G' & Hlf & Hm & Hnx & Ho & Hsm).
  - lia.
  - exact G0.
  - exact T2.
  - intros x Hx. apply O0 in Hx. rewrite N3'. lia.
  - rewrite N3'. unfold id1. lia.
  - unfold u64 in *. lia.
  - exists t', st'. split; [exact Ec|].
    split; [replace n with (i + S (n - S i))%nat by lia; exact G'|].
    split; [rewrite Hlf; reflexivity|].
    rewrite N3' in *. fold id1 in Hid. fold id1.
    split; [|rewrite Hnx; lia].
    split; [|split; [|split]].
    + intros k. rewrite Hm. split.
      * intros (k' & -> & Hk). apply M0 in Hk as [->| ->].
        -- left. rewrite <- Ef, <- (nth_split_firstn s i a E1). constructor.
        -- right. rewrite <- (nth_split_firstn d i b E2). reflexivity.
      * intros [Hk| ->].
        -- inversion Hk; subst. exists (a :: skipn (S i) k). split; [|exact M1].
           rewrite <- Ef. apply nth_split_firstn. exact E1.
        -- exists (b :: skipn (S i) d). split; [|exact M2]. apply nth_split_firstn. exact E2.
    + rewrite Hnx. fold id1. lia.
    + fold id1. intros x. rewrite Ho, O0, Hnx. cbn [pid]. split.
      * intros Hx. right. lia.
      * intros [[Hx Hne]|Hx]; [inversion Hx; subst; contradiction|]. lia.
    + fold id1. rewrite Hnx. intros x Hx Hx'.
      eapply same_trans; [apply Hchain1; lia|]. apply Hsm. lia.
Qed.

Lemma node_add_spec m d : forall n path t st,
  good st n path t -> (length d <= n)%nat -> (forall k, mem t k -> ~ comparable k d) -> below st t ->
  (next_node_id st + N.of_nat (length d) + 2 < two64)%N ->
  u64 (N.of_nat (length path + n)) ->
  exists t' st', node_add m d path (cell path t) st = Ok (pid t', st') /\
    good st' n path t' /\ pleaf t' = false /\
    inserted st st' t t' d /\
    (next_node_id st' <= next_node_id st + N.of_nat (length d) + 2)%N.
Proof.
  induction d as [|b d IH]; intros n path t st G Hld Hnm Hb Hnext Hu.
  - exfalso. destruct (has_member _ _ _ _ G) as [k Hk]. exact (Hnm k Hk (comparable_nil k)).
  - inversion G as [n0 p id s Hl Ha|n0 p id dd cs Hl Ha Hc Hid Hdj H2 Hcl]; subst.
    { apply split_leaf_spec; try assumption.
      - apply Hnm. constructor.
      - apply Hb. constructor. }
    cbn [cell node_add children].
    destruct (slot cs b Hl) as [[c Hh]|[E1 E2]].
    + rewrite (has_map cs (idx b) c Hh).
      pose proof (Hc _ _ Hh) as Gc. rewrite b8_idx in Gc.
      rewrite (get_agree _ _ _ (good_agree _ _ _ _ Gc)). cbn [bind].
      cbn [length] in *.
      destruct (IH n0 (path ++ [b]) c st) as (c' & st1 & E & G' & Hlf & (I1 & I2 & I3 & I4) & Hnx).
      { exact Gc. }
      { lia. }
      { intros k Hm C. apply (Hnm (b :: k)); [econstructor; eassumption|]. apply comparable_cons. auto. }
      { intros x Hx. apply Hb. econstructor; eassumption. }
      { lia. }
      { unfold u64 in *. rewrite app_length. cbn [length]. lia. }
      rewrite E. cbn [bind].
      replace (set_nth (idx b) (Some (pid c')) (map (option_map pid) cs))
        with (map (option_map pid) (set_nth (idx b) (Some c') cs)) by (rewrite map_set_nth; reflexivity).
      set (cs' := set_nth (idx b) (Some c') cs).
      set (nd := mkNode true path (Some (map (option_map pid) cs'))).
      set (t' := PNode (pid c) true cs').
      assert (Hpc : (pid c < next_node_id st)%N) by (eapply has_pid_below; eassumption).
      assert (Hcs' : has cs' (idx b) c') by (apply has_set_eq; rewrite Hl; apply idx_lt).
      assert (Hinv : forall j x, has cs' j x -> (j = idx b /\ x = c') \/ (j <> idx b /\ has cs j x)).
      { intros j x Hj. apply has_set_inv in Hj as [[<- Ej]|[Hne Hj]].
        - left. split; congruence.
        - right. auto. }
      assert (Hoc : ~ own c' (pid c)).
      { intros Ho. apply I3 in Ho as [[_ Ho]|Ho]; [contradiction|lia]. }
      assert (Hdjc : forall j x y, j <> idx b -> has cs j x -> own x y -> ~ own c y).
      { intros j x y Hj Hx Hy Hy'. apply Hj. eapply Hdj; eassumption. }
      assert (Hbx : forall j x y, has cs j x -> own x y -> (y < next_node_id st)%N).
      { intros j x y Hx Hy. apply Hb. econstructor; eassumption. }
      assert (Hmem : forall k, mem t' k <-> mem (PNode id dd cs) k \/ k = b :: d).
      { intros k. split.
        - intros Hk. inversion Hk as [|? ? ? b' x k' Hx Hk']; subst.
          apply Hinv in Hx as [[Ei ->]|[Hne Hx]].
          + apply idx_inj in Ei. subst b'. apply I1 in Hk' as [Hk'| ->]; [|auto].
            left. econstructor; eassumption.
          + left. econstructor; eassumption.
        - intros [Hk| ->].
          + inversion Hk as [|? ? ? b' x k' Hx Hk']; subst.
            destruct (Nat.eq_dec (idx b') (idx b)) as [Ei|Ne].
            * apply idx_inj in Ei. subst b'. assert (x = c) as -> by (unfold has in *; congruence).
              econstructor; [exact Hcs'|]. apply I1. auto.
            * econstructor; [apply has_set_neq; [|exact Hx]; auto|exact Hk'].
          + econstructor; [exact Hcs'|]. apply I1. auto. }
      assert (Hpid' : (pid c' < next_node_id st1)%N).
      { pose proof (own_pid c') as Ho. apply I3 in Ho as [[Ho _]|Ho]; [|lia].
        apply (Hbx _ _ _ Hh) in Ho. lia. }
      assert (Hok : node_ok nd).
      { eapply (node_ok_inner _ _ (next_node_id st1)).
        - unfold cs'. rewrite set_nth_length. exact Hl.
        - lia.
        - intros j x Hj. apply Hinv in Hj as [[-> ->]|[_ Hj]]; [exact Hpid'|].
          pose proof (Hbx _ _ _ Hj (own_pid x)). lia.
        - unfold u64 in *. lia. }
      exists t', (set_node (pid c) nd st1). split; [reflexivity|]. split; [|split; [|split]].
      * constructor.
        -- unfold cs'. rewrite set_nth_length. exact Hl.
        -- apply set_agree. exact Hok.
        -- intros j x Hj. apply Hinv in Hj as [[-> ->]|[Hne Hj]].
           ++ rewrite b8_idx. eapply good_frame; [exact G'|]. intros y Hy.
              apply set_same. intros ->. contradiction.
           ++ eapply good_frame; [exact (Hc _ _ Hj)|]. intros y Hy.
              eapply same_trans.
              ** apply I4; [eapply Hdjc; eassumption|]. pose proof (Hbx _ _ _ Hj Hy). lia.
              ** apply set_same. intros ->. eapply Hdjc; [exact Hne|exact Hj|exact Hy|apply own_pid].
        -- intros j x Hj. apply Hinv in Hj as [[-> ->]|[Hne Hj]]; [exact Hoc|].
           intros Ho. eapply Hdjc; [exact Hne|exact Hj|exact Ho|apply own_pid].
        -- intros j1 j2 x1 x2 y A B O1 O2.
           apply Hinv in A as [[-> ->]|[Hne1 A]], B as [[-> ->]|[Hne2 B]].
           ++ reflexivity.
           ++ exfalso. apply I3 in O1 as [[O1 _]|O1].
              ** eapply Hdjc; [exact Hne2|exact B|exact O2|exact O1].
              ** pose proof (Hbx _ _ _ B O2). lia.
           ++ exfalso. apply I3 in O2 as [[O2 _]|O2].
              ** eapply Hdjc; [exact Hne1|exact A|exact O1|exact O2].
              ** pose proof (Hbx _ _ _ A O1). lia.
           ++ eapply Hdj; eassumption.
        -- destruct H2 as (k1 & k2 & M1 & M2 & Hk). exists k1, k2.
           repeat split; [apply Hmem; auto|apply Hmem; auto|exact Hk].
        -- discriminate.
      * reflexivity.
      * split; [exact Hmem|]. cbn [next_node_id set_node]. split; [exact I2|]. split.
        -- intros x. cbn [pid]. split.
           ++ intros Hx. inversion Hx as [|?|? ? ? j y ? Hj Hy]; subst.
              ** left. split; [econstructor; [exact Hh|apply own_pid]|].
                 intros Eq. eapply Hid; [exact Hh|]. rewrite <- Eq. apply own_pid.
              ** apply Hinv in Hj as [[-> ->]|[Hne Hj]].
                 --- apply I3 in Hy as [[Hy Hy']|Hy]; [|auto].
                     left. split; [econstructor; eassumption|]. intros ->. eapply Hid; eassumption.
                 --- left. split; [econstructor; eassumption|]. intros ->. eapply Hid; eassumption.
           ++ intros [[Hx Hne]|Hx].
              ** inversion Hx as [|?|? ? ? j y ? Hj Hy]; subst; [contradiction|].
                 destruct (Nat.eq_dec j (idx b)) as [->|Hjb].
                 --- assert (y = c) as -> by (unfold has in *; congruence).
                     destruct (N.eq_dec x (pid c)) as [->|Hxc]; [constructor|].
                     econstructor; [exact Hcs'|]. apply I3. auto.
                 --- econstructor; [apply has_set_neq; [|exact Hj]; auto|exact Hy].
              ** econstructor; [exact Hcs'|]. apply I3. auto.
        -- intros x Hx Hx'. eapply same_trans.
           ++ apply I4; [|exact Hx']. intros Ho. apply Hx. econstructor; eassumption.
           ++ apply set_same. intros ->. apply Hx. econstructor; [exact Hh|apply own_pid].
      * cbn [next_node_id set_node]. lia.
    + rewrite E2.
      destruct (allocate_spec m st) as (st1 & A1 & N1 & S1); [lia|]. rewrite A1. cbn [bind].
      set (id1 := next_node_id st) in *.
      set (c1 := PLeaf id1 d).
      set (st1' := set_node id1 (mkNode false d None) st1) in *.
      destruct (allocate_spec m st1') as (st2 & A2 & N2 & S2).
      { cbn [next_node_id set_node st1']. rewrite N1. cbn [length] in Hnext. lia. }
      rewrite A2. cbn [bind].
      set (id2 := next_node_id st1') in *.
      assert (Eid2 : id2 = (id1 + 1)%N) by (unfold id2; cbn; exact N1).
      set (cs' := set_nth (idx b) (Some c1) cs).
      replace (set_nth (idx b) (Some id1) (map (option_map pid) cs))
        with (map (option_map pid) cs') by (unfold cs'; rewrite map_set_nth; reflexivity).
      set (nd := mkNode true path (Some (map (option_map pid) cs'))).
      set (t' := PNode id2 true cs').
      assert (Hcs' : has cs' (idx b) c1) by (apply has_set_eq; rewrite Hl; apply idx_lt).
      assert (Hinv : forall j x, has cs' j x -> (j = idx b /\ x = c1) \/ (j <> idx b /\ has cs j x)).
      { intros j x Hj. apply has_set_inv in Hj as [[<- Ej]|[Hne Hj]].
        - left. split; congruence.
        - right. auto. }
      assert (Hsub : forall j x, has cs j x -> has cs' j x).
      { intros j x Hj. apply has_set_neq; [|exact Hj]. intros <-. unfold has in Hj. congruence. }
      assert (Hbx : forall j x y, has cs j x -> own x y -> (y < id1)%N).
      { intros j x y Hx Hy. apply Hb. econstructor; eassumption. }
      assert (Hmem : forall k, mem t' k <-> mem (PNode id dd cs) k \/ k = b :: d).
      { intros k. split.
        - intros Hk. inversion Hk as [|? ? ? b' x k' Hx Hk']; subst.
          apply Hinv in Hx as [[Ei ->]|[Hne Hx]].
          + apply idx_inj in Ei. subst b'. inversion Hk'; subst. auto.
          + left. econstructor; eassumption.
        - intros [Hk| ->].
          + inversion Hk as [|? ? ? b' x k' Hx Hk']; subst. econstructor; [apply Hsub; exact Hx|exact Hk'].
          + econstructor; [exact Hcs'|constructor]. }
      assert (Hok : node_ok nd).
      { eapply (node_ok_inner _ _ id2).
        - unfold cs'. rewrite set_nth_length. exact Hl.
        - rewrite Eid2. lia.
        - intros j x Hj. apply Hinv in Hj as [[-> ->]|[_ Hj]]; [cbn; lia|].
          pose proof (Hbx _ _ _ Hj (own_pid x)). lia.
        - unfold u64 in *. lia. }
      assert (Hsame : forall x, x <> id1 -> x <> id2 -> same_at st (set_node id2 nd st2) x).
      { intros x X1 X2. eapply same_trans; [apply S1; exact X1|].
        eapply same_trans; [apply set_same; exact X1|]. eapply same_trans; [apply S2; exact X2|].
        apply set_same; exact X2. }
      exists t', (set_node id2 nd st2). split; [reflexivity|].
      assert (Enx : next_node_id (set_node id2 nd st2) = (id1 + 2)%N)
        by (cbn [next_node_id set_node]; rewrite N2; fold id2; lia).
      split; [|split; [|split]].
      * constructor.
        -- unfold cs'. rewrite set_nth_length. exact Hl.
        -- apply set_agree. exact Hok.
        -- intros j x Hj. apply Hinv in Hj as [[-> ->]|[Hne Hj]].
           ++ constructor; [cbn [length] in Hld; lia|]. eapply agree_same; [|apply (set_agree st1 id1)].
              ** assert (id1 <> id2) by lia. eapply same_trans; [apply S2; assumption|].
                 apply (set_same st2 id2); assumption.
              ** apply node_ok_leaf. unfold u64 in *. cbn [length] in Hld. lia.
           ++ eapply good_frame; [exact (Hc _ _ Hj)|]. intros y Hy.
              pose proof (Hbx _ _ _ Hj Hy). apply Hsame; lia.
        -- intros j x Hj. apply Hinv in Hj as [[-> ->]|[Hne Hj]].
           ++ intros Ho. inversion Ho; lia.
           ++ intros Ho. pose proof (Hbx _ _ _ Hj Ho). lia.
        -- intros j1 j2 x1 x2 y A B O1 O2.
           apply Hinv in A as [[-> ->]|[Hne1 A]], B as [[-> ->]|[Hne2 B]].
           ++ reflexivity.
           ++ exfalso. inversion O1; subst. pose proof (Hbx _ _ _ B O2). lia.
           ++ exfalso. inversion O2; subst. pose proof (Hbx _ _ _ A O1). lia.
           ++ eapply Hdj; eassumption.
        -- destruct H2 as (k1 & k2 & M1 & M2 & Hk). exists k1, k2.
           repeat split; [apply Hmem; auto|apply Hmem; auto|exact Hk].
        -- discriminate.
      * reflexivity.
      * split; [exact Hmem|]. rewrite Enx. fold id1. split; [lia|]. split.
        -- intros x. cbn [pid]. split.
           ++ intros Hx. inversion Hx as [|?|? ? ? j y ? Hj Hy]; subst; [right; lia|].
              apply Hinv in Hj as [[-> ->]|[Hne Hj]].
              ** inversion Hy; subst. right. lia.
              ** left. split; [econstructor; eassumption|]. intros ->. eapply Hid; eassumption.
           ++ intros [[Hx Hne]|Hx].
              ** inversion Hx as [|?|? ? ? j y ? Hj Hy]; subst; [contradiction|].
                 econstructor; [apply Hsub; exact Hj|exact Hy].
              ** assert (x = id1 \/ x = id2) as [->| ->] by lia.
                 --- econstructor; [exact Hcs'|constructor].
                 --- constructor.
        -- intros x Hx Hx'. apply Hsame; lia.
      * rewrite Enx. cbn [length]. fold id1. lia.
Qed.

(** ** Removing *)

Lemma scan_gen cs i0 : forall hi ci num,
  (num = 0 \/ num = 1)%N ->
  let '(i, c, k) := scan_children i0 cs (hi, ci, num) in
  (k = num /\ i = hi /\ c = ci /\ forall j x, nth_error cs j <> Some (Some x)) \/
  (num = 0 /\ k = 1 /\ (exists j, i = (i0 + j)%nat /\ nth_error cs j = Some (Some c) /\
        forall j' x, nth_error cs j' = Some (Some x) -> j' = j))%N \/
  (k = 2 /\ (num = 1 -> exists j x, nth_error cs j = Some (Some x)) /\
    (num = 0 -> exists j1 j2 x1 x2, nth_error cs j1 = Some (Some x1) /\
                nth_error cs j2 = Some (Some x2) /\ j1 <> j2))%N.
Proof.
  revert i0; induction cs as [|[c|] cs IH]; intros i0 hi ci num Hnum.
  - cbn. left. repeat split. intros [|j] x; discriminate.
  - cbn [scan_children snd]. destruct Hnum as [-> | ->].
    + cbn [N.add N.ltb]. replace (1 <? 0 + 1)%N with false by reflexivity.
      specialize (IH (S i0) i0 c 1%N (or_intror eq_refl)).
      change (0 + 1)%N with 1%N.
      destruct (scan_children (S i0) cs (i0, c, 1%N)) as [[i' c'] k].
      destruct IH as [(-> & -> & -> & Hall)|[(?&_)|(-> & Hex & _)]]; [|discriminate|].
      * right. left. repeat split. exists 0%nat. split; [lia|]. split; [reflexivity|].
        intros [|j'] x E; [reflexivity|]. cbn in E. exfalso. eapply Hall. exact E.
      * right. right. repeat split; [discriminate|]. intros _.
        destruct (Hex eq_refl) as (j & x & Ej). exists 0%nat, (S j), c, x. repeat split; [exact Ej|lia].
    + replace (1 <? 1 + 1)%N with true by reflexivity.
      right. right. repeat split; [|discriminate]. intros _. exists 0%nat, c. reflexivity.
  - cbn [scan_children]. specialize (IH (S i0) hi ci num Hnum).
    destruct (scan_children (S i0) cs (hi, ci, num)) as [[i' c'] k].
    destruct IH as [(-> & -> & -> & Hall)|[(-> & -> & j & -> & Ej & Hj)|(-> & Hex & Hex2)]].
    + left. repeat split. intros [|j] x; [discriminate|]. apply Hall.
    + right. left. repeat split. exists (S j). split; [lia|]. split; [exact Ej|].
      intros [|j'] x E; [discriminate|]. f_equal. eapply Hj. exact E.
    + right. right. repeat split.
      * intros En. destruct (Hex En) as (j & x & Ej). exists (S j), x. exact Ej.
      * intros En. destruct (Hex2 En) as (j1 & j2 & x1 & x2 & A & B & Hne).
        exists (S j1), (S j2), x1, x2. repeat split; [exact A|exact B|lia].
Qed.

Lemma scan_spec cs :
  let '(i, c, k) := scan_children 0 cs (0%nat, 0%N, 0%N) in
  (k = 0%N /\ forall j x, nth_error cs j <> Some (Some x)) \/
  (k = 1%N /\ nth_error cs i = Some (Some c) /\
     forall j x, nth_error cs j = Some (Some x) -> j = i) \/
  (k = 2%N /\ exists j1 j2 x1 x2, nth_error cs j1 = Some (Some x1) /\
                nth_error cs j2 = Some (Some x2) /\ j1 <> j2).
Proof.
  pose proof (scan_gen cs 0 0 0%N 0%N (or_introl eq_refl)) as S.
  destruct (scan_children 0 cs (0%nat, 0%N, 0%N)) as [[i c] k].
  destruct S as [(-> & _ & _ & Hall)|[(_ & -> & j & -> & Ej & Hj)|(-> & _ & Hex)]].
  - left. auto.
  - right. left. auto.
  - right. right. auto.
Qed.

Lemma has_map_inv cs i x :
  nth_error (map (option_map pid) cs) i = Some (Some x) -> exists c, has cs i c /\ x = pid c.
Proof.
  rewrite nth_error_map. unfold has. destruct (nth_error cs i) as [[c|]|]; cbn; intros E; try discriminate.
  injection E as <-. eauto.
Qed.

Lemma has_lt cs i c : has cs i c -> (i < length cs)%nat.
Proof. unfold has. intros E. apply nth_error_Some. congruence. Qed.

(** The result of a removal. *)
Definition removed (st st' : store) (t t' : ptree) (d : bytes) : Prop :=
  (forall k, mem t' k <-> mem t k /\ k <> d) /\
  next_node_id st' = next_node_id st /\
  (forall x, own t' x -> own t x /\ x <> pid t) /\
  (forall x, own t x -> x <> pid t -> own t' x \/ storage st' x = None) /\
  (forall x, ~ own t x -> same_at st st' x).

(** The common end of both branches of the removal: [cs'] are the slots after the
    child in slot [b] (old id [nid]) was replaced by [o]. *)
Definition finish_remove (path : bytes) (nid : N) (ids : list (option N)) (st : store)
  : outcome trie_error (N * store) :=
  let '(hash_idx, child_id, num_children) := scan_children 0 ids (0%nat, 0%N, 0%N) in
  (let? (n', st) :=
     (if (num_children =? 1)%N
      then let? (child, st) := get_node child_id st in
           if is_leaf child
           then Ok (mkNode false (b8 (N.of_nat hash_idx) :: nhash child) None,
                    delete_node child_id st)
           else Ok (mkNode true path (Some ids), st)
      else Ok (mkNode true path (Some ids), st)) in
   Ok (nid, set_node nid n' st))%outcome.

Lemma is_leaf_cell path t : is_leaf (cell path t) = pleaf t.
Proof. destruct t; reflexivity. Qed.

Lemma finish_spec path nid cs st n :
  length cs = 256%nat ->
  (forall i c, has cs i c -> good st n (path ++ [b8 (N.of_nat i)]) c) ->
  (forall i c, has cs i c -> ~ own c nid) ->
  (forall i j c c' x, has cs i c -> has cs j c' -> own c x -> own c' x -> i = j) ->
  (forall i c x, has cs i c -> own c x -> (x < next_node_id st)%N) ->
  (exists i c, has cs i c) ->
  (next_node_id st <= two64)%N ->
  u64 (N.of_nat (length path + S n)) ->
  exists t' st', finish_remove path nid (map (option_map pid) cs) st = Ok (pid t', st') /\
    pid t' = nid /\ good st' (S n) path t' /\
    (forall k, mem t' k <-> exists b c k', k = b :: k' /\ has cs (idx b) c /\ mem c k') /\
    next_node_id st' = next_node_id st /\
    (forall x, own t' x -> x = nid \/ exists i c, has cs i c /\ own c x) /\
    (forall x, (exists i c, has cs i c /\ own c x) -> own t' x \/ storage st' x = None) /\
    (forall x, x <> nid -> (forall i c, has cs i c -> ~ own c x) -> same_at st st' x).
Proof.
  intros Hl Hc Hid Hdj Hb Hex Hnx Hu. unfold finish_remove.
  pose proof (scan_spec (map (option_map pid) cs)) as S.
  destruct (scan_children 0 (map (option_map pid) cs) (0%nat, 0%N, 0%N)) as [[hi ci] num].
  set (ids := map (option_map pid) cs) in *.
  (* the case where the node stays an inner node *)
  assert (Inner : two_members (PNode nid true cs) ->
    exists t' st', (Ok (nid, set_node nid (mkNode true path (Some ids)) st) : outcome trie_error _) = Ok (pid t', st') /\
    pid t' = nid /\ good st' (Datatypes.S n) path t' /\
    (forall k, mem t' k <-> exists b c k', k = b :: k' /\ has cs (idx b) c /\ mem c k') /\
    next_node_id st' = next_node_id st /\
    (forall x, own t' x -> x = nid \/ exists i c, has cs i c /\ own c x) /\
    (forall x, (exists i c, has cs i c /\ own c x) -> own t' x \/ storage st' x = None) /\
    (forall x, x <> nid -> (forall i c, has cs i c -> ~ own c x) -> same_at st st' x)).
  { intros T2. exists (PNode nid true cs), (set_node nid (mkNode true path (Some ids)) st).
    split; [reflexivity|]. split; [reflexivity|]. split.
    { constructor; try assumption.
      - apply set_agree. eapply (node_ok_inner _ _ (next_node_id st)); [exact Hl|exact Hnx| |].
        + intros i c Hi. eapply Hb; [exact Hi|apply own_pid].
        + unfold u64 in *. lia.
      - intros i c Hi. eapply good_frame; [exact (Hc _ _ Hi)|]. intros x Hx. apply set_same.
        intros ->. eapply Hid; eassumption.
      - discriminate. }
    split.
    { intros k. split.
      - intros Hk. inversion Hk; subst. eauto 8.
      - intros (b & c & k' & -> & Hh & Hk). econstructor; eassumption. }
    split; [reflexivity|]. split; [|split].
    - intros x Hx. inversion Hx; subst; eauto.
    - intros x (i & c & Hi & Hx). left. econstructor; eassumption.
    - intros x Hx _. apply set_same. exact Hx. }
  destruct S as [(-> & Hall)|[(-> & Ei & Hone)|(-> & j1 & j2 & x1 & x2 & E1 & E2 & Hj)]].
  - exfalso. destruct Hex as (i & c & Hi). eapply Hall. apply has_map. exact Hi.
  - cbn [N.eqb]. replace (1 =? 1)%N with true by reflexivity.
    apply has_map_inv in Ei as (c & Hi & ->).
    pose proof (Hc _ _ Hi) as Gc. rewrite (get_agree _ _ _ (good_agree _ _ _ _ Gc)). cbn [bind].
    assert (Honly : forall j c', has cs j c' -> j = hi /\ c' = c).
    { intros j c' Hj. pose proof (Hone _ _ (has_map _ _ _ Hj)) as ->. unfold has in *.
      split; congruence. }
    pose proof (has_lt _ _ _ Hi) as Hlt. rewrite Hl in Hlt.
    rewrite is_leaf_cell. destruct c as [cid s|cid dd cs0]; cbn [pleaf bind].
    + cbn [cell nhash pid].
      set (nd := mkNode false (b8 (N.of_nat hi) :: s) None).
      set (st1 := delete_node cid st).
      inversion Gc as [n' p' id' s' Hs Ha|]; subst.
      assert (Hcn : cid <> nid).
      { intros ->. eapply Hid; [exact Hi|constructor]. }
      exists (PLeaf nid (b8 (N.of_nat hi) :: s)), (set_node nid nd st1).
      split; [reflexivity|]. split; [reflexivity|]. split.
      { constructor; [cbn [length]; lia|]. apply set_agree. apply node_ok_leaf. unfold u64 in *. cbn [length]. lia. }
      split.
      { intros k. split.
        - intros Hk. inversion Hk; subst. exists (b8 (N.of_nat hi)), (PLeaf cid s), s.
          rewrite idx_b8 by lia. split; [reflexivity|]. split; [exact Hi|constructor].
        - intros (b & c & k' & -> & Hh & Hk). apply Honly in Hh as [<- ->].
          inversion Hk; subst. rewrite b8_idx. constructor. }
      split; [reflexivity|]. split; [|split].
      * intros x Hx. inversion Hx; subst. auto.
      * intros x (i & c & Hh & Hx). apply Honly in Hh as [-> ->]. inversion Hx; subst. right.
        destruct (set_same st1 nid nd x Hcn) as [_ ->]. apply delete_absent.
      * intros x Hx Hno. eapply same_trans; [apply delete_same|apply set_same; exact Hx].
        intros ->. eapply Hno; [exact Hi|constructor].
    + apply Inner. inversion Gc as [|? ? ? ? ? ? ? ? ? ? T2 ?]; subst.
      eapply (two_members_lift _ _ _ (b8 (N.of_nat hi))); [rewrite idx_b8 by lia; exact Hi|exact T2].
  - cbn [N.eqb]. replace (2 =? 1)%N with false by reflexivity. cbn [bind].
    apply Inner.
    apply has_map_inv in E1 as (c1 & H1 & ->). apply has_map_inv in E2 as (c2 & H2 & ->).
    destruct (has_member _ _ _ _ (Hc _ _ H1)) as [k1 M1].
    destruct (has_member _ _ _ _ (Hc _ _ H2)) as [k2 M2].
    pose proof (has_lt _ _ _ H1). pose proof (has_lt _ _ _ H2).
    exists (b8 (N.of_nat j1) :: k1), (b8 (N.of_nat j2) :: k2). repeat split.
    + econstructor; [rewrite idx_b8 by lia; exact H1|exact M1].
    + econstructor; [rewrite idx_b8 by lia; exact H2|exact M2].
    + intros E. apply Hj. injection E as E _. rewrite <- (idx_b8 j1), <- (idx_b8 j2) by lia. congruence.
Qed.

Lemma node_remove_spec d : forall n path t st,
  good st n path t -> pleaf t = false -> mem t d -> below st t ->
  (next_node_id st <= two64)%N ->
  u64 (N.of_nat (length path + n)) ->
  exists t' st', node_remove d path (cell path t) st = Ok (pid t', st') /\
    good st' n path t' /\ removed st st' t t' d.
Proof.
  induction d as [|b d IH]; intros n path t st G Hlf Hm Hb Hnx Hu.
  { inversion Hm; subst; discriminate. }
  inversion G as [n0 p id s Hl Ha|n0 p id dd cs Hl Ha Hc Hid Hdj H2 Hcl]; subst; [discriminate|].
  inversion Hm as [|? ? ? ? c ? Hh Hmc]; subst.
  assert (Hidx : (idx b < 256)%nat) by apply idx_lt.
  pose proof (Hc _ _ Hh) as Gc. rewrite b8_idx in Gc.
  assert (Hbx : forall j x y, has cs j x -> own x y -> (y < next_node_id st)%N).
  { intros j x y Hx Hy. apply Hb. econstructor; eassumption. }
  assert (Hdjc : forall j x y, j <> idx b -> has cs j x -> own x y -> ~ own c y).
  { intros j x y Hj Hx Hy Hy'. apply Hj. eapply Hdj; eassumption. }
  (* what happens after the child was dealt with *)
  assert (Fin : forall o st1,
    (forall c', o = Some c' -> good st1 n0 (path ++ [b]) c') ->
    next_node_id st1 = next_node_id st ->
    (forall k, (exists c', o = Some c' /\ mem c' k) <-> mem c k /\ k <> d) ->
    (forall c' x, o = Some c' -> own c' x -> own c x /\ x <> pid c) ->
    (forall x, own c x -> x <> pid c -> (exists c', o = Some c' /\ own c' x) \/ storage st1 x = None) ->
    (forall x, ~ own c x -> same_at st st1 x) ->
    exists t' st', finish_remove path (pid c) (map (option_map pid) (set_nth (idx b) o cs)) st1
        = Ok (pid t', st') /\
      good st' (S n0) path t' /\ removed st st' (PNode id dd cs) t' (b :: d)).
  { intros o st1 Go Nx Mo Oo Oo' So.
    set (cs' := set_nth (idx b) o cs).
    assert (Hinv : forall j x, has cs' j x -> (j = idx b /\ o = Some x) \/ (j <> idx b /\ has cs j x)).
    { intros j x Hj. apply has_set_inv in Hj as [[<- Ej]|[Hne Hj]]; auto. }
    assert (Hset : forall x, o = Some x -> has cs' (idx b) x).
    { intros x ->. apply has_set_eq. rewrite Hl. exact Hidx. }
    assert (Hkeep : forall j x, j <> idx b -> has cs j x -> has cs' j x).
    { intros j x Hj Hx. apply has_set_neq; [auto|exact Hx]. }
    destruct (finish_spec path (pid c) cs' st1 n0) as
      (t' & st' & E & Ep & G' & Hm' & Hn' & Ho & Ho' & Hs).
    - unfold cs'. rewrite set_nth_length. exact Hl.
    - intros j x Hj. apply Hinv in Hj as [[-> Ej]|[Hne Hj]].
      + rewrite b8_idx. apply Go. exact Ej.
      + eapply good_frame; [exact (Hc _ _ Hj)|]. intros y Hy. apply So. eapply Hdjc; eassumption.
    - intros j x Hj Hx. apply Hinv in Hj as [[-> Ej]|[Hne Hj]].
      + apply (Oo _ _ Ej) in Hx as [_ Hx]. contradiction.
      + eapply Hdjc; [exact Hne|exact Hj|exact Hx|apply own_pid].
    - intros j1 j2 y1 y2 y A B O1 O2.
      apply Hinv in A as [[-> A]|[Hne1 A]], B as [[-> B]|[Hne2 B]].
      + reflexivity.
      + exfalso. apply (Oo _ _ A) in O1 as [O1 _]. eapply Hdjc; [exact Hne2|exact B|exact O2|exact O1].
      + exfalso. apply (Oo _ _ B) in O2 as [O2 _]. eapply Hdjc; [exact Hne1|exact A|exact O1|exact O2].
      + eapply Hdj; eassumption.
    - intros j x y Hj Hy. rewrite Nx. apply Hinv in Hj as [[-> Ej]|[Hne Hj]].
      + apply (Oo _ _ Ej) in Hy as [Hy _]. eapply Hbx; eassumption.
      + eapply Hbx; eassumption.
    - (* some child is left: one of two different members is not the removed one *)
      destruct H2 as (k1 & k2 & M1 & M2 & Hk).
      assert (Hex : exists k, mem (PNode id dd cs) k /\ k <> b :: d).
      { destruct (bytes_eq_dec k1 (b :: d)) as [->|]; [exists k2|exists k1]; auto. }
      destruct Hex as (k & Mk & Hkd). inversion Mk as [|? ? ? b' y k' Hy Mk']; subst.
      destruct (Nat.eq_dec (idx b') (idx b)) as [Ei|Ne].
      + apply idx_inj in Ei. subst b'. assert (y = c) as -> by (unfold has in *; congruence).
        destruct (proj2 (Mo k')) as (c' & Ec' & _); [split; [exact Mk'|congruence]|]. eauto.
      + exists (idx b'), y. auto.
    - lia.
    - exact Hu.
    - exists t', st'. split; [exact E|]. split; [exact G'|].
      split; [|split; [|split; [|split]]].
      + intros k. rewrite Hm'. split.
        * intros (b' & y & k' & -> & Hy & Mk). apply Hinv in Hy as [[Ei Ey]|[Hne Hy]].
          -- apply idx_inj in Ei. subst b'. destruct (proj1 (Mo k')) as [Mk' Hkd]; [eauto|].
             split; [econstructor; eassumption|congruence].
          -- split; [econstructor; eassumption|]. intros Eq. injection Eq as -> _. contradiction.
        * intros [Mk Hkd]. inversion Mk as [|? ? ? b' y k' Hy Mk']; subst.
          destruct (Nat.eq_dec (idx b') (idx b)) as [Ei|Ne].
          -- apply idx_inj in Ei. subst b'. assert (y = c) as -> by (unfold has in *; congruence).
             destruct (proj2 (Mo k')) as (c' & Ec' & Mc'); [split; [exact Mk'|congruence]|].
             exists b, c', k'. auto.
          -- exists b', y, k'. auto.
      + congruence.
      + cbn [pid]. intros x Hx. apply Ho in Hx as [->|(j & y & Hj & Hy)].
        * split; [econstructor; [exact Hh|apply own_pid]|]. intros Eq. eapply Hid; [exact Hh|].
          rewrite <- Eq. apply own_pid.
        * apply Hinv in Hj as [[-> Ej]|[Hne Hj]].
          -- apply (Oo _ _ Ej) in Hy as [Hy _].
             split; [econstructor; eassumption|]. intros ->. eapply Hid; eassumption.
          -- split; [econstructor; eassumption|]. intros ->. eapply Hid; eassumption.
      + cbn [pid]. intros x Hx Hne. inversion Hx as [|?|? ? ? j y ? Hj Hy]; subst; [contradiction|].
        destruct (Nat.eq_dec j (idx b)) as [->|Hjb].
        * assert (y = c) as -> by (unfold has in *; congruence).
          destruct (N.eq_dec x (pid c)) as [->|Hxc].
          -- left. rewrite <- Ep. apply own_pid.
          -- destruct (Oo' x Hy Hxc) as [(c' & Ec' & Hc')|Habs].
             ++ apply Ho'. eauto.
             ++ right. destruct (Hs x) as [_ ->]; [exact Hxc| |exact Habs].
                intros j' y' Hj' Hy'. apply Hinv in Hj' as [[-> Ej]|[Hne' Hj']].
                ** (* still owned by the new child: then it is stored *)
                   pose proof (Go _ Ej) as Gy. clear - Gy Hy' Habs.
                   assert (storage st1 x <> None); [|contradiction].
                   revert Hy'. induction Gy as [n0 p0 i0 s0 L0 A0|n0 p0 i0 d0 cs0 L0 A0 C0 IH0 I0 D0 T0 CL0]; intros Ho.
                   --- inversion Ho; subst. destruct A0 as (_ & -> & _). discriminate.
                   --- inversion Ho; subst; [destruct A0 as (_ & -> & _); discriminate|]. eapply IH0; eassumption.
                ** eapply Hdjc; [exact Hne'|exact Hj'|exact Hy'|exact Hy].
        * apply Ho'. exists j, y. auto.
      + intros x Hx. eapply same_trans.
        * apply So. intros Hcx. apply Hx. econstructor; eassumption.
        * apply Hs.
          -- intros ->. apply Hx. econstructor; [exact Hh|apply own_pid].
          -- intros j y Hj Hy. apply Hx. apply Hinv in Hj as [[-> Ej]|[Hne Hj]].
             ++ apply (Oo _ _ Ej) in Hy as [Hy _]. econstructor; eassumption.
             ++ econstructor; eassumption. }
  cbn [cell node_remove children length].
  rewrite (has_map cs (idx b) c Hh).
  rewrite (get_agree _ _ _ (good_agree _ _ _ _ Gc)). cbn [bind].
  rewrite is_leaf_cell. destruct (pleaf c) eqn:Elf.
  - destruct c as [cid s|]; [|discriminate]. cbn [bind].
    inversion Hmc; subst.
    destruct (Fin None st) as (t' & st' & E & G' & R).
    + discriminate.
    + reflexivity.
    + intros k. split.
      * intros (c' & Ec' & _). discriminate.
      * intros [Mk Hk]. inversion Mk; subst. contradiction.
    + discriminate.
    + intros x Hx Hne. inversion Hx; subst. contradiction.
    + intros x _. apply same_refl.
    + exists t', st'. split; [|split; [exact G'|exact R]].
      rewrite map_set_nth in E. exact E.
  - destruct (IH n0 (path ++ [b]) c st) as (c' & st1 & E & Gc' & R1 & R2 & R3 & R4 & R5).
    + exact Gc.
    + exact Elf.
    + exact Hmc.
    + intros x Hx. apply Hb. econstructor; eassumption.
    + exact Hnx.
    + unfold u64 in *. rewrite app_length. cbn [length] in *. lia.
    + rewrite E. cbn [bind].
      destruct (Fin (Some c') st1) as (t' & st' & E' & G' & R).
      * intros c0 E0. injection E0 as <-. exact Gc'.
      * exact R2.
      * intros k. rewrite <- R1. split.
        -- intros (c0 & E0 & M0). injection E0 as <-. exact M0.
        -- intros M0. eauto.
      * intros c0 x E0 Hx. injection E0 as <-. apply R3. exact Hx.
      * intros x Hx Hne. destruct (R4 x Hx Hne); eauto.
      * exact R5.
      * exists t', st'. split; [|split; [exact G'|exact R]].
        rewrite map_set_nth in E'. exact E'.
Qed.

(** ** Computing hashes *)

(** All dirty flags cleared. *)
Fixpoint cl (t : ptree) : ptree :=
  match t with
  | PLeaf id s => PLeaf id s
  | PNode id _ cs =>
      PNode id false (map (fun o => match o with Some c => Some (cl c) | None => None end) cs)
  end.

Definition clo (o : option ptree) : option ptree :=
  match o with Some c => Some (cl c) | None => None end.

Lemma has_cl cs i c : has (map clo cs) i c <-> exists c0, has cs i c0 /\ c = cl c0.
Proof.
  unfold has. rewrite nth_error_map. destruct (nth_error cs i) as [[c0|]|]; cbn.
  - split; [intros E; injection E as <-; eauto|intros (c1 & E & ->); congruence].
  - split; [discriminate|intros (c1 & E & _); discriminate].
  - split; [discriminate|intros (c1 & E & _); discriminate].
Qed.

Lemma pid_cl t : pid (cl t) = pid t.
Proof. destruct t; reflexivity. Qed.
Lemma pleaf_cl t : pleaf (cl t) = pleaf t.
Proof. destruct t; reflexivity. Qed.
Lemma pclean_cl t : pclean (cl t).
Proof. destruct t; cbn; auto. Qed.

Lemma map_pid_cl cs : map (option_map pid) (map clo cs) = map (option_map pid) cs.
Proof. rewrite map_map. apply map_ext. intros [c|]; cbn; [rewrite pid_cl|]; reflexivity. Qed.

Lemma mem_cl1 t k : mem t k -> mem (cl t) k.
Proof.
  induction 1 as [id s|id d cs b c k Hh Hm IH]; [constructor|].
  cbn [cl]. econstructor; [|exact IH]. apply has_cl. eauto.
Qed.

Lemma own_cl1 t x : own t x -> own (cl t) x.
Proof.
  induction 1 as [id s|id d cs|id d cs i c x Hh Ho IH]; cbn [cl]; [constructor|constructor|].
  econstructor; [|exact IH]. apply has_cl. eauto.
Qed.

Lemma own_cl2 st n path t x : good st n path t -> own (cl t) x -> own t x.
Proof.
  induction 1 as [n path id s Hl Ha|n path id d cs Hl Ha Hc IH Hid Hdj H2 Hcl]; cbn [cl]; intros Ho.
  - exact Ho.
  - inversion Ho as [|?|? ? ? j c ? Hj Hx]; subst; [constructor|].
    apply has_cl in Hj as (c0 & Hj & ->). econstructor; [exact Hj|]. eapply IH; eassumption.
Qed.

Lemma mem_cl2 st n path t k : good st n path t -> mem (cl t) k -> mem t k.
Proof.
  intros G. revert k. induction G as [n path id s Hl Ha|n path id d cs Hl Ha Hc IH Hid Hdj H2 Hcl];
    cbn [cl]; intros k Hk.
  - exact Hk.
  - inversion Hk as [|? ? ? b c k' Hj Hk']; subst.
    apply has_cl in Hj as (c0 & Hj & ->). econstructor; [exact Hj|]. eapply IH; eassumption.
Qed.

Lemma clean_cl st n path t : good st n path t -> pclean t -> cl t = t.
Proof.
  induction 1 as [n path id s Hl Ha|n path id d cs Hl Ha Hc IH Hid Hdj H2 Hcl]; intros Hp;
    [reflexivity|].
  cbn in Hp. subst d. cbn [cl]. f_equal.
  assert (Hx : forall o, In o cs -> clo o = o).
  { intros [c|] Ho; [|reflexivity]. apply In_nth_error in Ho as [i Hi]. cbn.
    rewrite (IH i c Hi); [reflexivity|]. eapply Hcl; [reflexivity|exact Hi]. }
  revert Hx. generalize cs. clear. induction cs as [|o cs IH]; intros Hx; [reflexivity|].
  cbn. f_equal; [apply Hx; left; reflexivity|apply IH; intros; apply Hx; right; assumption].
Qed.

Lemma children_string_cl path n st : forall cs i,
  (forall j c, has cs j c -> good st n (path ++ [b8 (N.of_nat (i + j))]) c) ->
  (forall j c, has cs j c -> forall p, digest p (cl c) = digest p c) ->
  children_string path i (map clo cs) = children_string path i cs.
Proof.
  induction cs as [|[c|] cs IH]; intros i Hg Hd; cbn [map clo children_string].
  - reflexivity.
  - rewrite pleaf_cl, (Hd 0%nat c) by reflexivity. f_equal. apply IH.
    + intros j c' Hj. replace (S i + j)%nat with (i + S j)%nat by lia. apply Hg. exact Hj.
    + intros j c' Hj. apply (Hd (S j)). exact Hj.
  - apply IH.
    + intros j c' Hj. replace (S i + j)%nat with (i + S j)%nat by lia. apply Hg. exact Hj.
    + intros j c' Hj. apply (Hd (S j)). exact Hj.
Qed.

Lemma digest_cl st n path t : good st n path t -> forall p, digest p (cl t) = digest p t.
Proof.
  induction 1 as [n path id s Hl Ha|n path id d cs Hl Ha Hc IH Hid Hdj H2 Hcl]; intros p;
    [reflexivity|].
  cbn [cl]. fold clo. rewrite !digest_node. do 3 f_equal.
  assert (Hgen : forall r i, (forall j c, has r j c -> forall p, digest p (cl c) = digest p c) ->
     children_string p i (map clo r) = children_string p i r).
  { clear. induction r as [|[c|] r IH]; intros i Hd; cbn [map clo children_string]; [reflexivity| |].
    - rewrite pleaf_cl, (Hd 0%nat c) by reflexivity. f_equal. apply IH. intros j c' Hj. exact (Hd (S j) c' Hj).
    - apply IH. intros j c' Hj. exact (Hd (S j) c' Hj). }
  apply Hgen. intros j c Hj q. eapply IH. exact Hj.
Qed.

Definition calc_ok (n : nat) (path : bytes) (c : ptree) (st : store)
    (o : outcome trie_error (node * store)) : Prop :=
  exists st', o = Ok (cell path (cl c), st') /\ next_node_id st' = next_node_id st /\
    good (set_node (pid c) (cell path (cl c)) st') n path (cl c) /\
    (forall x, ~ own c x -> same_at st st' x).

Lemma hash_children_spec rec n path : forall r i st,
  (forall j c st, has r j c -> good st n (path ++ [b8 (N.of_nat (i + j))]) c ->
     calc_ok n (path ++ [b8 (N.of_nat (i + j))]) c st
       (rec (cell (path ++ [b8 (N.of_nat (i + j))]) c) st)) ->
  (forall j c, has r j c -> good st n (path ++ [b8 (N.of_nat (i + j))]) c) ->
  (forall i j c c' x, has r i c -> has r j c' -> own c x -> own c' x -> i = j) ->
  exists st', hash_children rec (map (option_map pid) r) st = Ok st' /\
    next_node_id st' = next_node_id st /\
    (forall j c, has r j c -> good st' n (path ++ [b8 (N.of_nat (i + j))]) (cl c)) /\
    (forall x, (forall j c, has r j c -> ~ own c x) -> same_at st st' x).
Proof.
  induction r as [|[c|] r IH]; intros i st Hrec Hg Hdj.
  - exists st. cbn. repeat split. intros [|j] c Hj; discriminate.
  - cbn [map option_map hash_children].
    pose proof (Hg 0%nat c eq_refl) as Gc. rewrite Nat.add_0_r in Gc.
    rewrite (get_agree _ _ _ (good_agree _ _ _ _ Gc)). cbn [bind].
    assert (Hdj' : forall j c' x, has r j c' -> own c x -> ~ own c' x).
    { intros j c' x Hj O1 O2. specialize (Hdj 0%nat (S j) c c' x eq_refl Hj O1 O2). discriminate. }
    (* one child dealt with: the rest *)
    assert (Rest : forall st1, next_node_id st1 = next_node_id st ->
       good st1 n (path ++ [b8 (N.of_nat i)]) (cl c) ->
       (forall x, ~ own c x -> same_at st st1 x) ->
       exists st', hash_children rec (map (option_map pid) r) st1 = Ok st' /\
         next_node_id st' = next_node_id st /\
         (forall j c0, has (Some c :: r) j c0 -> good st' n (path ++ [b8 (N.of_nat (i + j))]) (cl c0)) /\
         (forall x, (forall j c0, has (Some c :: r) j c0 -> ~ own c0 x) -> same_at st st' x)).
    { intros st1 N1 G1 S1.
      destruct (IH (S i) st1) as (st' & E & N' & G' & S').
      - intros j c' st0 Hj. replace (S i + j)%nat with (i + S j)%nat by lia. apply Hrec. exact Hj.
      - intros j c' Hj. replace (S i + j)%nat with (i + S j)%nat by lia.
        eapply good_frame; [exact (Hg (S j) c' Hj)|]. intros x Hx. apply S1. intros Hc.
        eapply Hdj'; eassumption.
      - intros j1 j2 c1 c2 x A B O1 O2. specialize (Hdj (S j1) (S j2) c1 c2 x A B O1 O2). lia.
      - exists st'. split; [exact E|]. split; [congruence|]. split.
        + intros [|j] c0 Hj.
          * injection Hj as <-. rewrite Nat.add_0_r. eapply good_frame; [exact G1|].
            intros x Hx. apply S'. intros j c' Hj. apply (own_cl2 _ _ _ _ _ Gc) in Hx.
            eapply Hdj'; eassumption.
          * replace (i + S j)%nat with (S i + j)%nat by lia. apply G'. exact Hj.
        + intros x Hx. eapply same_trans; [apply S1; apply (Hx 0%nat); reflexivity|].
          apply S'. intros j c0 Hj. apply (Hx (S j)). exact Hj. }
    destruct (negb (is_leaf (cell (path ++ [b8 (N.of_nat i)]) c)) &&
              dirty (cell (path ++ [b8 (N.of_nat i)]) c)) eqn:Ed.
    + specialize (Hrec 0%nat c st eq_refl). rewrite Nat.add_0_r in Hrec.
      destruct (Hrec Gc) as (st1 & E1 & N1 & G1 & S1). rewrite E1. cbn [bind].
      apply Rest.
      * exact N1.
      * exact G1.
      * intros x Hx. eapply same_trans; [apply S1; exact Hx|]. apply set_same.
        intros ->. apply Hx. apply own_pid.
    + apply Rest.
      * reflexivity.
      * rewrite (clean_cl _ _ _ _ Gc); [exact Gc|]. destruct c; cbn in *; [exact I|exact Ed].
      * intros x _. apply same_refl.
  - cbn [map option_map hash_children].
    destruct (IH (S i) st) as (st' & E & N' & G' & S').
    + intros j c' st0 Hj. replace (S i + j)%nat with (i + S j)%nat by lia. apply Hrec. exact Hj.
    + intros j c' Hj. replace (S i + j)%nat with (i + S j)%nat by lia. apply Hg. exact Hj.
    + intros j1 j2 c1 c2 x A B O1 O2. specialize (Hdj (S j1) (S j2) c1 c2 x A B O1 O2). lia.
    + exists st'. split; [exact E|]. split; [exact N'|]. split.
      * intros [|j] c0 Hj; [discriminate|].
        replace (i + S j)%nat with (S i + j)%nat by lia. apply G'. exact Hj.
      * intros x Hx. apply S'. intros j c0 Hj. apply (Hx (S j)). exact Hj.
Qed.

Lemma cell_clean_hash path c : pclean c -> nhash (cell path c) = digest path c.
Proof. destruct c as [|id d cs]; cbn [cell nhash]; [reflexivity|]. cbn. intros ->. reflexivity. Qed.

Lemma accumulate_spec n path st : forall r i,
  (forall j c, has r j c -> good st n (path ++ [b8 (N.of_nat (i + j))]) (cl c)) ->
  accumulate i (map (option_map pid) r) st = Ok (children_string path i (map clo r), st).
Proof.
  induction r as [|[c|] r IH]; intros i Hg; cbn [map option_map accumulate clo children_string].
  - reflexivity.
  - pose proof (Hg 0%nat c eq_refl) as Gc. rewrite Nat.add_0_r in Gc.
    pose proof (good_agree _ _ _ _ Gc) as Ag. rewrite pid_cl in Ag.
    rewrite (get_agree _ _ _ Ag). cbn [bind]. rewrite IH.
    + cbn [bind]. rewrite is_leaf_cell, cell_clean_hash by apply pclean_cl. reflexivity.
    + intros j c' Hj. replace (S i + j)%nat with (i + S j)%nat by lia. apply Hg. exact Hj.
  - apply IH. intros j c' Hj. replace (S i + j)%nat with (i + S j)%nat by lia. apply Hg. exact Hj.
Qed.

(** The identifiers met on the way down. *)
Inductive descent : ptree -> list N -> Prop :=
| descent_here t : descent t [pid t]
| descent_child id d cs i c l : has cs i c -> descent c l -> descent (PNode id d cs) (id :: l).
Lemma descent_own t l : descent t l -> forall x, In x l -> own t x.
Proof.
  induction 1 as [t|id d cs i c l Hi Hl IH]; intros x [<-|Hx].
  - apply own_pid.
  - destruct Hx.
  - constructor.
  - econstructor; [exact Hi|apply IH; exact Hx].
Qed.
Lemma descent_nodup st n path t l : good st n path t -> descent t l -> NoDup l.
Proof.
  intros G D. revert n path G. induction D as [t|id d cs i c l Hi Hl IH]; intros n path G.
  - constructor; [intros []|constructor].
  - inversion G as [|? ? ? ? ? Hc256 Ha Hc Hid Hdj H2 Hcl]; subst. constructor.
    + intros Hx. exact (Hid _ _ Hi (descent_own _ _ Hl _ Hx)).
    + exact (IH _ _ (Hc _ _ Hi)).
Qed.
Lemma nodup_below (l : list N) b : NoDup l -> (forall x, In x l -> (x < b)%N) -> (length l <= N.to_nat b)%nat.
Proof.
  intros Hn Hb. rewrite <- (map_length N.to_nat l), <- (seq_length (N.to_nat b) 0). apply NoDup_incl_length.
  - apply FinFun.Injective_map_NoDup; [|exact Hn]. intros x y E. lia.
  - intros y Hy. apply in_map_iff in Hy as (x & <- & Hx). apply Hb in Hx. apply in_seq. lia.
Qed.
Lemma descent_short st n path t l : good st n path t -> below st t -> descent t l -> (length l <= N.to_nat (next_node_id st))%nat.
Proof.
  intros G Hb D. apply nodup_below; [exact (descent_nodup _ _ _ _ _ G D)|]. intros x Hx. apply Hb. exact (descent_own _ _ D _ Hx).
Qed.

Lemma calculate_hash_spec : forall fuel n path t st,
  good st n path t -> (forall l, descent t l -> (length l <= fuel)%nat) ->
  calc_ok n path t st (calculate_hash H fuel (cell path t) st).
Proof.
  induction fuel as [|fuel IHn]; intros n path t st G Hf.
  { pose proof (Hf _ (descent_here t)) as X. cbn in X. lia. }
  assert (Keep : cl t = t -> calc_ok n path t st (Ok (cell path t, st))).
  { intros E. exists st. rewrite E. split; [reflexivity|]. split; [reflexivity|]. split.
    - inversion G as [n' p id s Hl Ha|n' p id d cs Hl Ha Hc Hid Hdj H2 Hcl]; subst.
      + constructor; [exact Hl|]. apply set_agree. apply Ha.
      + constructor; try assumption.
        * apply set_agree. apply Ha.
        * intros i c Hi. eapply good_frame; [exact (Hc _ _ Hi)|]. intros x Hx. apply set_same.
          intros ->. eapply Hid; eassumption.
    - intros x _. apply same_refl. }
  inversion G as [n' p id s Hl Ha|n' p id d cs Hl Ha Hc Hid Hdj H2 Hcl]; subst.
  { cbn [calculate_hash children cell]. apply Keep. reflexivity. }
  cbn [calculate_hash cell children dirty]. destruct d; cbn [negb].
  2:{ apply Keep. apply (clean_cl _ _ _ _ G). reflexivity. }
  destruct (hash_children_spec (calculate_hash H fuel) n' path cs 0 st) as (st' & E & N' & G' & S').
  - intros j c st0 Hj Gc. apply IHn; [exact Gc|]. intros l Dl. pose proof (Hf _ (descent_child id true cs j c l Hj Dl)) as X. cbn [length] in X. lia.
  - exact Hc.
  - exact Hdj.
  - rewrite E. cbn [bind]. rewrite (accumulate_spec n' path st' cs 0 G'). cbn [bind].
    cbn [nhash].
    set (t' := cl (PNode id true cs)).
    assert (Et : t' = PNode id false (map clo cs)) by reflexivity.
    assert (Ec : cell path t' =
       mkNode false (H (b8 (N.of_nat (length path)) :: path ++ children_string path 0 (map clo cs)))
         (Some (map (option_map pid) cs))).
    { rewrite Et. cbn [cell]. rewrite digest_node, map_pid_cl. reflexivity. }
    unfold calc_ok. fold t'. exists st'. split; [rewrite Ec; reflexivity|]. split; [exact N'|]. split.
    + rewrite Et at 2. cbn [pid]. constructor.
      * rewrite map_length. exact Hl.
      * rewrite <- Et. apply set_agree. rewrite Ec. destruct Ha as (_ & _ & _ & Hok). cbn in Hok.
        split; [cbn; rewrite Hlen; reflexivity|exact Hok].
      * intros i c Hi. apply has_cl in Hi as (c0 & Hi & ->).
        eapply good_frame; [exact (G' _ _ Hi)|]. intros x Hx. apply set_same. intros ->.
        apply (own_cl2 _ _ _ _ _ (Hc _ _ Hi)) in Hx. eapply Hid; eassumption.
      * intros i c Hi. apply has_cl in Hi as (c0 & Hi & ->). intros Hx.
        apply (own_cl2 _ _ _ _ _ (Hc _ _ Hi)) in Hx. eapply Hid; eassumption.
      * intros i j c c' x A B O1 O2.
        apply has_cl in A as (c1 & A & ->). apply has_cl in B as (c2 & B & ->).
        apply (own_cl2 _ _ _ _ _ (Hc _ _ A)) in O1. apply (own_cl2 _ _ _ _ _ (Hc _ _ B)) in O2.
        eapply Hdj; eassumption.
      * destruct H2 as (k1 & k2 & M1 & M2 & Hk). exists k1, k2.
        apply mem_cl1 in M1. apply mem_cl1 in M2. repeat split; assumption.
      * intros _ i c Hi. apply has_cl in Hi as (c0 & _ & ->). apply pclean_cl.
    + intros x Hx. apply S'. intros j c Hj Hox. apply Hx. econstructor; eassumption.
Qed.
End Hash.
