(** The trie refines a set of keys; storage and root hash. *)
From Verif Require Import Base BaseFacts TrieModel TrieSpec TrieCodecProofs TrieProofs.

(** ** Sets of keys as lists *)

Lemma is_member_spec k S : is_member k S = true <-> In k S.
Proof.
  unfold is_member. rewrite existsb_exists. split.
  - intros (x & Hx & E). apply bytes_eqb_spec in E. subst. exact Hx.
  - intros Hk. exists k. split; [exact Hk|apply bytes_eqb_refl].
Qed.

Lemma in_remove_key k S x : In x (remove_key k S) <-> In x S /\ x <> k.
Proof.
  unfold remove_key. rewrite filter_In. split; intros [A B]; split; try exact A.
  - intros ->. rewrite bytes_eqb_refl in B. discriminate.
  - destruct (bytes_eqb_reflect k x) as [->|]; [contradiction|reflexivity].
Qed.

Lemma in_tails b S k : In k (tails b S) <-> In (b :: k) S.
Proof.
  induction S as [|[|c s] S IH]; cbn [tails].
  - reflexivity.
  - cbn. rewrite IH. intuition discriminate.
  - destruct (byte_eqb_reflect b c) as [->|Hn]; cbn; rewrite IH.
    + split; intros [E|?]; auto; left; congruence.
    + split; [auto|]. intros [E|?]; [congruence|assumption].
Qed.

Lemma nodup_tails b S : NoDup S -> NoDup (tails b S).
Proof.
  induction S as [|[|c s] S IH]; cbn [tails]; intros Hn; [constructor| |].
  - apply IH. inversion Hn; assumption.
  - inversion Hn as [|? ? Hni Hn']; subst.
    destruct (byte_eqb_reflect b c) as [->|_]; [|apply IH; exact Hn'].
    constructor; [|apply IH; exact Hn']. rewrite in_tails. exact Hni.
Qed.

Lemma members_nodup_step S o : NoDup S -> NoDup (members_step S o).
Proof.
  intros Hn. destruct o as [k|k|]; cbn; [|apply NoDup_filter; exact Hn|exact Hn].
  destruct (is_member k S) eqn:E; [exact Hn|]. constructor; [|exact Hn].
  rewrite <- is_member_spec, E. discriminate.
Qed.

(** ** Labels *)

(** The string whose hash is the label of an inner subtree. *)
Definition label_string (H : bytes -> bytes) (n : nat) (path : bytes) (S : list bytes) : bytes :=
  b8 (N.of_nat (length path)) :: path ++
  flat_map (fun b =>
    match tails b S with
    | [] => []
    | T => let '(leaf, h) := set_label H n (path ++ [b]) T in
           (if leaf then x00 else x01) :: b8 (N.of_nat (length h)) :: b :: h
    end) all_bytes.

Lemma set_label_inner H n path S :
  length S <> 1%nat -> set_label H (Datatypes.S n) path S = (false, H (label_string H n path S)).
Proof. destruct S as [|a [|b S]]; cbn [length]; intros Hl; [reflexivity|lia|reflexivity]. Qed.

Lemma two_length (S : list bytes) k1 k2 : In k1 S -> In k2 S -> k1 <> k2 -> length S <> 1%nat.
Proof.
  intros A B Hn. destruct S as [|a [|b S]]; cbn; [contradiction| |lia].
  destruct A as [->|[]], B as [->|[]]. contradiction.
Qed.

Lemma children_flat H path (f : nat -> bytes) : forall cs i,
  (forall j, match nth_error cs j with
             | Some (Some c) => f (i + j)%nat =
                 entry (pleaf c) (i + j) (digest H (path ++ [b8 (N.of_nat (i + j))]) c)
             | Some None => f (i + j)%nat = []
             | None => True
             end) ->
  children_string H path i cs = flat_map f (seq i (length cs)).
Proof.
  induction cs as [|o cs IH]; intros i Hf; cbn [children_string length seq flat_map]; [reflexivity|].
  pose proof (Hf 0%nat) as H0. rewrite Nat.add_0_r in H0. cbn in H0.
  rewrite <- (IH (S i)).
  - destruct o as [c|]; rewrite H0; reflexivity.
  - intros j. specialize (Hf (S j)). replace (S i + j)%nat with (i + S j)%nat by lia. exact Hf.
Qed.

Lemma flat_map_map {A B C} (f : B -> list C) (g : A -> B) l :
  flat_map f (map g l) = flat_map (fun x => f (g x)) l.
Proof. induction l as [|x l IH]; cbn; congruence. Qed.

Lemma label_digest H st n path t S :
  good H st n path t -> NoDup S -> (forall k, mem t k <-> In k S) ->
  set_label H n path S = (pleaf t, digest H path t).
Proof.
  intros G. revert S. induction G as [n path id s Hl Ha|n path id d cs Hl Ha Hc IH Hid Hdj H2 Hcl];
    intros S Hn Hm.
  - assert (HS : forall k, In k S -> k = s).
    { intros k Hk. apply Hm in Hk. inversion Hk; reflexivity. }
    assert (S = [s]) as ->.
    { destruct S as [|a [|b S]].
      - exfalso. apply (proj1 (Hm s)). constructor.
      - f_equal. apply HS. left. reflexivity.
      - exfalso. inversion Hn as [|? ? Hni _]; subst. apply Hni. left.
        rewrite (HS a), (HS b); [reflexivity|right; left; reflexivity|left; reflexivity]. }
    destruct n; reflexivity.
  - destruct H2 as (k1 & k2 & M1 & M2 & Hk).
    rewrite set_label_inner by (apply (two_length S k1 k2); [apply Hm; exact M1|apply Hm; exact M2|exact Hk]).
    cbn [pleaf]. rewrite digest_node. f_equal. f_equal. unfold label_string. f_equal. f_equal.
    unfold all_bytes. rewrite flat_map_map.
    rewrite (children_flat H path (fun x => match tails (b8 (N.of_nat x)) S with
       | [] => []
       | T => let '(leaf, h) := set_label H n (path ++ [b8 (N.of_nat x)]) T in
              (if leaf then x00 else x01) :: b8 (N.of_nat (length h)) :: b8 (N.of_nat x) :: h
       end)).
    + rewrite Hl. reflexivity.
    + intros j. cbn [Nat.add]. destruct (nth_error cs j) as [[c|]|] eqn:Ej; [| |exact I].
      * assert (Hj : (j < 256)%nat) by (rewrite <- Hl; apply nth_error_Some; congruence).
        assert (HT : forall k, mem c k <-> In k (tails (b8 (N.of_nat j)) S)).
        { intros k. rewrite in_tails, <- Hm. split.
          - intros Hk'. econstructor; [|exact Hk']. unfold has. rewrite idx_b8 by exact Hj. exact Ej.
          - intros Hk'. inversion Hk' as [|? ? ? ? c' ? Hh Hc']; subst. unfold has in Hh.
            rewrite idx_b8 in Hh by exact Hj. assert (c' = c) as -> by congruence. exact Hc'. }
        specialize (IH j c Ej (tails (b8 (N.of_nat j)) S) (nodup_tails _ _ Hn) HT).
        destruct (tails (b8 (N.of_nat j)) S) as [|a T] eqn:ET.
        -- exfalso. destruct (has_member _ _ _ _ _ (Hc _ _ Ej)) as [k Hk']. apply HT in Hk'. destruct Hk'.
        -- rewrite IH. reflexivity.
      * assert (Hj : (j < 256)%nat) by (rewrite <- Hl; apply nth_error_Some; congruence).
        destruct (tails (b8 (N.of_nat j)) S) as [|a T] eqn:ET; [reflexivity|]. exfalso.
        assert (Hin : In (b8 (N.of_nat j) :: a) S) by (apply in_tails; rewrite ET; left; reflexivity).
        apply Hm in Hin. inversion Hin as [|? ? ? ? c' ? Hh Hc']; subst. unfold has in Hh.
        rewrite idx_b8 in Hh by exact Hj. congruence.
Qed.

(** ** Invariant of the trie *)

(** The trie holds the keys [S], of at most [n] bytes, the first of which had [L] bytes. *)
Definition stands (H : bytes -> bytes) (n L : nat) (t : trie) (S : list bytes) : Prop :=
  match root t with
  | None => S = [] /\ (forall x, storage (tstore t) x = None)
  | Some r =>
      exists pt, pid pt = r /\ good H (tstore t) n [] pt /\ (forall k, mem pt k <-> In k S) /\
        (forall x, storage (tstore t) x <> None <-> own pt x) /\
        below (tstore t) pt /\ element_length t = N.of_nat L
  end.
Definition represents (H : bytes -> bytes) (n : nat) (t : trie) (S : list bytes) : Prop :=
  stands H n n t S /\ Forall (fun k => length k = n) S.

Lemma own_stored H st n path t x : good H st n path t -> own t x -> storage st x <> None.
Proof.
  induction 1 as [n path id s Hl Ha|n path id d cs Hl Ha Hc IH Hid Hdj H2 Hcl]; intros Ho.
  - inversion Ho; subst. destruct Ha as (_ & -> & _). discriminate.
  - inversion Ho; subst; [destruct Ha as (_ & -> & _); discriminate|]. eapply IH; eassumption.
Qed.

Lemma len32_small n (d : bytes) :
  (N.of_nat n < 2 ^ 32)%N -> (length d <= n)%nat -> len32 d = N.of_nat (length d).
Proof. intros Hn Hd. unfold len32. apply N.mod_small. lia. Qed.

Lemma begins_with_spec p : forall k, begins_with p k = true <-> exists r, k = p ++ r.
Proof.
  induction p as [|x p IH]; intros k; cbn [begins_with app].
  - split; [intros _; exists k; reflexivity|reflexivity].
  - destruct k as [|y k]; [split; [discriminate|intros [r E]; discriminate]|].
    rewrite andb_true_iff, IH. destruct (byte_eqb_reflect x y) as [->|Hn].
    + split; [intros [_ [r ->]]; exists r; reflexivity|intros [r E]; injection E as ->; split; [reflexivity|exists r; reflexivity]].
    + split; [intros [E _]; discriminate|intros [r E]; injection E as -> _; contradiction].
Qed.
Lemma clash_spec k x : begins_with k x || begins_with x k = true <-> comparable x k.
Proof. unfold comparable. rewrite orb_true_iff, !begins_with_spec. tauto. Qed.
Lemma member_iff k S : reflect (In k S) (is_member k S).
Proof. apply iff_reflect. symmetry. apply is_member_spec. Qed.
Lemma stands_empty H n L t S : stands H n L t S -> S = [] <-> root t = None.
Proof.
  unfold stands. destruct (root t) as [r|]; [|tauto]. intros (pt & _ & G & Hm & _). split; [|discriminate].
  intros ->. destruct (has_member _ _ _ _ _ G) as [k Hk]. apply Hm in Hk. destruct Hk.
Qed.
Lemma stands_longer H n n' L t S : stands H n L t S -> (n <= n')%nat -> stands H n' L t S.
Proof.
  unfold stands. destruct (root t) as [r|]; [|tauto]. intros (pt & E & G & R) Hn. exists pt. split; [exact E|]. split; [|exact R].
  apply (good_bound _ _ _ _ _ G). intros k Hk. pose proof (mem_length _ _ _ _ _ _ G Hk). lia.
Qed.

(** A leaf cannot be split when one key begins with the other. *)
Lemma first_diff_none s : forall d, comparable s d -> first_diff s d = None.
Proof.
  induction s as [|x s IH]; intros [|y d] C; cbn [first_diff]; try reflexivity.
  apply comparable_cons in C as [-> C]. rewrite byte_eqb_refl, (IH d C). reflexivity.
Qed.
Lemma add_panics H m st n path t : good H st n path t -> forall d, ~ mem t d -> (exists k, mem t k /\ comparable k d) ->
  find d (cell H path t) st = Panic \/ node_add m d path (cell H path t) st = Panic.
Proof.
  induction 1 as [n path id s Hl Ha|n path id dd cs Hl Ha Hc IH Hid Hdj H2 Hcl]; intros d Hd (k & Hk & C).
  - right. assert (A : node_add m d path (cell H path (PLeaf id s)) st = split_leaf m d path (mkNode false s None) st) by (destruct d; reflexivity).
    rewrite A. inversion Hk; subst. unfold split_leaf. cbn [nhash]. rewrite (first_diff_none _ _ C). reflexivity.
  - destruct d as [|b d]; [left; reflexivity|]. inversion Hk as [|? ? ? b' c k' Hh Hk']; subst.
    apply comparable_cons in C as [-> C]. cbn [cell find node_add children]. rewrite (has_map cs (idx b) c Hh).
    pose proof (Hc _ _ Hh) as Gc. rewrite b8_idx in Gc. rewrite (get_agree _ _ _ (good_agree _ _ _ _ _ Gc)). cbn [bind].
    destruct (IH _ _ Hh d) as [E|E]; [intros Hm; apply Hd; econstructor; eassumption|eauto| |]; rewrite b8_idx in E; [left; exact E|right]. rewrite E. reflexivity.
Qed.

Lemma add_gen H m n L d t S :
  stands H n L t S -> (length d <= n)%nat -> (N.of_nat n < 2 ^ 32)%N ->
  (next_node_id (tstore t) + N.of_nat n + 3 < two64)%N ->
  match ref_add S L d with
  | Ok (b, (S', L')) => exists t', add m d t = Ok (b, t') /\ stands H n L' t' S' /\
      (next_node_id (tstore t') <= next_node_id (tstore t) + N.of_nat n + 3)%N
  | Err e => add m d t = Err e
  | Panic => add m d t = Panic
  end.
Proof.
  intros R Hd Hn Hnx. pose proof (stands_empty _ _ _ _ _ R) as Em. unfold stands in R. unfold add, ref_add.
  destruct (root t) as [r|] eqn:Er.
  - destruct R as (pt & <- & G & Hm & Ho & Hb & Hel).
    rewrite (get_agree _ _ _ (good_agree _ _ _ _ _ G)). cbn [bind].
    destruct (member_iff d S) as [Hin|Hin].
    + pose proof Hin as Hin'. apply Hm in Hin'. destruct (find_gen H _ _ _ _ d G) as [(_ & r1 & r2 & M1 & M2 & Hr)|(f & Ef & Hf & _)].
      { exfalso. apply Hr. pose proof (mem_prefix_free _ _ _ _ Hin' M1 eq_refl) as A. pose proof (mem_prefix_free _ _ _ _ Hin' M2 eq_refl) as B.
        apply (app_inv_head d). congruence. }
      rewrite Ef. cbn [bind]. rewrite (proj2 Hf Hin').
      eexists; split; [reflexivity|]. cbn [tstore]. split; [|lia].
      unfold stands. cbn. rewrite ?Er. exists pt. auto 8.
    + destruct S as [|x0 S0]; [discriminate (proj1 Em eq_refl)|]. set (S := x0 :: S0) in *.
      destruct (existsb _ S) eqn:Ex.
      * apply existsb_exists in Ex as (x & Hx & C). apply clash_spec in C.
        destruct (add_panics H m _ _ _ _ G d) as [E|E]; [rewrite Hm; exact Hin|exists x; split; [apply Hm; exact Hx|exact C]|rewrite E; reflexivity|].
        destruct (find_gen H _ _ _ _ d G) as [(Ef & _)|(f & Ef & Hf & _)]; rewrite Ef; [reflexivity|]. cbn [bind].
        destruct f; [exfalso; apply Hin, Hm, Hf; reflexivity|]. rewrite E. reflexivity.
      * assert (Hnc : forall k, mem pt k -> ~ comparable k d).
        { intros k Hk C. apply Hm in Hk. assert (existsb (fun x => begins_with d x || begins_with x d) S = true); [|congruence].
          apply existsb_exists. exists k. split; [exact Hk|]. apply clash_spec. exact C. }
        destruct (find_gen H _ _ _ _ d G) as [(_ & r1 & _ & M1 & _)|(f & Ef & Hf & _)].
        { exfalso. apply (Hnc _ M1). left. eauto. }
        rewrite Ef. cbn [bind]. destruct f; [exfalso; apply Hin, Hm, Hf; reflexivity|].
        destruct (node_add_spec H m d n [] pt (tstore t)) as
          (t' & st' & E & G' & Hlf & (I1 & I2 & I3 & I4) & Hnx').
        -- exact G.
        -- exact Hd.
        -- exact Hnc.
        -- exact Hb.
        -- lia.
        -- unfold u64, two64. cbn [length]. cbn in Hn. lia.
        -- rewrite E. cbn [bind]. eexists; split; [reflexivity|].
        cbn [tstore delete_node next_node_id]. split; [|lia].
        assert (Hroot : ~ own t' (pid pt)).
        { intros Hp. apply I3 in Hp as [[_ Hp]|Hp]; [contradiction|].
          pose proof (Hb _ (own_pid pt)). lia. }
        unfold stands. cbn [root tstore]. exists t'. split; [reflexivity|]. split; [|split; [|split; [|split]]].
        ++ eapply good_frame; [exact G'|]. intros x Hx. apply delete_same. intros ->. contradiction.
        ++ intros k. rewrite I1, Hm. cbn [In]. intuition.
        ++ intros x. split.
           ** intros Hx. destruct (N.eq_dec x (pid pt)) as [->|Hne].
              { rewrite delete_absent in Hx. contradiction. }
              destruct (delete_same st' (pid pt) x Hne) as [_ E2]. rewrite E2 in Hx.
              apply I3.
              destruct (N.le_gt_cases (next_node_id (tstore t)) x) as [Hge|Hlt];
                [destruct (N.lt_ge_cases x (next_node_id st')) as [Hlt'|Hge']|].
              --- right. lia.
              --- exfalso. destruct (I4 x) as [_ E3]; [intros Hox; apply Hb in Hox; lia|lia|].
                 rewrite E3 in Hx. apply Ho in Hx. apply Hb in Hx. lia.
              --- left. split; [|exact Hne]. 
                 assert (Hdec : own pt x \/ ~ own pt x).
                 { destruct (storage (tstore t) x) eqn:Es.
                   - left. apply Ho. congruence.
                   - right. intros Hox. apply Ho in Hox. congruence. }
                 destruct Hdec as [Hox|Hnx2]; [exact Hox|].
                 destruct (I4 x Hnx2) as [_ E3]; [lia|]. rewrite E3 in Hx. apply Ho. exact Hx.
           ** intros Hx. assert (Hne : x <> pid pt) by (intros ->; contradiction).
              destruct (delete_same st' (pid pt) x Hne) as [_ ->].
              eapply own_stored; [exact G'|exact Hx].
        ++ intros x Hx. apply I3 in Hx as [[Hx _]|Hx]; cbn [delete_node next_node_id]; [|lia].
           apply Hb in Hx. lia.
        ++ exact Hel.
  - destruct R as [-> Hst].
    destruct (allocate_spec m (tstore t)) as (st1 & E1 & N1 & S1); [lia|].
    rewrite E1. cbn [bind is_member existsb].
    eexists; split; [reflexivity|]. cbn [tstore set_node next_node_id]. split; [|lia].
    unfold stands. cbn [root tstore].
    exists (PLeaf (next_node_id (tstore t)) d). split; [reflexivity|]. split; [|split; [|split; [|split]]].
    + constructor; [exact Hd|]. apply set_agree. apply node_ok_leaf. unfold u64, two64. cbn in Hn. lia.
    + intros k. cbn. split; [intros Hk; inversion Hk; auto|intros [<-|[]]; constructor].
    + intros x. split.
      * intros Hx. destruct (N.eq_dec x (next_node_id (tstore t))) as [->|Hne]; [constructor|].
        exfalso. apply Hx.
        destruct (set_same st1 (next_node_id (tstore t)) (mkNode false d None) x Hne) as [_ ->].
        destruct (S1 x Hne) as [_ ->]. apply Hst.
      * intros Hx. inversion Hx; subst.
        destruct (set_agree st1 (next_node_id (tstore t)) (mkNode false d None)) as (_ & E & _).
        { apply node_ok_leaf. unfold u64, two64. cbn in Hn. lia. }
        rewrite E. discriminate.
    + intros x Hx. inversion Hx; subst. cbn [next_node_id set_node]. lia.
    + cbn [element_length]. apply (len32_small n); assumption.
Qed.

Lemma filter_two k S : NoDup S -> (2 <= length (filter (begins_with k) S))%nat <->
  exists r1 r2, In (k ++ r1) S /\ In (k ++ r2) S /\ r1 <> r2.
Proof.
  intros Hn. assert (Hi : forall x, In x (filter (begins_with k) S) <-> In x S /\ exists r, x = k ++ r).
  { intros x. rewrite filter_In, begins_with_spec. tauto. }
  pose proof (NoDup_filter (begins_with k) Hn) as Hf. destruct (filter (begins_with k) S) as [|x [|y l]]; cbn [length].
  - split; [lia|]. intros (r1 & _ & M & _). destruct (proj2 (Hi (k ++ r1))). eauto.
  - split; [lia|]. intros (r1 & r2 & M1 & M2 & Hr). exfalso.
    destruct (proj2 (Hi (k ++ r1))) as [E1|[]]; [eauto|]. destruct (proj2 (Hi (k ++ r2))) as [E2|[]]; [eauto|].
    apply Hr, (app_inv_head k). congruence.
  - split; [intros _|lia]. destruct (proj1 (Hi x)) as [M1 [r1 ->]]; [left; reflexivity|]. destruct (proj1 (Hi y)) as [M2 [r2 ->]]; [right; left; reflexivity|].
    exists r1, r2. split; [exact M1|]. split; [exact M2|]. intros ->. inversion Hf as [|? ? Hni _]; subst. apply Hni. left. reflexivity.
Qed.

Lemma delete_gen H n L d t S :
  stands H n L t S -> NoDup S -> (N.of_nat n < 2 ^ 32)%N ->
  (next_node_id (tstore t) <= two64)%N ->
  match ref_delete S L d with
  | Ok (b, (S', L')) => exists t', delete d t = Ok (b, t') /\ stands H n L' t' S' /\
      next_node_id (tstore t') = next_node_id (tstore t)
  | Err e => delete d t = Err e
  | Panic => delete d t = Panic
  end.
Proof.
  intros R Hnd Hn Hnx. pose proof (stands_empty _ _ _ _ _ R) as Em. unfold stands in R. unfold delete, ref_delete.
  destruct (root t) as [r|] eqn:Er.
  - destruct S as [|x0 S0]; [discriminate (proj1 Em eq_refl)|]. set (S := x0 :: S0) in *. clearbody S.
    destruct R as (pt & <- & G & Hm & Ho & Hb & Hel). rewrite Hel.
    replace (N.of_nat (length d) =? N.of_nat L)%N with (length d =? L)%nat
      by (apply eq_true_iff_eq; rewrite Nat.eqb_eq, N.eqb_eq; lia).
    destruct (length d =? L)%nat; cbn [negb]; [|reflexivity].
    rewrite (get_agree _ _ _ (good_agree _ _ _ _ _ G)). cbn [bind].
    destruct (member_iff d S) as [Hin|Hin].
    + pose proof Hin as Em'. apply Hm in Em'. destruct (find_gen H _ _ _ _ d G) as [(_ & r1 & r2 & M1 & M2 & Hr)|(f & Ef & Hf & _)].
      { exfalso. apply Hr. pose proof (mem_prefix_free _ _ _ _ Em' M1 eq_refl) as A. pose proof (mem_prefix_free _ _ _ _ Em' M2 eq_refl) as B.
        apply (app_inv_head d). congruence. }
      rewrite Ef. cbn [bind]. rewrite (proj2 Hf Em'). cbn [negb].
      clear Em. rename Em' into Em.
      rewrite is_leaf_cell. destruct (pleaf pt) eqn:Elf.
      * destruct pt as [id s|]; [|discriminate]. assert (Es : s = d) by (inversion Em; reflexivity). subst d.
        eexists; split; [reflexivity|]. split; [|reflexivity].
        unfold stands. cbn [root tstore]. split.
        -- destruct (remove_key s S) as [|y Y] eqn:EY; [reflexivity|]. exfalso.
           assert (Hy : In y (remove_key s S)) by (rewrite EY; left; reflexivity).
           apply in_remove_key in Hy as [Hy Hne]. apply Hm in Hy. inversion Hy; subst. contradiction.
        -- intros x. cbn [pid]. destruct (N.eq_dec x id) as [->|Hne]; [apply delete_absent|].
           destruct (delete_same (tstore t) id x Hne) as [_ ->].
           destruct (storage (tstore t) x) eqn:Es; [|reflexivity]. exfalso.
           assert (Hx : own (PLeaf id s) x) by (apply Ho; congruence). inversion Hx; subst; contradiction.
      * destruct (node_remove_spec H d n [] pt (tstore t)) as
          (t' & st' & E & G' & R1 & R2 & R3 & R4 & R5); try assumption.
        { unfold u64, two64. cbn [length]. cbn in Hn. lia. }
        rewrite E. cbn [bind]. eexists; split; [reflexivity|].
        split; [|cbn [tstore delete_node next_node_id]; exact R2].
        assert (Hroot : ~ own t' (pid pt)) by (intros Hp; apply R3 in Hp as [_ Hp]; contradiction).
        unfold stands. cbn [root tstore]. exists t'. split; [reflexivity|]. split; [|split; [|split; [|split]]].
        -- eapply good_frame; [exact G'|]. intros x Hx. apply delete_same. intros ->. contradiction.
        -- intros k. rewrite R1, Hm, in_remove_key. reflexivity.
        -- intros x. split.
           ++ intros Hx. destruct (N.eq_dec x (pid pt)) as [->|Hne].
              { rewrite delete_absent in Hx. contradiction. }
              destruct (delete_same st' (pid pt) x Hne) as [_ E2]. rewrite E2 in Hx.
              assert (Hdec : own pt x \/ ~ own pt x).
              { destruct (storage (tstore t) x) eqn:Es.
                - left. apply Ho. congruence.
                - right. intros Hox. apply Ho in Hox. congruence. }
              destruct Hdec as [Hox|Hnx2].
              ** destruct (R4 x Hox Hne) as [?|Habs]; [assumption|contradiction].
              ** exfalso. destruct (R5 x Hnx2) as [_ E3]. rewrite E3 in Hx. apply Ho in Hx. contradiction.
           ++ intros Hx. assert (Hne : x <> pid pt) by (intros ->; contradiction).
              destruct (delete_same st' (pid pt) x Hne) as [_ ->].
              eapply own_stored; [exact G'|exact Hx].
        -- intros x Hx. apply R3 in Hx as [Hx _]. cbn [delete_node next_node_id]. rewrite R2.
           apply Hb. exact Hx.
        -- first [exact Hel|reflexivity].
    + destruct (2 <=? length (filter (begins_with d) S))%nat eqn:E2.
      * apply Nat.leb_le in E2. apply (filter_two d S Hnd) in E2 as (r1 & r2 & M1 & M2 & Hr).
        destruct (find_gen H _ _ _ _ d G) as [(Ef & _)|(f & _ & _ & U)]; [rewrite Ef; reflexivity|].
        exfalso. apply Hr. apply U; apply Hm; assumption.
      * destruct (find_gen H _ _ _ _ d G) as [(_ & r1 & r2 & M1 & M2 & Hr)|(f & Ef & Hf & _)].
        { exfalso. apply Nat.leb_gt in E2. assert (2 <= length (filter (begins_with d) S))%nat; [|lia].
          apply (filter_two d S Hnd). exists r1, r2. rewrite <- !Hm. auto. }
        rewrite Ef. cbn [bind]. destruct f; [exfalso; apply Hin, Hm, Hf; reflexivity|]. cbn [negb].
        eexists; split; [reflexivity|]. split; [|reflexivity].
        unfold stands. cbn. rewrite ?Er. exists pt. auto 8.
  - destruct R as [-> Hst]. eexists; split; [reflexivity|]. split; [|reflexivity].
    unfold stands. rewrite Er. auto.
Qed.

Lemma root_gen H (Hlen : hash32 H) n L n' t S :
  stands H n L t S -> NoDup S -> (forall k, In k S -> (length k <= n')%nat) ->
  exists t', root_hash H t = Ok (set_root H n' S, t') /\
    stands H n L t' S /\ next_node_id (tstore t') = next_node_id (tstore t).
Proof.
  intros R Hn Hle. unfold stands in R. unfold root_hash.
  destruct (root t) as [r|] eqn:Er.
  - destruct R as (pt & <- & G & Hm & Ho & Hb & Hel).
    rewrite (get_agree _ _ _ (good_agree _ _ _ _ _ G)). cbn [bind].
    destruct (calculate_hash_spec H Hlen (Datatypes.S (N.to_nat (element_length t) + N.to_nat (next_node_id (tstore t)))) n [] pt (tstore t) G)
      as (st' & E & N' & G' & S'); [intros l Dl; pose proof (descent_short _ _ _ _ _ _ G Hb Dl); lia|].
    rewrite E. cbn [bind]. eexists; split.
    + f_equal. f_equal. rewrite is_leaf_cell, pleaf_cl.
      rewrite cell_clean_hash by apply pclean_cl. rewrite (digest_cl H _ _ _ _ G).
      unfold set_root. rewrite (label_digest H _ _ _ _ S (good_bound _ _ _ _ _ G n' (fun k Hk => Hle k (proj1 (Hm k) Hk))) Hn Hm).
      destruct S as [|a S]; [|reflexivity]. exfalso.
      destruct (has_member _ _ _ _ _ G) as [k Hk]. apply Hm in Hk. destruct Hk.
    + split; [|exact N']. unfold stands. cbn [root tstore].
      exists (cl pt). split; [apply pid_cl|]. split; [exact G'|]. split; [|split; [|split]].
      * intros k. rewrite <- Hm. split; [apply (mem_cl2 H _ _ _ _ _ G)|apply mem_cl1].
      * intros x. split.
        -- intros Hx. apply own_cl1. destruct (N.eq_dec x (pid pt)) as [->|Hne]; [apply own_pid|].
           destruct (set_same st' (pid pt) (cell H [] (cl pt)) x Hne) as [_ E2]. rewrite E2 in Hx.
           assert (Hdec : own pt x \/ ~ own pt x).
           { destruct (storage (tstore t) x) eqn:Es.
             - left. apply Ho. congruence.
             - right. intros Hox. apply Ho in Hox. congruence. }
           destruct Hdec as [Hox|Hnx]; [exact Hox|].
           destruct (S' x Hnx) as [_ E3]. rewrite E3 in Hx. apply Ho. exact Hx.
        -- intros Hx. eapply own_stored; [exact G'|exact Hx].
      * intros x Hx. apply (own_cl2 H _ _ _ _ _ G) in Hx. cbn [next_node_id set_node]. rewrite N'.
        apply Hb. exact Hx.
      * exact Hel.
  - destruct R as [-> Hst]. eexists; split; [reflexivity|]. split; [|reflexivity].
    unfold stands. rewrite Er. auto.
Qed.

(** ** Keys of one length *)

Lemma comparable_same_length a b : length a = length b -> comparable a b -> a = b.
Proof.
  intros Hl [[r ->]|[r ->]]; rewrite app_length in Hl; destruct r; cbn in Hl; try lia; rewrite app_nil_r; reflexivity.
Qed.
Lemma add_spec H m n d t S :
  represents H n t S -> length d = n -> (N.of_nat n < 2 ^ 32)%N ->
  (next_node_id (tstore t) + N.of_nat n + 3 < two64)%N ->
  exists t', add m d t = Ok (negb (is_member d S), t') /\
    represents H n t' (members_step S (Add d)) /\
    (next_node_id (tstore t') <= next_node_id (tstore t) + N.of_nat n + 3)%N.
Proof.
  intros [R Hl] Hd Hn Hnx. pose proof (add_gen H m n n d t S R (Nat.eq_le_incl _ _ Hd) Hn Hnx) as A.
  assert (E : ref_add S n d = Ok (negb (is_member d S), (members_step S (Add d), n))).
  { unfold ref_add. cbn [members_step]. destruct (member_iff d S) as [Hin|Hin]; [reflexivity|]. destruct S as [|x S]; [rewrite Hd; reflexivity|].
    destruct (existsb _ _) eqn:Ex; [|reflexivity]. exfalso. apply existsb_exists in Ex as (y & Hy & C). apply clash_spec in C.
    rewrite Forall_forall in Hl. apply comparable_same_length in C; [|rewrite (Hl _ Hy); congruence]. subst y. contradiction. }
  rewrite E in A. destruct A as (t' & E' & R' & Hb). exists t'. split; [exact E'|]. split; [|exact Hb]. split; [exact R'|].
  cbn [members_step]. destruct (is_member d S); [exact Hl|constructor; assumption].
Qed.
Lemma delete_spec H n d t S :
  represents H n t S -> NoDup S -> length d = n -> (N.of_nat n < 2 ^ 32)%N ->
  (next_node_id (tstore t) <= two64)%N ->
  exists t', delete d t = Ok (is_member d S, t') /\
    represents H n t' (members_step S (Delete d)) /\
    next_node_id (tstore t') = next_node_id (tstore t).
Proof.
  intros [R Hl] Hnd Hd Hn Hnx. pose proof (delete_gen H n n d t S R Hnd Hn Hnx) as A.
  assert (Hr : is_member d S = false -> remove_key d S = S).
  { intros Em. unfold remove_key. clear -Em. induction S as [|x S IH]; [reflexivity|]. cbn [is_member existsb] in Em. apply orb_false_iff in Em as [E1 E2].
    cbn [filter]. rewrite E1. cbn [negb]. f_equal. apply IH. exact E2. }
  assert (E : ref_delete S n d = Ok (is_member d S, (members_step S (Delete d), n))).
  { unfold ref_delete. cbn [members_step]. destruct S as [|x S]; [reflexivity|]. rewrite (proj2 (Nat.eqb_eq _ _) Hd). cbn [negb].
    destruct (member_iff d (x :: S)) as [Hin|Hin]; [reflexivity|]. rewrite Hr by (destruct (member_iff d (x :: S)); [contradiction|reflexivity]).
    destruct (2 <=? _)%nat eqn:E2; [|reflexivity]. exfalso. apply Nat.leb_le in E2. apply (filter_two d _ Hnd) in E2 as (r1 & _ & M & _).
    rewrite Forall_forall in Hl. pose proof (Hl _ M) as X. rewrite app_length in X. destruct r1; cbn in X; [rewrite app_nil_r in M; contradiction|lia]. }
  rewrite E in A. destruct A as (t' & E' & R' & Hb). exists t'. split; [exact E'|]. split; [|exact Hb]. split; [exact R'|].
  cbn [members_step]. apply Forall_forall. intros k Hk. apply in_remove_key in Hk as [Hk _]. rewrite Forall_forall in Hl. auto.
Qed.
Lemma root_hash_spec H (Hlen : hash32 H) n t S :
  represents H n t S -> NoDup S ->
  exists t', root_hash H t = Ok (set_root H n S, t') /\
    represents H n t' S /\ next_node_id (tstore t') = next_node_id (tstore t).
Proof.
  intros [R Hl] Hn. destruct (root_gen H Hlen n n n t S R Hn) as (t' & E & R' & Hb).
  - intros k Hk. rewrite Forall_forall in Hl. rewrite (Hl k Hk). lia.
  - exists t'. split; [exact E|]. split; [split; assumption|exact Hb].
Qed.

(** ** Histories *)

Lemma run_spec_counted H (Hlen : hash32 H) m n ops : forall t S,
  represents H n t S -> NoDup S -> Forall (key_length n) ops -> (N.of_nat n < 2 ^ 32)%N ->
  (next_node_id (tstore t) + N.of_nat (length ops) * (N.of_nat n + 3) < two64)%N ->
  exists t', run H m ops t = Ok (expected H n S ops, t') /\
    represents H n t' (fold_left members_step ops S) /\
    (next_node_id (tstore t') <= next_node_id (tstore t) + N.of_nat (length ops) * (N.of_nat n + 3))%N.
Proof.
  induction ops as [|o ops IH]; intros t S R Hnd Hk Hn Hnx.
  - exists t. split; [reflexivity|]. split; [exact R|lia].
  - cbn [length] in Hnx.
    assert (Hstep : exists t', step H m o t = Ok (expected_step H n S o, t') /\
      represents H n t' (members_step S o) /\
      (next_node_id (tstore t') <= next_node_id (tstore t) + N.of_nat n + 3)%N).
    { pose proof (Forall_inv Hk) as Hko. destruct o as [k|k|]; cbn [step expected_step].
      - destruct (add_spec H m n k t S R Hko Hn) as (t' & E & R' & Hb); [lia|].
        exists t'. rewrite E. auto.
      - destruct (delete_spec H n k t S R Hnd Hko Hn) as (t' & E & R' & Hb); [lia|].
        exists t'. rewrite E. split; [reflexivity|]. split; [exact R'|lia].
      - destruct (root_hash_spec H Hlen n t S R Hnd) as (t' & E & R' & Hb).
        exists t'. rewrite E. split; [reflexivity|]. split; [exact R'|lia]. }
    destruct Hstep as (t1 & E1 & R1 & Hb1).
    destruct (IH t1 (members_step S o)) as (t' & E & R' & Hb').
    + exact R1.
    + apply members_nodup_step. exact Hnd.
    + exact (Forall_inv_tail Hk).
    + exact Hn.
    + lia.
    + exists t'. cbn [run expected fold_left]. rewrite E1. cbn [bind]. rewrite E. cbn [bind length].
      split; [reflexivity|]. split; [exact R'|lia].
Qed.

Lemma run_spec H (Hlen : hash32 H) m n ops : forall t S,
  represents H n t S -> NoDup S -> Forall (key_length n) ops -> (N.of_nat n < 2 ^ 32)%N ->
  (next_node_id (tstore t) + N.of_nat (length ops) * (N.of_nat n + 3) < two64)%N ->
  exists t', run H m ops t = Ok (expected H n S ops, t') /\
    represents H n t' (fold_left members_step ops S).
Proof.
  intros t S R Hnd Hk Hn Hnx. destruct (run_spec_counted H Hlen m n ops t S R Hnd Hk Hn Hnx) as (t' & E & R' & _). eauto.
Qed.

Lemma new_stands H n L : stands H n L new_trie [].
Proof. unfold stands. cbn. auto. Qed.
Lemma new_represents H n : represents H n new_trie [].
Proof. split; [apply new_stands|constructor]. Qed.

Lemma history H (Hlen : hash32 H) m n ops :
  Forall (key_length n) ops -> small_history n ops ->
  exists t', run H m ops new_trie = Ok (expected H n [] ops, t') /\
    represents H n t' (members ops).
Proof.
  intros Hk [Hn Hs]. apply run_spec; try assumption.
  - apply new_represents.
  - constructor.
Qed.

Lemma members_nodup ops : NoDup (members ops).
Proof.
  unfold members. assert (Hg : forall S, NoDup S -> NoDup (fold_left members_step ops S)).
  { induction ops as [|o ops IH]; intros S Hn; [exact Hn|]. cbn. apply IH.
    apply members_nodup_step. exact Hn. }
  apply Hg. constructor.
Qed.

Lemma root_after H (Hlen : hash32 H) m n ops :
  Forall (key_length n) ops -> small_history n ops ->
  exists xs t h t', run H m ops new_trie = Ok (xs, t) /\ root_hash H t = Ok (h, t') /\
    h = set_root H n (members ops).
Proof.
  intros Hk Hs. destruct (history H Hlen m n ops Hk Hs) as (t & E & R).
  destruct (root_hash_spec H Hlen n t (members ops) R (members_nodup ops)) as (t' & E' & _).
  do 4 eexists. split; [exact E|]. split; [exact E'|reflexivity].
Qed.

(** ** The root depends only on the set *)

Lemma set_label_ext H : forall n path S S',
  NoDup S -> NoDup S' -> (forall k, In k S <-> In k S') ->
  set_label H n path S = set_label H n path S'.
Proof.
  assert (Single : forall (a : bytes) S, NoDup S -> (forall k, In k [a] <-> In k S) -> S = [a]).
  { intros a S Hn Hm. destruct S as [|x [|y S]].
    - exfalso. apply (Hm a). left. reflexivity.
    - f_equal. destruct (proj2 (Hm x)) as [<-|[]]; [left; reflexivity|reflexivity].
    - exfalso. inversion Hn as [|? ? Hni _]; subst. apply Hni. left.
      destruct (proj2 (Hm x)) as [<-|[]]; [left; reflexivity|].
      destruct (proj2 (Hm y)) as [<-|[]]; [right; left; reflexivity|reflexivity]. }
  induction n as [|n IH]; intros path S S' Hn Hn' Hm.
  - destruct S as [|a [|b S]].
    + destruct S' as [|a' S']; [reflexivity|]. exfalso. apply (Hm a'). left. reflexivity.
    + rewrite (Single a S' Hn' Hm). reflexivity.
    + destruct S' as [|a' [|b' S']]; [reflexivity| |reflexivity].
      exfalso. assert (E : a :: b :: S = [a']).
      { apply Single; [exact Hn|]. intros k. symmetry. apply Hm. }
      discriminate.
  - destruct (Nat.eq_dec (length S) 1) as [El|El].
    + destruct S as [|a [|b S]]; try discriminate. rewrite (Single a S' Hn' Hm). reflexivity.
    + assert (El' : length S' <> 1%nat).
      { intros El'. destruct S' as [|a' [|b' S']]; try discriminate. apply El.
        rewrite (Single a' S Hn); [reflexivity|]. intros k. symmetry. apply Hm. }
      rewrite !set_label_inner by assumption. f_equal. f_equal. unfold label_string. f_equal. f_equal.
      apply flat_map_ext. intros b.
      assert (Ht : forall k, In k (tails b S) <-> In k (tails b S'))
        by (intros k; rewrite !in_tails; apply Hm).
      pose proof (IH (path ++ [b]) _ _ (nodup_tails b S Hn) (nodup_tails b S' Hn') Ht) as E.
      destruct (tails b S) as [|x T], (tails b S') as [|x' T'].
      * reflexivity.
      * exfalso. apply (Ht x'). left. reflexivity.
      * exfalso. apply (Ht x). left. reflexivity.
      * rewrite E. reflexivity.
Qed.

Lemma set_root_ext H n S S' :
  NoDup S -> NoDup S' -> (forall k, In k S <-> In k S') -> set_root H n S = set_root H n S'.
Proof.
  intros Hn Hn' Hm. unfold set_root. rewrite (set_label_ext H n [] S S' Hn Hn' Hm).
  destruct S as [|x T], S' as [|x' T'].
  - reflexivity.
  - exfalso. apply (Hm x'). left. reflexivity.
  - exfalso. apply (Hm x). left. reflexivity.
  - reflexivity.
Qed.

(** ** The storage holds exactly the live nodes *)

Lemma stored_cell H st n path t :
  good H st n path t ->
  exists data, storage st (pid t) = Some data /\
    deserialize data = Some (mkNode false (nhash (cell H path t)) (children (cell H path t))).
Proof.
  intros G. destruct (good_agree _ _ _ _ _ G) as (_ & E & Hok).
  eexists; split; [exact E|]. apply deserialize_serialize. exact Hok.
Qed.

Lemma child_inv H st n path t : good H st n path t -> forall p b c,
  own t p -> child (storage st) p b c ->
  exists n' path' id d cs ct, good H st (S n') path' (PNode id d cs) /\ id = p /\
    (forall x, own (PNode id d cs) x -> own t x) /\ has cs b ct /\ pid ct = c.
Proof.
  intros G. pose proof G as G0.
  induction G as [n path id s Hl Ha|n path id d cs Hl Ha Hc IH Hid Hdj H2 Hcl]; intros p b c Ho Hch.
  - inversion Ho; subst. destruct Hch as (data & h & cs & E & Ed & Ec).
    destruct (stored_cell _ _ _ _ _ G0) as (data' & E' & Ed'). cbn [pid] in E'.
    assert (data' = data) as -> by congruence. rewrite Ed in Ed'. discriminate.
  - inversion Ho as [|?|? ? ? j cc ? Hj Hoc]; subst.
    + destruct Hch as (data & h & cs1 & E & Ed & Ec).
      destruct (stored_cell _ _ _ _ _ G0) as (data' & E' & Ed'). cbn [pid] in E'.
      assert (data' = data) as -> by congruence. rewrite Ed in Ed'. cbn [cell children] in Ed'.
      injection Ed' as _ ->. apply has_map_inv in Ec as (ct & Hct & ->).
      exists n, path, p, d, cs, ct. repeat split; auto.
    + destruct (IH _ _ Hj (Hc _ _ Hj) p b c Hoc Hch) as
        (n' & path' & id' & d' & cs' & ct & A1 & A2 & A3 & A4 & A5).
      exists n', path', id', d', cs', ct. repeat split; try assumption.
      intros x Hx. econstructor; [exact Hj|]. apply A3. exact Hx.
Qed.

Lemma child_of H st n path id d cs b ct :
  good H st n path (PNode id d cs) -> has cs b ct -> child (storage st) id b (pid ct).
Proof.
  intros G Hh. destruct (stored_cell _ _ _ _ _ G) as (data & E & Ed). cbn [cell children pid] in *.
  do 3 eexists. split; [exact E|]. split; [exact Ed|]. apply has_map. exact Hh.
Qed.

Lemma reach_trans s a b c : reachable s a b -> reachable s b c -> reachable s a c.
Proof. intros Hab Hbc. induction Hbc as [r|r p e c Hr IH Hch]; [exact Hab|]. eapply reach_child; [apply IH; exact Hab|exact Hch]. Qed.

Lemma own_reachable H st n path t x :
  good H st n path t -> own t x -> reachable (storage st) (pid t) x.
Proof.
  intros G. pose proof G as G0.
  induction G as [n path id s Hl Ha|n path id d cs Hl Ha Hc IH Hid Hdj H2 Hcl]; intros Ho.
  - inversion Ho; subst. constructor.
  - inversion Ho as [|?|? ? ? j cc ? Hj Hoc]; subst; [constructor|].
    eapply reach_trans; [|eapply IH; [exact Hj|exact (Hc _ _ Hj)|exact Hoc]].
    eapply reach_child; [constructor|]. eapply child_of; eassumption.
Qed.

Lemma reachable_own H st n path t x :
  good H st n path t -> reachable (storage st) (pid t) x -> own t x.
Proof.
  intros G Hr. remember (pid t) as r eqn:Er. induction Hr as [r|r p b c Hr IH Hch].
  - subst. apply own_pid.
  - specialize (IH Er). destruct (child_inv _ _ _ _ _ G p b c IH Hch) as
      (n' & path' & id' & d' & cs' & ct & A1 & A2 & A3 & A4 & A5).
    apply A3. subst c. econstructor; [exact A4|apply own_pid].
Qed.

(** A child is a node of the tree, and not its root. *)
Lemma child_own H st n path t : good H st n path t -> forall p b c,
  own t p -> child (storage st) p b c -> own t c /\ c <> pid t.
Proof.
  intros G p b c Ho Hch. revert Ho. pose proof G as G0.
  induction G as [n path id s Hl Ha|n path id d cs Hl Ha Hc IH Hid Hdj H2 Hcl]; intros Ho.
  - inversion Ho; subst. destruct Hch as (data & h & cs1 & E & Ed & Ec).
    destruct (stored_cell _ _ _ _ _ G0) as (data' & E' & Ed'). cbn [pid] in E'.
    assert (data' = data) as -> by congruence. rewrite Ed in Ed'. discriminate.
  - inversion Ho as [|?|? ? ? j cc ? Hj Hoc]; subst.
    + destruct Hch as (data & h & cs1 & E & Ed & Ec).
      destruct (stored_cell _ _ _ _ _ G0) as (data' & E' & Ed'). cbn [pid] in E'.
      assert (data' = data) as -> by congruence. rewrite Ed in Ed'. cbn [cell children] in Ed'.
      injection Ed' as _ ->. apply has_map_inv in Ec as (ct & Hct & ->).
      split; [econstructor; [exact Hct|apply own_pid]|]. cbn [pid]. intros Eq.
      apply (Hid _ _ Hct). rewrite <- Eq. apply own_pid.
    + destruct (IH _ _ Hj (Hc _ _ Hj) Hoc) as [B1 B2].
      split; [econstructor; eassumption|]. cbn [pid]. intros ->. eapply Hid; eassumption.
Qed.

(** Parent and slot of a node are unique. *)
Lemma parent_unique H st n path t : good H st n path t -> forall p b p' b' c,
  own t p -> own t p' -> child (storage st) p b c -> child (storage st) p' b' c ->
  c <> pid t /\ p = p' /\ b = b'.
Proof.
  intros G p b p' b' c Ho Ho' Hch Hch'.
  split; [apply (child_own _ _ _ _ _ G _ _ _ Ho Hch)|]. pose proof G as G0.
  revert p b p' b' c Ho Ho' Hch Hch'.
  induction G as [n path id s Hl Ha|n path id d cs Hl Ha Hc IH Hid Hdj H2 Hcl];
    intros p b p' b' c Ho Ho' Hch Hch'.
  - exfalso. destruct (child_own _ _ _ _ _ G0 _ _ _ Ho Hch) as [A B].
    inversion A; subst. apply B. reflexivity.
  - assert (Top : forall q e, own (PNode id d cs) q -> child (storage st) q e c ->
       (q = id /\ exists ct, has cs e ct /\ pid ct = c) \/
       (exists j cc, has cs j cc /\ own cc q /\ own cc c /\ c <> pid cc)).
    { intros q e Hq Hqe. inversion Hq as [|?|? ? ? j cc ? Hj Hoc]; subst.
      - left. split; [reflexivity|]. destruct Hqe as (data & h & cs1 & E & Ed & Ec).
        destruct (stored_cell _ _ _ _ _ G0) as (data' & E' & Ed'). cbn [pid] in E'.
        assert (data' = data) as -> by congruence. rewrite Ed in Ed'. cbn [cell children] in Ed'.
        injection Ed' as _ ->. apply has_map_inv in Ec as (ct & Hct & ->). eauto.
      - right. exists j, cc. split; [exact Hj|]. split; [exact Hoc|].
        exact (child_own _ _ _ _ _ (Hc _ _ Hj) _ _ _ Hoc Hqe). }
    destruct (Top p b Ho Hch) as [(-> & ct & Hct & Ect)|(j & cc & Hj & Oq & Oc & Nc)];
      destruct (Top p' b' Ho' Hch') as [(-> & ct' & Hct' & Ect')|(j' & cc' & Hj' & Oq' & Oc' & Nc')].
    + split; [reflexivity|]. eapply Hdj; [exact Hct|exact Hct'|apply own_pid|].
      rewrite Ect, <- Ect'. apply own_pid.
    + exfalso. assert (b = j') as ->.
      { eapply Hdj; [exact Hct|exact Hj'|apply own_pid|rewrite Ect; exact Oc']. }
      assert (ct = cc') as -> by (unfold has in *; congruence). congruence.
    + exfalso. assert (b' = j) as ->.
      { eapply Hdj; [exact Hct'|exact Hj|apply own_pid|rewrite Ect'; exact Oc]. }
      assert (ct' = cc) as -> by (unfold has in *; congruence). congruence.
    + assert (j = j') as -> by (eapply Hdj; eassumption).
      assert (cc' = cc) as -> by (unfold has in *; congruence).
      eapply IH; [exact Hj|exact (Hc _ _ Hj)|exact Oq|exact Oq'|exact Hch|exact Hch'].
Qed.

Lemma stands_storage H n L t S : stands H n L t S ->
  (forall id, storage (tstore t) id <> None <->
              exists r, root t = Some r /\ reachable (storage (tstore t)) r id) /\
  (forall p b p' b' c, child (storage (tstore t)) p b c -> child (storage (tstore t)) p' b' c ->
      root t <> Some c /\ p = p' /\ b = b') /\
  (S = [] <-> forall id, storage (tstore t) id = None).
Proof.
  intros R. unfold stands in R.
  destruct (root t) as [r|] eqn:Er.
  - destruct R as (pt & <- & G & Hm & Ho & Hb & Hel). split; [|split].
    + intros id. rewrite Ho. split.
      * intros Hx. exists (pid pt). split; [reflexivity|]. eapply own_reachable; eassumption.
      * intros (r & Er' & Hr). injection Er' as <-. eapply reachable_own; eassumption.
    + intros p b p' b' c Hc1 Hc2.
      assert (O1 : own pt p).
      { apply Ho. destruct Hc1 as (? & ? & ? & E1 & _). congruence. }
      assert (O2 : own pt p').
      { apply Ho. destruct Hc2 as (? & ? & ? & E1 & _). congruence. }
      destruct (parent_unique _ _ _ _ _ G p b p' b' c O1 O2 Hc1 Hc2) as (A & B & C).
      repeat split; [congruence|exact B|exact C].
    + split.
      * intros E0. exfalso. destruct (has_member _ _ _ _ _ G) as [k Hk']. apply Hm in Hk'.
        rewrite E0 in Hk'. destruct Hk'.
      * intros Hall. exfalso. apply (proj2 (Ho (pid pt)) (own_pid pt)). apply Hall.
  - destruct R as [E0 Hst]. split; [|split].
    + intros id. split; [intros Hx; exfalso; apply Hx, Hst|intros (r & Er' & _); discriminate].
    + intros p b p' b' c (data & h & cs & E1 & _). rewrite Hst in E1. discriminate.
    + split; intros _; [exact Hst|exact E0].
Qed.

Lemma storage_lemma H (Hlen : hash32 H) m n ops :
  Forall (key_length n) ops -> small_history n ops ->
  exists xs t, run H m ops new_trie = Ok (xs, t) /\
    (forall id, storage (tstore t) id <> None <->
                exists r, root t = Some r /\ reachable (storage (tstore t)) r id) /\
    (forall p b p' b' c, child (storage (tstore t)) p b c -> child (storage (tstore t)) p' b' c ->
        root t <> Some c /\ p = p' /\ b = b') /\
    (members ops = [] <-> forall id, storage (tstore t) id = None).
Proof.
  intros Hk Hs. destruct (history H Hlen m n ops Hk Hs) as (t & E & R).
  do 2 eexists. split; [exact E|]. exact (stands_storage _ _ _ _ _ (proj1 R)).
Qed.
