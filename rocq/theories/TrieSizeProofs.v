(** Proofs for C153. *)
From Coq Require Import Permutation.
From Verif Require Import Base BaseFacts TrieModel TrieSpec TrieCodecProofs TrieProofs TrieRefine TrieAny TrieSizeSpec.

(** ** The set of shared beginnings *)
Lemma in_prefixes p k : In p (prefixes k) <-> exists r, k = p ++ r.
Proof.
  unfold prefixes. rewrite in_map_iff. split.
  - intros [i [<- _]]. exists (skipn i k). symmetry. apply firstn_skipn.
  - intros [r ->]. exists (length p). split; [rewrite firstn_app, Nat.sub_diag, firstn_all, app_nil_r; reflexivity|]. apply in_seq. rewrite app_length. lia.
Qed.
Definition branching (M : bytes -> Prop) (p : bytes) : Prop := exists k1 k2 r1 r2, M k1 /\ M k2 /\ k1 <> k2 /\ k1 = p ++ r1 /\ k2 = p ++ r2.
Lemma in_shared S p : NoDup S -> In p (shared S) <-> branching (fun k => In k S) p.
Proof.
  intros N. unfold shared. rewrite nodup_In, filter_In, in_flat_map, Nat.leb_le. split.
  - intros [_ F].
    assert (forall l : list bytes, NoDup l -> (2 <= length l)%nat -> exists a b, In a l /\ In b l /\ a <> b) as Two.
    { intros [|a [|b l]] Nl L; cbn in L; try lia. exists a, b. split; [left; reflexivity|]. split; [right; left; reflexivity|]. inversion Nl as [|? ? X _]; subst. intros ->. apply X. left. reflexivity. }
    destruct (Two (filter (begins_with p) S) (NoDup_filter _ N) F) as [a [b [A [B D]]]]. apply filter_In in A as [A1 A2]. apply filter_In in B as [B1 B2].
    apply begins_with_spec in A2 as [r1 E1]. apply begins_with_spec in B2 as [r2 E2]. exists a, b, r1, r2. auto.
  - intros (k1 & k2 & r1 & r2 & I1 & I2 & D & E1 & E2). split; [exists k1; split; [exact I1|apply in_prefixes; exists r1; exact E1]|].
    assert (incl [k1; k2] (filter (begins_with p) S)) as Inc.
    { intros x [<-|[<-|[]]]; apply filter_In; (split; [assumption|]); apply begins_with_spec; eexists; eassumption. }
    assert (NoDup [k1; k2]) as N2 by (constructor; [intros [X|[]]; apply D; symmetry; exact X|constructor; [intros []|constructor]]). pose proof (NoDup_incl_length N2 Inc) as X. exact X.
Qed.
Lemma shared_nodup S : NoDup (shared S).
Proof. apply NoDup_nodup. Qed.
Lemma shared_step k S n : NoDup (k :: S) -> prefix_free (k :: S) -> (length k <= n)%nat -> (length (shared (k :: S)) <= length (shared S) + n)%nat.
Proof.
  intros N F L. assert (NoDup S) as N' by (inversion N; assumption).
  assert (incl (shared (k :: S)) (shared S ++ map (fun i => firstn i k) (seq 0 (length k)))) as Inc.
  { intros p I'. apply in_shared in I'; [|exact N]. destruct I' as (k1 & k2 & r1 & r2 & I1 & I2 & D & E1 & E2). apply in_or_app.
    assert (forall x r r', In x (k :: S) -> x <> k -> k = p ++ r -> x = p ++ r' -> In p (map (fun i => firstn i k) (seq 0 (length k)))) as Own.
    { intros x r r' Ix Dx Ek Ex. apply in_map_iff. exists (length p). split; [rewrite Ek, firstn_app, Nat.sub_diag, firstn_all, app_nil_r; reflexivity|]. apply in_seq. split; [lia|].
      rewrite Ek, app_length. destruct r as [|c r]; [|cbn; lia]. exfalso. rewrite app_nil_r in Ek. apply Dx. apply F; [exact Ix|left; reflexivity|]. left. exists r'. rewrite Ek. exact Ex. }
    destruct I1 as [X1|I1]; destruct I2 as [X2|I2].
    - congruence.
    - right. subst k1. refine (Own k2 r1 r2 (or_intror I2) _ E1 E2). congruence.
    - right. subst k2. refine (Own k1 r2 r1 (or_intror I1) _ E2 E1). congruence.
    - left. apply in_shared; [exact N'|]. exists k1, k2, r1, r2. auto. }
  pose proof (NoDup_incl_length (shared_nodup _) Inc) as X. rewrite app_length, map_length, seq_length in X. lia.
Qed.
Lemma prefix_free_tail k S : prefix_free (k :: S) -> prefix_free S.
Proof. intros F a b A B. apply F; right; assumption. Qed.
Lemma shared_one k : shared [k] = [].
Proof.
  destruct (shared [k]) as [|p l] eqn:E; [reflexivity|]. exfalso. assert (In p (shared [k])) as I' by (rewrite E; left; reflexivity).
  apply in_shared in I'; [|constructor; [intros []|constructor]]. destruct I' as (k1 & k2 & _ & _ & [<-|[]] & [<-|[]] & D & _). congruence.
Qed.
Lemma shared_bound n : forall S, NoDup S -> prefix_free S -> (forall k, In k S -> (length k <= n)%nat) -> (length (shared S) <= (length S - 1) * n)%nat.
Proof.
  induction S as [|k S IH]; intros N F L; [cbn; lia|]. destruct S as [|k' S]; [rewrite shared_one; cbn; lia|].
  pose proof (shared_step k (k' :: S) n N F (L k (or_introl eq_refl))) as X. inversion N; subst.
  specialize (IH ltac:(assumption) (prefix_free_tail _ _ F) ltac:(intros x I'; apply L; right; exact I')). cbn [length] in *. lia.
Qed.

(** ** Nodes *)
Inductive inner : ptree -> bytes -> N -> Prop :=
| inner_here id d cs : inner (PNode id d cs) [] id
| inner_child id d cs b c p x : has cs (idx b) c -> inner c p x -> inner (PNode id d cs) (b :: p) x.
Inductive leaf_of : ptree -> bytes -> N -> Prop :=
| leaf_here id s : leaf_of (PLeaf id s) s id
| leaf_child id d cs b c k x : has cs (idx b) c -> leaf_of c k x -> leaf_of (PNode id d cs) (b :: k) x.
Lemma inner_own t p x : inner t p x -> own t x.
Proof. induction 1; [constructor|econstructor; eassumption]. Qed.
Lemma leaf_own t k x : leaf_of t k x -> own t x.
Proof. induction 1; [constructor|econstructor; eassumption]. Qed.
Lemma leaf_mem t k : (exists x, leaf_of t k x) <-> mem t k.
Proof.
  split.
  - intros [x L]. induction L; [constructor|econstructor; eassumption].
  - intros M. induction M as [id s|id d cs b c k Hc M [x IH]]; [exists id; constructor|]. exists x. econstructor; eassumption.
Qed.
Section Good.
Variable H : bytes -> bytes.
Variable st : TrieModel.store.
Lemma own_split n path t x : good H st n path t -> own t x -> (exists p, inner t p x) \/ (exists k, leaf_of t k x).
Proof.
  intros G. induction G as [n path id s Hl Ha|n path id d cs Hl Ha Hc IH Hid Hdj H2 Hcl]; intros O.
  - inversion O; subst. right. exists s. constructor.
  - inversion O as [|? ? ?|? ? ? i c y Hi Oc]; subst; [left; exists []; constructor|].
    assert (i < 256)%nat as Li by (rewrite <- Hl; apply (has_lt cs i c Hi)). pose proof (idx_b8 i Li) as Ei.
    destruct (IH i c Hi Oc) as [[p I']|[k I']]; [left; exists (b8 (N.of_nat i) :: p)|right; exists (b8 (N.of_nat i) :: k)]; (econstructor; [rewrite Ei; exact Hi|exact I']).
Qed.
Lemma inner_path n path t : good H st n path t -> forall p p' x, inner t p x -> inner t p' x -> p = p'.
Proof.
  intros G. induction G as [n path id s Hl Ha|n path id d cs Hl Ha Hc IH Hid Hdj H2 Hcl]; intros p p' x I1 I2.
  - inversion I1.
  - inversion I1 as [|? ? ? b c q ? B1 J1]; subst; inversion I2 as [|? ? ? b' c' q' ? B2 J2]; subst.
    + reflexivity.
    + exfalso. exact (Hid _ _ B2 (inner_own _ _ _ J2)).
    + exfalso. exact (Hid _ _ B1 (inner_own _ _ _ J1)).
    + pose proof (Hdj _ _ _ _ _ B1 B2 (inner_own _ _ _ J1) (inner_own _ _ _ J2)) as E. apply idx_inj in E. subst b'.
      assert (c' = c) by (unfold has in *; congruence). subst c'. f_equal. exact (IH _ _ B1 _ _ _ J1 J2).
Qed.
Lemma leaf_path n path t : good H st n path t -> forall k k' x, leaf_of t k x -> leaf_of t k' x -> k = k'.
Proof.
  intros G. induction G as [n path id s Hl Ha|n path id d cs Hl Ha Hc IH Hid Hdj H2 Hcl]; intros k k' x I1 I2.
  - inversion I1; inversion I2; subst; reflexivity.
  - inversion I1 as [|? ? ? b c q ? B1 J1]; subst; inversion I2 as [|? ? ? b' c' q' ? B2 J2]; subst.
    pose proof (Hdj _ _ _ _ _ B1 B2 (leaf_own _ _ _ J1) (leaf_own _ _ _ J2)) as E. apply idx_inj in E. subst b'.
    assert (c' = c) by (unfold has in *; congruence). subst c'. f_equal. exact (IH _ _ B1 _ _ _ J1 J2).
Qed.
Lemma inner_not_leaf n path t : good H st n path t -> forall p k x, inner t p x -> leaf_of t k x -> False.
Proof.
  intros G. induction G as [n path id s Hl Ha|n path id d cs Hl Ha Hc IH Hid Hdj H2 Hcl]; intros p k x I1 I2.
  - inversion I1.
  - inversion I2 as [|? ? ? b' c' q' ? B2 J2]; subst. inversion I1 as [|? ? ? b c q ? B1 J1]; subst.
    + exact (Hid _ _ B2 (leaf_own _ _ _ J2)).
    + pose proof (Hdj _ _ _ _ _ B1 B2 (inner_own _ _ _ J1) (leaf_own _ _ _ J2)) as E. apply idx_inj in E. subst b'.
      assert (c' = c) by (unfold has in *; congruence). subst c'. exact (IH _ _ B1 _ _ _ J1 J2).
Qed.
Lemma inner_branching n path t : good H st n path t -> forall p, (exists x, inner t p x) <-> branching (mem t) p.
Proof.
  intros G. induction G as [n path id s Hl Ha|n path id d cs Hl Ha Hc IH Hid Hdj H2 Hcl]; intros p.
  - split; [intros [x I']; inversion I'|]. intros (k1 & k2 & r1 & r2 & M1 & M2 & D & _). inversion M1; inversion M2; subst. congruence.
  - split.
    + intros [x I']. inversion I' as [|? ? ? b c q ? B1 J1]; subst.
      * destruct H2 as (k1 & k2 & M1 & M2 & D). exists k1, k2, k1, k2. auto.
      * destruct (proj1 (IH _ _ B1 q) (ex_intro _ x J1)) as (k1 & k2 & r1 & r2 & M1 & M2 & D & -> & ->).
        exists (b :: q ++ r1), (b :: q ++ r2), r1, r2. repeat split; try (econstructor; eassumption). congruence.
    + intros (k1 & k2 & r1 & r2 & M1 & M2 & D & E1 & E2). destruct p as [|b p]; [exists id; constructor|].
      subst k1 k2. cbn [app] in M1, M2, D.
      inversion M1 as [|? ? ? b1 c1 q1 B1 N1]; subst. inversion M2 as [|? ? ? b2 c2 q2 B2 N2]; subst.
      assert (c2 = c1) by (unfold has in *; congruence). subst c2.
      destruct (proj2 (IH _ _ B1 p)) as [x X].
      { exists (p ++ r1), (p ++ r2), r1, r2. repeat split; try assumption. intros E. apply D. rewrite E. reflexivity. }
      exists x. econstructor; eassumption.
Qed.
End Good.
(** Lists without repetition. *)
Lemma nodup_both {A} (a b : list A) : NoDup a -> (forall x, In x a -> In x b -> False) -> NoDup b -> NoDup (a ++ b).
Proof.
  intros Na D Nb. induction a as [|x a IH]; [exact Nb|]. inversion Na; subst. cbn. constructor.
  - intros I'. apply in_app_iff in I' as [I'|I']; [contradiction|]. exact (D x (or_introl eq_refl) I').
  - apply IH; [assumption|]. intros y Y. apply D. right. exact Y.
Qed.
(** A list of partners. *)
Lemma partners {A B} (R : A -> B -> Prop) : forall l, NoDup l -> (forall a, In a l -> exists b, R a b) -> (forall a a' b, R a b -> R a' b -> a = a') ->
  exists bs, length bs = length l /\ NoDup bs /\ forall b, In b bs -> exists a, In a l /\ R a b.
Proof.
  induction l as [|a l IH]; intros N E Inj.
  - exists []. split; [reflexivity|]. split; [constructor|]. intros b [].
  - inversion N as [|? ? Na Nl]; subst. destruct (IH Nl ltac:(intros x X; apply E; right; exact X) Inj) as (bs & L & Nb & K). destruct (E a (or_introl eq_refl)) as [b Rb].
    exists (b :: bs). split; [cbn; rewrite L; reflexivity|]. split.
    + constructor; [|exact Nb]. intros I'. destruct (K b I') as [a' [I'' R']]. assert (a' = a) by (eapply Inj; eassumption). subst. contradiction.
    + intros x [<-|X]; [exists a; split; [left; reflexivity|exact Rb]|]. destruct (K x X) as [a' [I'' R']]. exists a'. split; [right; exact I''|exact R'].
Qed.
Lemma partners_all {A B} (R : A -> B -> Prop) l (bs : list B) : length bs = length l -> NoDup bs -> NoDup l -> (forall b, In b bs -> exists a, In a l /\ R a b) -> 
  (forall a b b', R a b -> R a b' -> b = b') -> forall a b, In a l -> R a b -> In b bs.
Proof.
  intros L Nb Nl K F a b Ia Rab.
  (* the members of [l] with a partner in [bs] are as many *)
  assert (exists al, length al = length bs /\ NoDup al /\ (forall x, In x al -> In x l /\ exists y, In y bs /\ R x y)) as (al & L1 & N1 & K1).
  { destruct (partners (fun y x => In y bs /\ In x l /\ R x y) bs Nb) as (al & L1 & N1 & K1).
    - intros y Y. destruct (K y Y) as [x [X1 X2]]. exists x. auto.
    - intros y y' x (_ & _ & R1) (_ & _ & R2). exact (F _ _ _ R1 R2).
    - exists al. split; [exact L1|]. split; [exact N1|]. intros x X. destruct (K1 x X) as [y [Y (_ & X1 & X2)]]. split; [exact X1|]. exists y. auto. }
  assert (In a al) as Ial.
  { assert (incl l al) as Inc by (apply NoDup_length_incl; [exact N1|lia|intros x X; apply K1; exact X]). apply Inc. exact Ia. }
  destruct (K1 a Ial) as [_ [y [Y1 Y2]]]. assert (y = b) by (eapply F; eassumption). subst. exact Y1.
Qed.
Lemma inner_fun t : forall p x x', inner t p x -> inner t p x' -> x = x'.
Proof.
  intros p x x' I1. revert x'. induction I1 as [id d cs|id d cs b c p x Hc I1 IH]; intros x' I2; inversion I2 as [|? ? ? b' c' q' ? B2 J2]; subst; [reflexivity|].
  assert (c' = c) by (unfold has in *; congruence). subst c'. apply IH. exact J2.
Qed.
Lemma leaf_fun t : forall k x x', leaf_of t k x -> leaf_of t k x' -> x = x'.
Proof.
  intros p x x' I1. revert x'. induction I1 as [id s|id d cs b c p x Hc I1 IH]; intros x' I2; inversion I2 as [|? ? ? b' c' q' ? B2 J2]; subst; [reflexivity|].
  assert (c' = c) by (unfold has in *; congruence). subst c'. apply IH. exact J2.
Qed.
Lemma stands_size H n L t S : stands H n L t S -> NoDup S ->
  exists ids, NoDup ids /\ (forall id, storage (tstore t) id <> None <-> In id ids) /\ length ids = (length S + length (shared S))%nat.
Proof.
  intros R N. unfold stands in R. destruct (root t) as [r|].
  - destruct R as (pt & _ & G & Hm & Ho & _).
    assert (forall p, In p (shared S) <-> branching (mem pt) p) as Sh.
    { intros p. rewrite in_shared by exact N. unfold branching. split; intros (k1 & k2 & r1 & r2 & M1 & M2 & D); exists k1, k2, r1, r2; (split; [apply Hm; exact M1|split; [apply Hm; exact M2|exact D]]). }
    destruct (partners (leaf_of pt) S N) as (ls & L1 & N1 & K1).
    { intros k I'. apply leaf_mem, Hm, I'. }
    { intros k k' x. exact (leaf_path H _ _ _ _ G k k' x). }
    destruct (partners (inner pt) (shared S) (shared_nodup S)) as (is & L2 & N2 & K2).
    { intros p I'. apply (inner_branching H _ _ _ _ G), Sh, I'. }
    { intros p p' x. exact (inner_path H _ _ _ _ G p p' x). }
    exists (ls ++ is). split; [|split].
    + apply nodup_both; [exact N1| |exact N2]. intros x X1 X2. destruct (K1 x X1) as [k [_ A]]. destruct (K2 x X2) as [p [_ B]]. exact (inner_not_leaf H _ _ _ _ G _ _ _ B A).
    + intros id. rewrite Ho, in_app_iff. split.
      * intros O. destruct (own_split H _ _ _ _ _ G O) as [[p I']|[k I']].
        -- right. refine (partners_all (inner pt) (shared S) is L2 N2 (shared_nodup S) K2 (inner_fun pt) p id _ I'). apply Sh, (inner_branching H _ _ _ _ G). exists id. exact I'.
        -- left. refine (partners_all (leaf_of pt) S ls L1 N1 N K1 (leaf_fun pt) k id _ I'). apply Hm, leaf_mem. exists id. exact I'.
      * intros [X|X]; [destruct (K1 id X) as [k [_ A]]; exact (leaf_own _ _ _ A)|destruct (K2 id X) as [p [_ A]]; exact (inner_own _ _ _ A)].
    + rewrite app_length, L1, L2. reflexivity.
  - destruct R as [-> E]. exists []. split; [constructor|]. split; [|reflexivity]. intros id. rewrite E. split; [congruence|intros []].
Qed.
Lemma trie_size H (Hlen : hash32 H) m n ops xs S : Forall (key_upto n) ops -> small_history n ops -> ref_run H ops [] 0 = Ok (xs, S) ->
  exists t ids, run H m ops new_trie = Ok (xs, t) /\ NoDup ids /\ (forall id, storage (tstore t) id <> None <-> In id ids) /\
    length ids = (length S + length (shared S))%nat /\ (length (shared S) <= (length S - 1) * n)%nat.
Proof.
  intros Hk Hs E. destruct (any_state H Hlen m n ops xs S Hk Hs E) as (t & L & R & G & N & F). destruct (stands_size H n L t S G N) as (ids & A & B & C). exists t, ids.
  split; [exact R|]. split; [exact A|]. split; [exact B|]. split; [exact C|]. apply shared_bound; [exact N|exact F|exact (stands_bound _ _ _ _ _ G)].
Qed.
Lemma trie_size_lemma H : hash32 H -> forall m n ops xs S, Forall (key_upto n) ops -> small_history n ops -> ref_run H ops [] 0 = Ok (xs, S) ->
  exists t ids, run H m ops new_trie = Ok (xs, t) /\ NoDup ids /\ (forall id, storage (tstore t) id <> None <-> In id ids) /\
    length ids = (length S + length (shared S))%nat.
Proof. intros Hlen m n ops xs S Hk Hs E. destruct (trie_size H Hlen m n ops xs S Hk Hs E) as (t & ids & A & B & C & D & _). exists t, ids. auto. Qed.
Lemma trie_bound_lemma H : hash32 H -> forall m n ops xs S t ids, Forall (key_upto n) ops -> small_history n ops -> ref_run H ops [] 0 = Ok (xs, S) ->
  run H m ops new_trie = Ok (xs, t) -> NoDup ids -> (forall id, In id ids -> storage (tstore t) id <> None) ->
  (length ids <= length S + (length S - 1) * n)%nat.
Proof.
  intros Hlen m n ops xs S t ids Hk Hs E R Nd Hin. destruct (trie_size H Hlen m n ops xs S Hk Hs E) as (t' & ids' & A & B & C & D & F).
  assert (t' = t) by congruence. subst t'. assert (incl ids ids') as Inc by (intros x X; apply C, Hin, X). pose proof (NoDup_incl_length Nd Inc). lia.
Qed.
Lemma shared_lemma : forall S, NoDup S -> NoDup (shared S) /\
  forall p, In p (shared S) <-> exists r1 r2, In (p ++ r1) S /\ In (p ++ r2) S /\ r1 <> r2.
Proof.
  intros S N. split; [apply shared_nodup|]. intros p. rewrite in_shared by exact N. split.
  - intros (k1 & k2 & r1 & r2 & M1 & M2 & D & -> & ->). exists r1, r2. repeat split; try assumption. congruence.
  - intros (r1 & r2 & M1 & M2 & D). exists (p ++ r1), (p ++ r2), r1, r2. repeat split; try assumption. intros E. apply D, (app_inv_head p), E.
Qed.
