(** Proofs for C152. *)
From Coq Require Import Sorting Permutation.
From Verif Require Import Base BaseFacts MerkleArrayModel MerkleArraySpec MerkleArrayProofs ProofSizeSpec.
Local Open Scope N_scope.

Lemma neighbour_sib p : neighbour p = sib p.
Proof. reflexivity. Qed.
Lemma lonely_nil : lonely [] = [].
Proof. reflexivity. Qed.
Lemma existsb_in p l : existsb (N.eqb p) l = true <-> In p l.
Proof.
  rewrite existsb_exists. split.
  - intros [x [I E]]. apply N.eqb_eq in E. subst. exact I.
  - intros I'. exists p. split; [exact I'|apply N.eqb_refl].
Qed.
Lemma existsb_notin p l : existsb (N.eqb p) l = false <-> ~ In p l.
Proof. rewrite <- existsb_in. destruct (existsb _ _); split; congruence. Qed.
Lemma lonely_perm a b : Permutation a b -> length (lonely a) = length (lonely b).
Proof.
  intros P. unfold lonely. 
  assert (forall l, filter (fun q => negb (existsb (N.eqb (neighbour q)) a)) l = filter (fun q => negb (existsb (N.eqb (neighbour q)) b)) l) as ->.
  { intros l. apply filter_ext. intros q. f_equal. destruct (existsb (N.eqb (neighbour q)) b) eqn:E.
    - apply existsb_in. apply existsb_in in E. eapply Permutation_in; [symmetry; exact P|exact E].
    - apply existsb_notin. apply existsb_notin in E. intros I'. apply E. eapply Permutation_in; [exact P|exact I']. }
  apply Permutation_length. generalize (fun q => negb (existsb (N.eqb (neighbour q)) b)) as f. intros f. induction P as [|x l l' P IH|x y l|l l' l'' P1 IH1 P2 IH2]; cbn [filter].
  - constructor.
  - destruct (f x); [constructor|]; exact IH.
  - destruct (f y), (f x); try reflexivity. apply perm_swap.
  - etransitivity; eassumption.
Qed.
(** One level of the code's walk over sorted positions. *)
Lemma sib_sib p : sib (sib p) = p.
Proof.
  unfold sib. destruct (N.even p) eqn:E.
  - apply even_spec2 in E as [k ->]. replace (2 * k + 1) with (1 + 2 * k) by lia. rewrite N.even_add_mul_2. change (N.even 1) with false. cbv iota. lia.
  - apply odd_spec2 in E as [k ->]. replace (2 * k + 1 - 1) with (0 + 2 * k) by lia. rewrite N.even_add_mul_2. change (N.even 0) with true. cbv iota. lia.
Qed.
Lemma sib_lt p q : p < q -> sib p <= q -> p < sib p \/ sib p < p.
Proof. intros _ _. unfold sib. destruct (N.even p) eqn:E; [lia|]. apply odd_spec2 in E as [k ->]. lia. Qed.
Lemma lonely_strict L : forall ps, StronglySorted N.lt ps -> length (needed L ps) = length (lonely ps).
Proof.
  (* a prefix set that contains no neighbours of the rest *)
  assert (forall ps all, StronglySorted N.lt ps -> (forall q, In q ps -> (In (sib q) all <-> In (sib q) ps)) ->
    length (needed L ps) = length (filter (fun q => negb (existsb (N.eqb (neighbour q)) all)) ps)) as K.
  { induction ps as [|a|a b ps IH1 IH2] using list_ind2; intros all S A.
    - reflexivity.
    - cbn [needed length filter]. rewrite neighbour_sib. assert (existsb (N.eqb (sib a)) all = false) as ->; [|reflexivity].
      apply existsb_notin. intros I'. apply (A a (or_introl eq_refl)) in I'. destruct I' as [E|[]]. unfold sib in E. destruct (N.even a) eqn:Ev; [lia|]. apply odd_spec2 in Ev as [k ->]. lia.
    - pose proof (StronglySorted_inv S) as [S1 F1]. pose proof (StronglySorted_inv S1) as [S2 F2].
      assert (a < b) as AB by (apply (Forall_inv F1)).
      rewrite needed_cons2. destruct (N.eqb_spec b (sib a)) as [E|E].
      + assert (sib b = a) as Eb by (rewrite E; apply sib_sib). cbn [filter]. rewrite (neighbour_sib a), (neighbour_sib b), Eb, <- E.
        assert (existsb (N.eqb b) all = true) as -> by (apply existsb_in; rewrite E; apply (A a (or_introl eq_refl)); rewrite <- E; right; left; reflexivity).
        assert (existsb (N.eqb a) all = true) as -> by (apply existsb_in; rewrite <- Eb; apply (A b (or_intror (or_introl eq_refl))); rewrite Eb; left; reflexivity).
        cbn [negb]. apply IH1; [exact S2|]. intros q Hq. split.
        * intros I'. apply (A q (or_intror (or_intror Hq))) in I'. destruct I' as [X|[X|X]]; [| |exact X]; exfalso.
          -- assert (q = b) by (rewrite E, X; symmetry; apply sib_sib). rewrite Forall_forall in F2. specialize (F2 q Hq). lia.
          -- assert (q = a) by (rewrite <- Eb, X; symmetry; apply sib_sib). apply Forall_inv_tail in F1. rewrite Forall_forall in F1. specialize (F1 q Hq). lia.
        * intros I'. apply (A q (or_intror (or_intror Hq))). right; right; exact I'.
      + assert (~ In (sib a) (a :: b :: ps)) as Na.
        { intros [X|[X|X]].
          - unfold sib in X. destruct (N.even a) eqn:Ev; [lia|]. apply odd_spec2 in Ev as [k Ek]. lia.
          - congruence.
          - rewrite Forall_forall in F2. specialize (F2 _ X). unfold sib in F2. destruct (N.even a) eqn:Ev; lia. }
        cbn [length]. replace (filter (fun q => negb (existsb (N.eqb (neighbour q)) all)) (a :: b :: ps)) with
          (a :: filter (fun q => negb (existsb (N.eqb (neighbour q)) all)) (b :: ps)).
        * cbn [length]. f_equal. apply IH2; [exact S1|]. intros q Hq. split.
          -- intros I'. apply (A q (or_intror Hq)) in I'. destruct I' as [X|X]; [|exact X]. exfalso. apply Na. rewrite X, sib_sib. right. exact Hq.
          -- intros I'. apply (A q (or_intror Hq)). right. exact I'.
        * cbn [filter]. rewrite (neighbour_sib a). assert (existsb (N.eqb (sib a)) all = false) as ->; [|reflexivity]. apply existsb_notin. intros I'. apply Na. apply (A a (or_introl eq_refl)). exact I'. }
  intros ps S. unfold lonely. apply K; [exact S|tauto].
Qed.
Lemma next_pos_in ps : forall q, In q (next_pos ps) <-> exists p, In p ps /\ q = p / 2.
Proof.
  induction ps as [|a|a b ps IH1 IH2] using list_ind2; intros q.
  - split; [intros []|intros [p [[] _]]].
  - cbn. split; [intros [<-|[]]; exists a; auto|]. intros [p [[<-|[]] ->]]. left. reflexivity.
  - rewrite next_pos_cons2. destruct (N.eqb_spec b (sib a)) as [->|E].
    + cbn [In]. rewrite IH1. split.
      * intros [<-|[p [I' ->]]]; [exists a|exists p]; auto.
      * intros [p [[<-|[<-|I']] ->]]; [left; reflexivity|left; symmetry; apply sib_half|right; exists p; auto].
    + change (In q (a / 2 :: next_pos (b :: ps)) <-> exists p, In p (a :: b :: ps) /\ q = p / 2).
      assert (forall x y, In x (y :: next_pos (b :: ps)) <-> y = x \/ In x (next_pos (b :: ps))) as K by (intros; reflexivity).
      rewrite K, IH2. split.
      * intros [<-|[p [I' ->]]]; [exists a; split; [left; reflexivity|reflexivity]|exists p; split; [right; exact I'|reflexivity]].
      * intros [p [[<-|I'] ->]]; [left; reflexivity|right; exists p; auto].
Qed.
Lemma strict_nodup l : StronglySorted N.lt l -> NoDup l.
Proof.
  induction 1 as [|a l S IH F]; constructor; [|exact IH]. intros I'. rewrite Forall_forall in F. specialize (F a I'). lia.
Qed.
Lemma iter_next_in n : forall ps q, In q (iter_next n ps) <-> exists p, In p ps /\ q = p / 2 ^ N.of_nat n.
Proof.
  induction n as [|n IH]; intros ps q.
  - cbn [iter_next]. change (2 ^ N.of_nat 0) with 1. split; [intros I'; exists q; split; [exact I'|rewrite N.div_1_r; reflexivity]|]. intros [p [I' ->]]. rewrite N.div_1_r. exact I'.
  - cbn [iter_next]. rewrite IH. replace (2 ^ N.of_nat (S n)) with (2 * 2 ^ N.of_nat n) by (rewrite Nat2N.inj_succ, N.pow_succ_r'; reflexivity).
    assert (2 ^ N.of_nat n <> 0) as NZ by (apply N.pow_nonzero; lia). split.
    + intros [p [I' ->]]. apply next_pos_in in I'. destruct I' as [p' [I' ->]]. exists p'. split; [exact I'|]. apply N.div_div; [lia|exact NZ].
    + intros [p [I' ->]]. exists (p / 2). split; [apply next_pos_in; exists p; auto|]. symmetry. apply N.div_div; [lia|exact NZ].
Qed.
Lemma iter_next_strict n : forall ps, StronglySorted N.lt ps -> StronglySorted N.lt (iter_next n ps).
Proof. induction n as [|n IH]; intros ps S; [exact S|]. cbn [iter_next]. apply IH, next_pos_strict, S. Qed.
Lemma ancestors_perm n ps idxs : StronglySorted N.lt ps -> (forall p, In p ps <-> In p idxs) -> Permutation (iter_next n ps) (ancestors n idxs).
Proof.
  intros S E. apply NoDup_Permutation; [apply strict_nodup, iter_next_strict, S|apply NoDup_nodup|]. intros q. rewrite iter_next_in. unfold ancestors. rewrite nodup_In, in_map_iff. split.
  - intros [p [I' ->]]. exists p. split; [reflexivity|apply E; exact I'].
  - intros [p [<- I']]. exists p. split; [apply E; exact I'|reflexivity].
Qed.
Lemma all_hints_snoc H : forall n L ps, exists L', length (all_hints H (S n) L ps) = (length (all_hints H n L ps) + length (needed L' (iter_next n ps)))%nat.
Proof.
  induction n as [|n IH]; intros L ps.
  - exists L. cbn [all_hints iter_next length]. rewrite app_length. cbn. lia.
  - destruct (IH (layer_up H L) (next_pos ps)) as [L' E]. exists L'. cbn [all_hints iter_next] in *. rewrite !app_length in *. lia.
Qed.
Lemma all_hints_length H idxs ps : StronglySorted N.lt ps -> (forall p, In p ps <-> In p idxs) -> forall n L, length (all_hints H n L ps) = missing n idxs.
Proof.
  intros S E. induction n as [|n IH]; intros L; [reflexivity|].
  destruct (all_hints_snoc H n L ps) as [L' ->]. rewrite IH. cbn [missing]. f_equal.
  rewrite lonely_strict by (apply iter_next_strict, S). apply lonely_perm. apply ancestors_perm; assumption.
Qed.
Lemma ups_length_above H m : forall L, 2 ^ N.of_nat m < N.of_nat (length L) -> (1 < length (ups H m L))%nat.
Proof.
  induction m as [|m IH]; intros L B; cbn [ups].
  - cbn in B. lia.
  - apply IH. rewrite length_layer_up. replace (N.of_nat (S m)) with (N.succ (N.of_nat m)) in B by lia.
    rewrite N.pow_succ_r' in B. pose proof (div2_le (length L)). lia.
Qed.
Lemma height_exact H xs t : from_array H xs = Some t -> (length t - 1 = tree_height (length xs))%nat.
Proof.
  intros E. apply levels_from_spec in E as (Ne & H1 & H2 & H3). unfold tree_height. set (n := N.of_nat (length xs)). 
  assert (1 <= length t)%nat by (destruct t; [contradiction|cbn; lia]).
  destruct (Nat.lt_trichotomy (length t - 1) (N.to_nat (N.log2_up n))) as [L|[E|G]]; [|exact E|]; exfalso.
  - assert (1 < n) as N1 by (destruct (N.le_gt_cases n 1) as [X|X]; [rewrite N.log2_up_eqn0 in L by exact X; cbn in L; lia|exact X]).
    pose proof (N.log2_up_spec n N1) as [Lo _]. 
    assert (2 ^ N.of_nat (length t - 1) < n) as B by (eapply N.le_lt_trans; [|exact Lo]; apply N.pow_le_mono_r; lia).
    pose proof (ups_length_above H (length t - 1) (map H xs)) as K. rewrite map_length in K. specialize (K B). lia.
  - specialize (H2 (N.to_nat (N.log2_up n)) ltac:(lia)). pose proof (ups_length_bound H (N.to_nat (N.log2_up n)) (map H xs)) as K. rewrite map_length, N2Nat.id in K.
    assert (n <= 2 ^ N.log2_up n) as B; [|specialize (K B); lia]. destruct (N.le_gt_cases n 1) as [X|X]; [rewrite N.log2_up_eqn0 by exact X; exact X|apply N.log2_up_spec; exact X].
Qed.
Lemma prove_size H xs t idxs proof : from_array H xs = Some t -> prove H t idxs = Ok proof -> length proof = missing (tree_height (length xs)) idxs.
Proof.
  intros T P. destruct idxs as [|i r] eqn:Ei.
  - cbn in P. injection P as <-. cbn [length]. induction (tree_height (length xs)) as [|h IH]; [reflexivity|]. cbn. rewrite <- IH. reflexivity.
  - rewrite <- Ei in *. assert (idxs <> []) as Ne by (rewrite Ei; discriminate).
    destruct (in_range_dec xs idxs) as [R|[p [I' G]]].
    + destruct (prove_ok H xs t idxs T Ne R) as [ps [S [E X]]]. rewrite X in P. injection P as <-. rewrite (all_hints_length H idxs ps S E). rewrite (height_exact H xs t T). reflexivity.
    + pose proof (prove_err_lemma H xs t idxs p T I' ltac:(lia)) as X. rewrite X in P. discriminate.
Qed.
Lemma lonely_le S : (length (lonely S) <= length S)%nat.
Proof. unfold lonely. generalize (fun q => negb (existsb (N.eqb (neighbour q)) S)) as f. intros f. induction S as [|a S IH]; cbn; [lia|]. destruct (f a); cbn; lia. Qed.
Lemma ancestors_le l idxs : (length (ancestors l idxs) <= length (nodup N.eq_dec idxs))%nat.
Proof.
  unfold ancestors. rewrite <- (map_length (fun p => p / 2 ^ N.of_nat l) (nodup N.eq_dec idxs)). apply NoDup_incl_length; [apply NoDup_nodup|].
  intros q I'. apply nodup_In, in_map_iff in I'. destruct I' as [p [<- I']]. apply (in_map (fun p => p / 2 ^ N.of_nat l)), nodup_In, I'.
Qed.
Lemma missing_le h idxs : (missing h idxs <= length (nodup N.eq_dec idxs) * h)%nat.
Proof.
  induction h as [|h IH]; cbn [missing]; [lia|]. pose proof (lonely_le (ancestors h idxs)). pose proof (ancestors_le h idxs). lia.
Qed.
Lemma missing_one h p : missing h [p] = h.
Proof.
  induction h as [|h IH]; [reflexivity|]. cbn [missing]. rewrite IH. unfold ancestors. cbn [map nodup in_dec list_rec list_rect]. set (q := p / 2 ^ N.of_nat h).
  replace (nodup N.eq_dec [q]) with [q] by reflexivity. unfold lonely. cbn [filter existsb]. 
  assert ((neighbour q =? q) = false) as ->; [|cbn; lia]. apply N.eqb_neq. unfold neighbour. destruct (N.even q) eqn:E; [lia|]. apply odd_spec2 in E as [k ->]. lia.
Qed.
(** Leaves that come in whole pairs at every height need nothing. *)
Lemma missing_all k idxs : (forall p, p < 2 ^ N.of_nat k <-> In p idxs) -> missing k idxs = 0%nat.
Proof.
  intros A. assert (forall h, (h <= k)%nat -> missing h idxs = 0%nat) as K; [|apply K; lia].
  induction h as [|h IH]; intros L; [reflexivity|]. cbn [missing]. rewrite IH by lia. cbn [Nat.add].
  assert (forall q, In q (ancestors h idxs) <-> q < 2 ^ N.of_nat (k - h)) as M.
  { intros q. assert (2 ^ N.of_nat k = 2 ^ N.of_nat h * 2 ^ N.of_nat (k - h)) as Pk by (rewrite <- N.pow_add_r; f_equal; lia). assert (2 ^ N.of_nat h <> 0) as NZ by (apply N.pow_nonzero; lia).
    unfold ancestors. rewrite nodup_In, in_map_iff. split.
    - intros [p [<- I']]. apply A in I'. apply N.div_lt_upper_bound; [exact NZ|]. rewrite <- Pk. exact I'.
    - intros Q. exists (q * 2 ^ N.of_nat h). split; [apply N.div_mul; exact NZ|]. apply A. rewrite Pk, N.mul_comm. apply N.mul_lt_mono_pos_l; [lia|exact Q]. }
  unfold lonely. assert (forall S, (forall q, In q S -> In q (ancestors h idxs)) -> filter (fun q => negb (existsb (N.eqb (neighbour q)) (ancestors h idxs))) S = []) as ->; [|reflexivity|tauto].
  induction S as [|q S IHS]; intros I'; [reflexivity|]. cbn [filter]. assert (existsb (N.eqb (neighbour q)) (ancestors h idxs) = true) as ->.
  - apply existsb_in. apply M. pose proof (proj1 (M q) (I' q (or_introl eq_refl))) as Q. replace (2 ^ N.of_nat (k - h)) with (2 * 2 ^ N.of_nat (k - h - 1)) in *.
    + unfold neighbour. destruct (N.even q) eqn:E; [apply even_spec2 in E as [j ->]|apply odd_spec2 in E as [j ->]]; lia.
    + rewrite <- N.pow_succ_r'. f_equal. lia.
  - cbn [negb]. apply IHS. intros x X. apply I'. right. exact X.
Qed.
Lemma height_pow k : tree_height (2 ^ k) = k.
Proof. unfold tree_height. rewrite Nat2N.inj_pow. change (N.of_nat 2) with 2. rewrite N.log2_up_pow2 by lia. apply Nat2N.id. Qed.
