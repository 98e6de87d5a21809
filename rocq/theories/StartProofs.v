(** Proofs about the first blocks of a network. *)
From Verif Require Import Base BaseFacts AddressModel BlockModel BlockSpec ChainSpec BlockProofs StartSpec ShaModel.
Local Open Scope N_scope.

Lemma create_fields table H v gb id hash b : create_block table H v gb id hash = Some b ->
  exists p, lookup v table = Some p /\ payset b = [] /\ round (head b) = 0 /\ upgrade (head b) = mkUpgrade v None 0 0 0 /\
    genesis_id (head b) = id /\ genesis_hash (head b) = (if support_genesis_hash p then hash else zero32) /\
    timestamp (head b) = gb_timestamp gb /\ tx_root (head b) = commit_genesis H [].
Proof.
  unfold create_block. destruct (lookup v table) as [p|] eqn:L; [|discriminate]. destruct (find _ _); [|discriminate].
  destruct (div64 _ _); [|discriminate]. intros E. injection E as <-. exists p. repeat split; assumption || reflexivity.
Qed.

Lemma genesis_contents table H v gb id hash b p : create_block table H v gb id hash = Some b -> lookup v table = Some p ->
  (payset_commit p = Flat -> contents_match_header table H b = Some true) /\
  (payset_commit p = Merkle -> contents_match_header table H b = Some (bytes_eqb zero32 (H (payset_rep [])))).
Proof.
  intros E L. destruct (create_fields _ _ _ _ _ _ _ E) as (p' & L' & P & _ & U & _ & _ & _ & T).
  unfold contents_match_header, payset_commit_of, params_of. rewrite U. cbn [current]. rewrite L, T. split; intros C; rewrite C.
  - rewrite P. unfold commit_flat, commit_genesis. do 2 f_equal. apply bytes_eqb_refl.
  - unfold tx_merkle_root. rewrite P. reflexivity.
Qed.

(** ** The chain *)

Definition V : version := CURRENT_CONSENSUS_VERSION.
Definition calm : upgrade_state := mkUpgrade V None 0 0 0.

Lemma current_facts p : lookup V built_in = Some p ->
  approved_upgrades p = [] /\ support_genesis_hash p = true /\ payset_commit p = Merkle /\ max_timestamp_increment p = 25.
Proof. intros E. vm_compute in E. injection E as <-. repeat split; reflexivity. Qed.

Lemma vote_calm m r : r + 1 < two64 -> apply_upgrade_vote built_in m calm (r + 1) no_vote = (calm, Ok tt).
Proof.
  intros Hr. unfold apply_upgrade_vote. destruct (lookup (current calm) built_in) as [p|] eqn:L; [|vm_compute in L; discriminate].
  unfold apply_proposal, apply_approval, clear_failed, switch_over. cbn.
  destruct (r + 1 =? 0) eqn:Z; [lia|]. cbn. rewrite Z. reflexivity.
Qed.
Lemma params_calm m r : r + 1 < two64 -> process_upgrade_params built_in m r calm = (calm, Ok no_vote).
Proof.
  intros Hr. unfold process_upgrade_params. destruct (lookup (current calm) built_in) as [p|] eqn:L; [|vm_compute in L; discriminate].
  destruct (current_facts p L) as (A & _). unfold our_vote. rewrite A. cbn [next_protocol calm vote_before].
  unfold add64. destruct (r + 1 <? two64) eqn:B; [|lia]. destruct (r + 1 <? 0) eqn:Z; [lia|]. rewrite vote_calm; auto.
Qed.

Lemma increments v p : lookup v built_in = Some p -> max_timestamp_increment p <= 25.
Proof. intros E. destruct v; vm_compute in E; try discriminate; injection E as <-; vm_compute; discriminate. Qed.

Lemma step_lemma H m now h : upgrade h = calm -> round h + 1 < two64 -> genesis_id h <> [] -> genesis_hash h <> zero32 ->
  timestamp h + 25 < 2 ^ 64 ->
  exists b, new_block built_in H m now h = (h, Some b) /\ upgrade (head b) = calm /\ round (head b) = round h + 1 /\
    genesis_id (head b) = genesis_id h /\ genesis_hash (head b) = genesis_hash h /\ payset b = [] /\
    timestamp (head b) <= N.max (timestamp h) now /\ contents_match_header built_in H b = Some true /\
    snd (pre_check built_in H m (head b) h) = Ok tt.
Proof.
  intros U R Gi Gh T.
  destruct (lookup V built_in) as [p|] eqn:L; [|vm_compute in L; discriminate].
  destruct (current_facts p L) as (_ & S & C & I25).
  assert (exists t, block_time m p (timestamp h) now = Some t /\ t <= N.max (timestamp h) now) as (t & Et & Ht).
  { unfold block_time. destruct (N.ltb_spec 0 (timestamp h)); [|exists now; split; [reflexivity|lia]].
    destruct (N.ltb_spec now (timestamp h)); [exists (timestamp h); split; [reflexivity|lia]|].
    unfold add64. rewrite I25. unfold two64. destruct (N.ltb_spec (timestamp h + 25) (2 ^ 64)); [|lia].
    destruct (N.ltb_spec (timestamp h + 25) now); eexists; (split; [reflexivity|lia]). }
  assert (exists b, new_block built_in H m now h = (h, Some b) /\ upgrade (head b) = calm /\ round (head b) = round h + 1 /\
    genesis_id (head b) = genesis_id h /\ genesis_hash (head b) = genesis_hash h /\ payset b = [] /\
    timestamp (head b) = t /\ contents_match_header built_in H b = Some true) as (b & E & U' & R' & I' & G' & P' & T' & C').
  { unfold new_block. rewrite U, params_calm by exact R. change (current calm) with V. rewrite L, Et.
    unfold add64. destruct (N.ltb_spec (round h + 1) two64); [|lia]. cbv zeta.
    replace (set_upgrade h calm) with h by (rewrite <- U; destruct h; reflexivity).
    match goal with |- context [payset_commit_of built_in H (mkBlock ?x [])] => set (h0 := x) end.
    assert (payset_commit_of built_in H (mkBlock h0 []) = Some zero32) as Ec.
    { unfold payset_commit_of, params_of. subst h0. cbn [head upgrade current calm]. rewrite L, C. reflexivity. }
    rewrite Ec. eexists. split; [reflexivity|]. repeat (split; [reflexivity|]).
    unfold contents_match_header, payset_commit_of, params_of. cbn [head upgrade current calm]. rewrite L, C.
    unfold tx_merkle_root. cbn [payset leaf_reps]. reflexivity. }
  exists b. split; [exact E|]. repeat (split; [assumption|]). split; [rewrite T'; exact Ht|]. split; [exact C'|].
  apply (new_passes built_in H m now h h b E).
  - intros v q Lq. apply increments in Lq. lia.
  - exact Gi.
  - intros q. rewrite U'. change (current calm) with V. rewrite L. intros Eq. injection Eq as <-. rewrite S. tauto.
Qed.

Lemma chain_lemma H m : forall nows h, upgrade h = calm -> round h + N.of_nat (length nows) < two64 ->
  genesis_id h <> [] -> genesis_hash h <> zero32 -> Forall (fun t => t + 25 < 2 ^ 64) (timestamp h :: nows) ->
  exists bs, made_after built_in H m h nows bs /\ length bs = length nows /\ linked built_in H m h (map head bs) /\
    Forall (fun b => contents_match_header built_in H b = Some true) bs.
Proof.
  induction nows as [|now nows IH]; intros h U R Gi Gh F.
  - exists []. repeat split; constructor.
  - inversion F as [|? ? F0 F']; subst. inversion F' as [|? ? F1 F2]; subst. cbn [length] in R.
    destruct (step_lemma H m now h U ltac:(lia) Gi Gh F0) as (b & E & U' & R' & I' & G' & _ & T' & C' & P').
    destruct (IH (head b)) as (bs & M & Len & K & Cs); [exact U'|lia|congruence|congruence|constructor; [lia|exact F2]|].
    exists (b :: bs). split; [econstructor; eassumption|]. split; [cbn; congruence|]. split; [split; assumption|]. constructor; assumption.
Qed.

Lemma made_unique table H m h nows bs bs' : made_after table H m h nows bs -> made_after table H m h nows bs' -> bs = bs'.
Proof.
  intros M. revert bs'. induction M as [h|h now nows h' b bs E M IH]; intros bs' M'; inversion M'; subst; [reflexivity|].
  assert (b0 = b) as -> by congruence. f_equal. auto.
Qed.

Lemma others_fail table H m now v gb id hash b p : create_block table H v gb id hash = Some b -> lookup v table = Some p ->
  (match approved_upgrades p with (k, _) :: _ => k | [] => CURRENT_CONSENSUS_VERSION end) <> v -> snd (new_block table H m now (head b)) = None.
Proof.
  intros E L N0. destruct (create_fields _ _ _ _ _ _ _ E) as (p' & L' & P & _ & U & _).
  apply (new_panics table H m now (head b) p); rewrite U; cbn [current next_protocol vote_before]; auto.
Qed.
Lemma others_propose v p : lookup v built_in = Some p -> v <> CURRENT_CONSENSUS_VERSION ->
  (match approved_upgrades p with (k, _) :: _ => k | [] => CURRENT_CONSENSUS_VERSION end) <> v.
Proof. intros E N0. destruct v; vm_compute in E; try discriminate; try (exfalso; apply N0; reflexivity); injection E as <-; vm_compute; discriminate. Qed.

(** ** The real hash function *)
Lemma real_differs : bytes_eqb zero32 (sha512_256 (payset_rep [])) = false.
Proof. vm_compute. reflexivity. Qed.

(** ** As stated *)
Lemma genesis_merkle table H v gb id hash b p : create_block table H v gb id hash = Some b -> lookup v table = Some p ->
  payset_commit p = Merkle -> contents_match_header table H b = Some true <-> H (payset_rep []) = zero32.
Proof.
  intros E L C. rewrite (proj2 (genesis_contents table H v gb id hash b p E L) C). split.
  - intros X. injection X as X. symmetry. apply bytes_eqb_spec. exact X.
  - intros X. rewrite X, bytes_eqb_refl. reflexivity.
Qed.
Lemma genesis_differs v gb id hash b : In v [V26; V27; V28; V29; V30; Future] ->
  create_block built_in sha512_256 v gb id hash = Some b -> contents_match_header built_in sha512_256 b = Some false.
Proof.
  intros X E. destruct (create_fields _ _ _ _ _ _ _ E) as (p & L & _). rewrite (proj2 (genesis_contents _ _ _ _ _ _ _ p E L)).
  - rewrite real_differs. reflexivity.
  - cbn [In] in X. decompose [or] X; subst; try contradiction; vm_compute in L; injection L as <-; reflexivity.
Qed.
Lemma genesis_panics H v gb id hash b : In v [V7; V8; V9; V10] ->
  create_block built_in H v gb id hash = Some b -> contents_match_header built_in H b = None.
Proof.
  intros X E. destruct (create_fields _ _ _ _ _ _ _ E) as (p & L & _ & _ & U & _).
  unfold contents_match_header, payset_commit_of, params_of. rewrite U. cbn [current]. rewrite L.
  cbn [In] in X. decompose [or] X; subst; try contradiction; vm_compute in L; injection L as <-; reflexivity.
Qed.
Lemma genesis_matches H v gb id hash b : ~ In v [V7; V8; V9; V10; V26; V27; V28; V29; V30; Future] ->
  create_block built_in H v gb id hash = Some b -> contents_match_header built_in H b = Some true.
Proof.
  intros X E. destruct (create_fields _ _ _ _ _ _ _ E) as (p & L & _). apply (proj1 (genesis_contents _ _ _ _ _ _ _ p E L)).
  destruct v; vm_compute in L; try discriminate; injection L as <-; try reflexivity; exfalso; apply X; cbn [In]; tauto.
Qed.
Lemma from_genesis H m gb id hash g nows :
  create_block built_in H CURRENT_CONSENSUS_VERSION gb id hash = Some g -> id <> [] -> hash <> zero32 ->
  Forall (fun t => t + 25 < 2 ^ 64) (gb_timestamp gb :: nows) -> N.of_nat (length nows) < 2 ^ 64 ->
  exists bs, made_after built_in H m (head g) nows bs /\ length bs = length nows /\
    linked built_in H m (head g) (map head bs) /\ Forall (fun b => contents_match_header built_in H b = Some true) bs.
Proof.
  intros E Hi Hh F Len. destruct (create_fields _ _ _ _ _ _ _ E) as (p & L & P & R & U & I1 & G & T & _).
  apply chain_lemma; [exact U|rewrite R; exact Len|congruence| |rewrite T; exact F].
  rewrite G. destruct (current_facts p L) as (_ & S & _). rewrite S. exact Hh.
Qed.
Lemma others_stop H m now v gb id hash g : v <> CURRENT_CONSENSUS_VERSION ->
  create_block built_in H v gb id hash = Some g -> snd (new_block built_in H m now (head g)) = None.
Proof.
  intros N0 E. destruct (create_fields _ _ _ _ _ _ _ E) as (p & L & _).
  exact (others_fail built_in H m now v gb id hash g p E L (others_propose v p L N0)).
Qed.
