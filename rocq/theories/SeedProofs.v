(** Proofs about the seed of a block. *)
From Verif Require Import Base BaseFacts BlockModel BlockSpec BlockBind BlockProofs SeedModel SeedSpec.

Lemma with_seed_lemma b b' s : b' = with_seed b s <-> block_seed b' = s /\ same_but_seed b b'.
Proof.
  split.
  - intros ->. split; [reflexivity|]. repeat split; reflexivity.
  - destruct b as [h p], b' as [h' p'], h, h'. unfold same_but_seed, block_seed, with_seed, set_seed. cbn.
    intros (? & ? & ? & ? & ? & ? & ? & ? & ? & ? & ? & ? & ?). subst. reflexivity.
Qed.

Lemma leaf_reps_seed table H h s l : leaf_reps table H (set_seed h s) l = leaf_reps table H h l.
Proof. induction l as [|x l IH]; [reflexivity|]. cbn. rewrite IH. reflexivity. Qed.

Lemma contents_seed table H b s : contents_match_header table H (with_seed b s) = contents_match_header table H b.
Proof.
  unfold contents_match_header, payset_commit_of, tx_merkle_root. cbn [with_seed head payset]. rewrite leaf_reps_seed. reflexivity.
Qed.

Lemma pre_check_seed table H m h s prev : pre_check table H m (set_seed h s) prev = pre_check table H m h prev.
Proof. reflexivity. Qed.

Lemma digest_seed H b b' : BlockSpec.header_fits (head b) -> BlockSpec.header_fits (head b') ->
  block_seed b <> block_seed b' -> block_digest H b = block_digest H b' ->
  collision_in H [header_rep (head b)] [header_rep (head b')].
Proof.
  intros F F' Hne E. destruct (header_hash_lemma H _ _ F F' E) as [S|C]; [|exact C]. exfalso. apply Hne.
  unfold block_seed. rewrite S. reflexivity.
Qed.

Lemma pre_check_branch table H m self prev : snd (pre_check table H m self prev) = Ok tt -> branch self = header_hash H prev.
Proof.
  unfold pre_check. destruct (params_of table self); [|discriminate]. destruct (add64 m (round prev) 1); [|discriminate].
  destruct (negb (_ =? _)%N); [discriminate|]. destruct (bytes_eqb (branch self) (header_hash H prev)) eqn:E; [|discriminate].
  intros _. apply bytes_eqb_spec. exact E.
Qed.

Lemma parent_seed table H m m' self prev prev' :
  snd (pre_check table H m self (head prev)) = Ok tt -> snd (pre_check table H m' self (head prev')) = Ok tt ->
  BlockSpec.header_fits (head prev) -> BlockSpec.header_fits (head prev') -> block_seed prev <> block_seed prev' ->
  collision_in H [header_rep (head prev)] [header_rep (head prev')].
Proof.
  intros P P' F F' Hne. apply digest_seed; try assumption. unfold block_digest.
  rewrite <- (pre_check_branch _ _ _ _ _ P). exact (pre_check_branch _ _ _ _ _ P').
Qed.
