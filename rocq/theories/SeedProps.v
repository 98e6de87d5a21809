(** C161. *)
From Verif Require Import Base BaseFacts Toy AddressModel BlockModel BlockSpec BlockProps SeedModel SeedSpec SeedProofs.
Local Open Scope N_scope.

(** Setting the seed sets the seed and nothing else. *)
Theorem c161_sets b b' s : b' = with_seed b s <-> block_seed b' = s /\ same_but_seed b b'.
Proof. exact (with_seed_lemma b b' s). Qed.
Print Assumptions c161_sets.
(** It changes no verdict about the block. *)
Theorem c161_contents table H b s : contents_match_header table H (with_seed b s) = contents_match_header table H b.
Proof. exact (contents_seed table H b s). Qed.
Print Assumptions c161_contents.
Theorem c161_pre_check table H m b s prev : pre_check table H m (head (with_seed b s)) prev = pre_check table H m (head b) prev.
Proof. exact (pre_check_seed table H m (head b) s prev). Qed.
Print Assumptions c161_pre_check.
(** But the digest tells blocks with different seeds apart, unless the hash function has a collision. *)
Theorem c161_digest H b b' : BlockSpec.header_fits (head b) -> BlockSpec.header_fits (head b') ->
  block_seed b <> block_seed b' -> block_digest H b = block_digest H b' ->
  collision_in H [header_rep (head b)] [header_rep (head b')].
Proof. exact (digest_seed H b b'). Qed.
Print Assumptions c161_digest.
(** So that the next block fixes the seed: it is accepted after one seed only. *)
Theorem c161_parent table H m m' self prev prev' :
  snd (pre_check table H m self (head prev)) = Ok tt -> snd (pre_check table H m' self (head prev')) = Ok tt ->
  BlockSpec.header_fits (head prev) -> BlockSpec.header_fits (head prev') -> block_seed prev <> block_seed prev' ->
  collision_in H [header_rep (head prev)] [header_rep (head prev')].
Proof. exact (parent_seed table H m m' self prev prev'). Qed.
Print Assumptions c161_parent.

(** A node makes a block, sets its seed, and the block passes; with another seed its successor fails. *)
Definition c161_seed : bytes := repeat x09 32.
Example c161_case : exists prev' b, new_block built_in toy_hash Debug 5010 ex_prev = (prev', Some b) /\
  block_seed b = zero32 /\ block_seed (with_seed b c161_seed) = c161_seed /\
  snd (pre_check built_in toy_hash Debug (head (with_seed b c161_seed)) ex_prev) = Ok tt /\
  contents_match_header built_in toy_hash (with_seed b c161_seed) = Some true /\
  (exists next, snd (new_block built_in toy_hash Debug 5020 (head (with_seed b c161_seed))) = Some next /\
    snd (pre_check built_in toy_hash Debug (head next) (head (with_seed b c161_seed))) = Ok tt /\
    snd (pre_check built_in toy_hash Debug (head next) (head b)) = Err WrongBranch) /\
  BlockSpec.header_fits (head b) /\ BlockSpec.header_fits (head (with_seed b c161_seed)).
Proof.
  eexists _, _. split; [vm_compute; reflexivity|]. split; [vm_compute; reflexivity|]. split; [vm_compute; reflexivity|].
  split; [vm_compute; reflexivity|]. split; [vm_compute; reflexivity|]. split.
  - eexists. split; [vm_compute; reflexivity|]. split; vm_compute; reflexivity.
  - split; unfold BlockSpec.header_fits; repeat match goal with |- _ /\ _ => split | |- Forall _ _ => constructor | |- _ => vm_compute; reflexivity | |- _ => cbn; lia end.
Qed.
