(** C74 after blocks that the node makes itself, and a case of C75. *)
From Verif Require Import Base Toy ConsensusModel BlockModel AccountModel AccountSpec AccountProofs ManagerProofs AccountProps BlockProps CountersProofs CountersProps.
Local Open Scope N_scope.

(** A block made by the node has no compact certificate state: deleting old keys after it panics
    as soon as one participation is held. *)
Theorem c74_made_refuted :
  forall sc table table' H md now prev prev' b md' st m sigs proto rngs faults,
  new_block table H md now prev = (prev', Some b) -> part_keys m <> [] ->
  delete_all_old_keys sc table' md' st m (head b) sigs proto rngs faults = None.
Proof.
  intros sc table table' H md now prev prev' b md' st m sigs proto rngs faults E. apply aging_no_entry.
  destruct (made_lemma table H md now prev prev' b E) as (_ & _ & _ & _ & _ & _ & C & _). exact C.
Qed.
Print Assumptions c74_made_refuted.

Example c74_made_case : (exists b, snd (new_block built_in toy_hash Debug 5010 c164_prev) = Some b) /\ length (part_keys ex_manager) = 2%nat.
Proof. split; [eexists; vm_compute; reflexivity|vm_compute; reflexivity]. Qed.

(** C75 with one participation in the store: after two deletions, of which the second drops a
    whole batch, the store holds what is in memory, and that is not what was generated. *)
Example c75_case :
  match age ex_scheme Debug v7_base [(1008, ex_rng x0c); (1022, ex_rng x0d)] ex_p (fst (persist ex_scheme empty_store ex_p None)) with
  | Some (p', st) => restore ex_scheme any_point st = Ok p' /\ p' <> ex_p
  | None => False
  end.
Proof. vm_compute. split; [reflexivity|discriminate]. Qed.
