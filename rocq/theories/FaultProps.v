(** C123. *)
From Verif Require Import Base Toy Scheme ConsensusModel BasicsModel OtsModel OtsSpec AccountModel AccountSpec AccountProofs AccountProps FaultSpec FaultProofs.
Local Open Scope N_scope.

(** C123.  Persisting a participation makes six writes and a flush.  It reports success exactly if none of them
    fails, and then everything is stored. *)
Theorem c123_persist_partial :
  forall sc st p fault,
  (~ one_fails fault 7 -> persist sc st p fault = (fst (persist sc st p None), Ok tt)) /\
  (one_fails fault 7 -> snd (persist sc st p fault) = Err StorageError).
Proof. exact persist_reports. Qed.
Print Assumptions c123_persist_partial.
Theorem c123_success_means_stored :
  forall sc is_point st p fault st', part_ok sc is_point p -> persist sc st p fault = (st', Ok tt) -> restore sc is_point st' = Ok p.
Proof. exact persist_reports_back. Qed.
Print Assumptions c123_success_means_stored.
(** The same for the one write and the flush of a new parent, *)
Theorem c123_new_parent_partial :
  forall st p fault,
  (~ one_fails fault 2 -> persist_new_parent st p fault = (fst (persist_new_parent st p None), Ok tt)) /\
  (one_fails fault 2 -> snd (persist_new_parent st p fault) = Err StorageError).
Proof. exact parent_reports. Qed.
Print Assumptions c123_new_parent_partial.
(** and of the deletion of old keys; the keys held in memory are deleted in either case. *)
Theorem c123_deletion_partial :
  forall sc md st p current proto rng fault p' st' r, delete_old_keys sc md st p current proto rng None = (p', st', r) -> r <> Panic ->
  (~ one_fails fault 2 -> delete_old_keys sc md st p current proto rng fault = (p', st', Ok tt)) /\
  (one_fails fault 2 -> exists st'', delete_old_keys sc md st p current proto rng fault = (p', st'', Err StorageError)).
Proof. exact delete_reports. Qed.
Print Assumptions c123_deletion_partial.
(** False for the generation of keys, which panics. *)
Theorem c123_generation_refuted :
  forall sc md st par first last dilution master rng vrf_key fault p' st',
  fill_db sc md st par first last dilution master rng vrf_key None = (st', Ok p') ->
  (~ one_fails fault 7 -> fill_db sc md st par first last dilution master rng vrf_key fault = (st', Ok p')) /\
  (one_fails fault 7 -> snd (fill_db sc md st par first last dilution master rng vrf_key fault) = Panic).
Proof. exact generate_panics. Qed.
Print Assumptions c123_generation_refuted.
Example c123_example : one_fails (Some 6%nat) 7 /\ ~ one_fails None 7 /\ part_ok ex_scheme any_point ex_p /\
  fill_db ex_scheme Debug empty_store (repeat x0a 32) 1005 1031 10 (repeat x0a 32) (ex_rng x0a) (ex_vrf x0a) None = (fst (persist ex_scheme empty_store ex_p None), Ok ex_p) /\
  snd (persist ex_scheme empty_store ex_p (Some 6%nat)) = Err StorageError /\ snd (persist ex_scheme empty_store ex_p (Some 7%nat)) = Ok tt.
Proof.
  split; [exists 6%nat; split; [reflexivity|lia]|]. split; [intros (i & E & _); discriminate|]. split; [exact (proj1 ex_p_ok)|]. split; [exact ex_filled|]. split; reflexivity.
Qed.
