(** Property C178: deleted participation keys do not come back. *)
From Verif Require Import Base BaseFacts Toy MsgpackModel Scheme ConsensusModel BasicsModel OtsModel OtsSpec AccountModel AccountSpec AccountProps ReviveSpec ReviveProofs.
From Verif Require VrfModel.
Local Open Scope N_scope.

(** C178.  Whatever deletions and restarts a node has gone through, it cannot sign for a round
    below one of the deletions that gave no error, and it can still sign for every round of
    its interval that no deletion reached.  Missing from the full statement: deletions whose
    write failed, see below. *)
Theorem c178_stays_deleted_partial :
  forall sc is_point, scheme_sizes sc is_point ->
  forall md proto st0 parent first last dilution master rng vrf_key st1 p0 evs,
  u64 last -> u64 dilution -> dilution < 2 ^ 32 -> ~ (last = max64 /\ dilution = 1) -> last / dilution - first / dilution + 1 < 2 ^ 32 ->
  length parent = 32%nat -> length (VrfModel.private vrf_key) = 32%nat -> length (VrfModel.public_key vrf_key) = 32%nat -> length master = 32%nat ->
  (forall i, length (rng i) = 32%nat) -> fill_db sc md st0 parent first last dilution master rng vrf_key None = (st1, Ok p0) -> Forall (event_ok dilution) evs ->
  exists p st, live sc is_point md proto evs p0 st1 = Some (p, st) /\
    AccountModel.parent p = parent /\ vrf p = vrf_key /\ part_first p = first /\ part_last p = last /\ part_dilution p = dilution /\ verifier (voting p) = verifier (voting p0) /\
    forall r, first <= r <= last ->
      (Exists (fun c => r < c) (stored_deleted evs) -> cannot_sign sc md p r) /\
      (Forall (fun c => c <= r) (deleted evs) -> signs sc md p r).
Proof. intros sc is_point sz md proto st0 parent first last dilution master rng vrf_key st1 p0 evs H1 H2 H3 H4 H5 H6 H7 H8 H9 H10 E F. exact (revive_lemma sc is_point sz md proto st0 parent first last dilution master rng vrf_key st1 p0 H1 H2 H3 H4 H5 H6 H7 H8 H9 H10 E evs F). Qed.
Print Assumptions c178_stays_deleted_partial.

(** A deletion whose write fails is undone by the next restart, for any keys: the node signs
    again for every round of the interval, with the signatures verifying. *)
Theorem c178_failed_write_refuted :
  forall sc is_point, scheme_sizes sc is_point ->
  forall md proto st0 parent first last dilution master rng vrf_key st1 p0 c fresh,
  u64 last -> u64 dilution -> dilution < 2 ^ 32 -> ~ (last = max64 /\ dilution = 1) -> last / dilution - first / dilution + 1 < 2 ^ 32 ->
  length parent = 32%nat -> length (VrfModel.private vrf_key) = 32%nat -> length (VrfModel.public_key vrf_key) = 32%nat -> length master = 32%nat ->
  (forall i, length (rng i) = 32%nat) -> fill_db sc md st0 parent first last dilution master rng vrf_key None = (st1, Ok p0) ->
  round_ok c dilution -> (forall o, length (fresh o) = 32%nat) ->
  live sc is_point md proto [Deleted c fresh (Some 0%nat); Restarted] p0 st1 = Some (p0, st1) /\ forall r, first <= r <= last -> signs sc md p0 r.
Proof. intros sc is_point sz md proto st0 parent first last dilution master rng vrf_key st1 p0 c fresh H1 H2 H3 H4 H5 H6 H7 H8 H9 H10 E Hc Hr. exact (revive_failed sc is_point sz md proto st0 parent first last dilution master rng vrf_key st1 p0 H1 H2 H3 H4 H5 H6 H7 H8 H9 H10 E c fresh Hc Hr). Qed.
Print Assumptions c178_failed_write_refuted.

(** Keys for rounds 5 to 30, ten per batch: 12 is deleted up to and stored, the node restarts,
    the deletion up to 25 is not stored; the node signs for 25 on and, after a restart, for 12 on. *)
Definition ex_st : store := fst (ex_fill empty_store x05 5 30 10).
Definition ex_part : participation := part_of (ex_fill empty_store x05 5 30 10).
Definition ex_events (again : list event) : list event := [Deleted 12 (ex_rng x07) None; Restarted; Deleted 25 (ex_rng x08) (Some 0%nat)] ++ again.
Definition ex_signs (again : list event) (r : N) : option bool :=
  match live ex_scheme any_point Debug v7_base (ex_events again) ex_part ex_st with
  | Some (p, _) => match sign ex_scheme Debug (voting p) (round_id r 10) (str "vote") (repeat x09 32) with
                   | Some s => Some (verify ex_scheme s (round_id r 10) (str "vote") (verifier (voting ex_part)))
                   | None => None
                   end
  | None => None
  end.
Example c178_example :
  snd (ex_fill empty_store x05 5 30 10) = Ok ex_part /\
  deleted (ex_events [Restarted]) = [12; 25] /\ stored_deleted (ex_events [Restarted]) = [12] /\
  map (ex_signs []) [5; 11; 12; 20; 24; 25; 30] = [Some false; Some false; Some false; Some false; Some false; Some true; Some true] /\
  map (ex_signs [Restarted]) [5; 11; 12; 20; 24; 25; 30] = [Some false; Some false; Some true; Some true; Some true; Some true; Some true].
Proof. vm_compute. repeat split. Qed.
Example c178_example_ok : Forall (event_ok 10) (ex_events [Restarted]).
Proof. repeat constructor; try (intros [X _]; discriminate X). Qed.
