(** C49 and C50. *)
From Verif Require Import Base RewardsModel RewardsSpec RewardsProofs BasicsProps.
Local Open Scope N_scope.

Definition ex_rewards : rewards_state := mkRewards zero32 zero32 100 1000 7 5000.

(** C49.  What is handed out and what is kept back add up, in one round and in any number. *)
Theorem c49_conserved m s r p pool units s' : next_state m s r p pool units = Some s' -> units <> 0 -> level_fits s units ->
  level s <= level s' /\ (level s' - level s) * units + residue s' = rate s + residue s /\ residue s' < units.
Proof. exact (conserved_lemma m s r p pool units s'). Qed.
Print Assumptions c49_conserved.
Theorem c49_no_units m s r p pool s' : next_state m s r p pool 0 = Some s' -> level s' = level s /\ residue s' = residue s.
Proof. exact (no_units_lemma m s r p pool s'). Qed.
Print Assumptions c49_no_units.
(** On overflow nothing is handed out. *)
Theorem c49_overflow m s r p pool units s' : next_state m s r p pool units = Some s' -> units <> 0 -> ~ level_fits s units ->
  level s' = level s /\ residue s' = residue s.
Proof. exact (overflow_lemma m s r p pool units s'). Qed.
Print Assumptions c49_overflow.
Theorem c49_many_rounds m s l s' : rounds m s l s' ->
  exists paid rates, handed_out m s l paid rates /\ paid + residue s' = rates + residue s.
Proof. exact (rounds_lemma m s l s'). Qed.
Print Assumptions c49_many_rounds.
(** The rate is only changed in its round. *)
Theorem c49_rate_kept m s r p pool units s' : next_state m s r p pool units = Some s' -> r <> recalculation_round s ->
  rate s' = rate s /\ recalculation_round s' = recalculation_round s.
Proof. exact (rate_lemma m s r p pool units s'). Qed.
Print Assumptions c49_rate_kept.
(** It panics exactly when the rate is to be set and either no interval is configured or, in debug
    builds, the next such round is beyond 64 bits. *)
Theorem c49_panics m s r p pool units : next_state m s r p pool units = None <->
  r = recalculation_round s /\ (rewards_rate_refresh_interval p = 0 \/ (m = Debug /\ 2 ^ 64 <= r + rewards_rate_refresh_interval p)).
Proof. exact (panic_iff m s r p pool units). Qed.
Print Assumptions c49_panics.
Example c49_example : next_state Debug ex_rewards 10 v30 0 30 = Some (mkRewards zero32 zero32 133 1000 17 5000) /\
  rounds Debug ex_rewards [mkRound 10 v30 0 30; mkRound 11 v30 0 300] (mkRewards zero32 zero32 136 1000 117 5000).
Proof.
  split; [vm_compute; reflexivity|].
  econstructor; [discriminate|split; vm_compute; reflexivity|vm_compute; reflexivity|].
  econstructor; [discriminate|split; vm_compute; reflexivity|vm_compute; reflexivity|]. constructor.
Qed.

(** C50 is false: the rate is computed from pool plus minimum balance plus residue. *)
Theorem c50_funded_refuted : exists s pool units s',
  next_state Debug s (recalculation_round s) v30 pool units = Some s' /\
  pool < rate s' * rewards_rate_refresh_interval v30.
Proof. exists ex_rewards, 999999950000, 30, (mkRewards zero32 zero32 133 2000000 17 505000). split; vm_compute; reflexivity. Qed.
Print Assumptions c50_funded_refuted.
Theorem c50_new_rate m s p pool units s' : next_state m s (recalculation_round s) p pool units = Some s' ->
  pool + min_balance p + residue s < 2 ^ 64 ->
  rate s' = (pool + (min_balance p + if pending_residue_rewards p then residue s else 0)) / rewards_rate_refresh_interval p /\
  rewards_rate_refresh_interval p <> 0.
Proof. exact (new_rate_lemma m s p pool units s'). Qed.
Print Assumptions c50_new_rate.
(** The claim holds where there is nothing to hold back. *)
Theorem c50_funded_partial m s p pool units s' : next_state m s (recalculation_round s) p pool units = Some s' ->
  pool + min_balance p + residue s < 2 ^ 64 ->
  min_balance p = 0 -> (pending_residue_rewards p = true -> residue s = 0) ->
  rate s' * rewards_rate_refresh_interval p <= spendable p pool (residue s).
Proof. exact (funded_zero m s p pool units s'). Qed.
Print Assumptions c50_funded_partial.
(** In general the overdraft is bounded. *)
Theorem c50_overdraft_partial m s p pool units s' : next_state m s (recalculation_round s) p pool units = Some s' ->
  pool + min_balance p + residue s < 2 ^ 64 ->
  rate s' * rewards_rate_refresh_interval p <= pool + min_balance p + (if pending_residue_rewards p then residue s else 0).
Proof. exact (funded_partial m s p pool units s'). Qed.
Print Assumptions c50_overdraft_partial.
Example c50_example : min_balance (set_min_balance 0 v30) = 0 /\ pending_residue_rewards (set_min_balance 0 v30) = true /\
  next_state Release (mkRewards zero32 zero32 100 1000 0 5000) 5000 (set_min_balance 0 v30) 5000000 30 = Some (mkRewards zero32 zero32 133 10 10 505000).
Proof. split; [|split]; vm_compute; reflexivity. Qed.
