(** Proofs about the counters in headers. *)
From Verif Require Import Base BaseFacts BlockModel BlockSpec BlockProofs CountersSpec.
Local Open Scope N_scope.

Lemma read_lemma table H m h h' prev : same_checked h h' -> pre_check table H m h prev = pre_check table H m h' prev.
Proof.
  destruct h, h'. unfold same_checked. cbn. intros (? & ? & ? & ? & ? & ? & ?). subst. reflexivity.
Qed.

Lemma made_lemma table H m now prev prev' b : new_block table H m now prev = (prev', Some b) ->
  payset b = [] /\ tx_counter (head b) = 0 /\ level (rewards (head b)) = 0 /\ rate (rewards (head b)) = 0 /\
  residue (rewards (head b)) = 0 /\ recalculation_round (rewards (head b)) = 0 /\ compact_certs (head b) = [] /\
  rs_fee_sink (rewards (head b)) = rs_fee_sink (rewards prev) /\ rs_rewards_pool (rewards (head b)) = rs_rewards_pool (rewards prev).
Proof.
  unfold new_block. destruct (process_upgrade_params table m (round prev) (upgrade prev)) as [u [v|e|]]; try discriminate.
  destruct (lookup (current u) table); [|discriminate]. destruct (block_time m p (timestamp prev) now); [|discriminate].
  destruct (add64 m (round prev) 1); [|discriminate]. cbv zeta. destruct (payset_commit_of table H _); [|discriminate].
  intros E. injection E as _ <-. repeat split; reflexivity.
Qed.
