(** C164. *)
From Verif Require Import Base BaseFacts Toy AddressModel BlockModel BlockSpec TxProps BlockProps CountersSpec CountersProofs.
Local Open Scope N_scope.

(** Full statement: a block that passes both checks after [prev], in particular one made by the
    node, has [counts_on prev b].  It is false of both. *)
Definition c164_prev : header :=
  mkHeader 999 (repeat x01 32) (repeat x02 32) (repeat x03 32) 5000 (str "net-v1") genesis_x (mkRewards sink pool 12 3 4 500000)
    settled (mkVote V30 0 false) 7 [].
Theorem c164_made_refuted : exists b, snd (new_block built_in toy_hash Debug 5010 c164_prev) = Some b /\
  snd (pre_check built_in toy_hash Debug (head b) c164_prev) = Ok tt /\ contents_match_header built_in toy_hash b = Some true /\
  tx_counter (head b) < tx_counter c164_prev /\ level (rewards (head b)) < level (rewards c164_prev).
Proof. eexists. split; [vm_compute; reflexivity|]. split; [vm_compute; reflexivity|]. split; [vm_compute; reflexivity|]. split; vm_compute; reflexivity. Qed.
Print Assumptions c164_made_refuted.
(** Every block made by the node starts from nothing again, whatever was before it. *)
Theorem c164_made table H m now prev prev' b : new_block table H m now prev = (prev', Some b) ->
  payset b = [] /\ tx_counter (head b) = 0 /\ level (rewards (head b)) = 0 /\ rate (rewards (head b)) = 0 /\
  residue (rewards (head b)) = 0 /\ recalculation_round (rewards (head b)) = 0 /\ compact_certs (head b) = [] /\
  rs_fee_sink (rewards (head b)) = rs_fee_sink (rewards prev) /\ rs_rewards_pool (rewards (head b)) = rs_rewards_pool (rewards prev).
Proof. exact (made_lemma table H m now prev prev' b). Qed.
Print Assumptions c164_made.
(** So that the claim holds of a block made by the node if nothing was counted before. *)
Theorem c164_made_partial table H m now prev prev' b : new_block table H m now prev = (prev', Some b) ->
  counts_on prev b <-> tx_counter prev = 0 /\ level (rewards prev) = 0.
Proof.
  intros E. destruct (made_lemma table H m now prev prev' b E) as (P & T & L & _). unfold counts_on. rewrite P, T, L. cbn [length]. lia.
Qed.
Print Assumptions c164_made_partial.
(** And the check of headers sees none of it: the verdict is the same for any counter, rewards, certificates, seed and transactions. *)
Theorem c164_seen table H m h h' prev : same_checked h h' -> pre_check table H m h prev = pre_check table H m h' prev.
Proof. exact (read_lemma table H m h h' prev). Qed.
Print Assumptions c164_seen.

(** The fields that are seen all matter. *)
Definition c164_next (r : N) (br : bytes) (time : N) (id g : bytes) (u : upgrade_state) (v : upgrade_vote) : header :=
  mkHeader r br zero32 zero32 time id g (mkRewards sink pool 0 0 0 0) u v 0 [].
Example c164_case :
  let br := header_hash toy_hash c164_prev in let v := mkVote V30 0 false in
  let ok h := match snd (pre_check built_in toy_hash Debug h c164_prev) with Ok _ => true | _ => false end in
  map ok [c164_next 1000 br 5010 (str "net-v1") genesis_x settled v; c164_next 1001 br 5010 (str "net-v1") genesis_x settled v;
          c164_next 1000 zero32 5010 (str "net-v1") genesis_x settled v; c164_next 1000 br 4999 (str "net-v1") genesis_x settled v;
          c164_next 1000 br 5010 (str "net-v2") genesis_x settled v; c164_next 1000 br 5010 (str "net-v1") alice settled v;
          c164_next 1000 br 5010 (str "net-v1") genesis_x (mkUpgrade V29 None 0 0 0) v; c164_next 1000 br 5010 (str "net-v1") genesis_x settled (mkVote V30 0 true)]
  = [true; false; false; false; false; false; false; false].
Proof. vm_compute. reflexivity. Qed.
Example c164_zero_case : exists prev' b, new_block built_in toy_hash Debug 5010 (c164_next 999 zero32 5000 (str "net-v1") genesis_x settled (mkVote V30 0 false)) = (prev', Some b) /\
  counts_on (c164_next 999 zero32 5000 (str "net-v1") genesis_x settled (mkVote V30 0 false)) b.
Proof. eexists _, _. split; [vm_compute; reflexivity|]. split; vm_compute; [reflexivity|discriminate]. Qed.
