(** Properties C173 and C174: choosing a leader among credentials. *)
From Coq Require Import Permutation.
From Verif Require Import Base Toy MsgpackModel CommitteeModel CommitteeSpec LeaderSpec LeaderProofs.
Local Open Scope N_scope.

(** C173.  Comparing credentials is a strict weak order: two can always be compared, none comes
    before itself, and both coming before and not coming before are transitive. *)
Theorem c173_order :
  forall H c d e, complete c -> complete d -> complete e ->
  (before H c d \/ not_before H c d) /\ not_before H c c /\ (before H c d -> not_before H d c) /\
  (before H c d -> before H d e -> before H c e) /\ (not_before H c d -> not_before H d e -> not_before H c e).
Proof. exact order_lemma. Qed.
Print Assumptions c173_order.

(** Every comparison changes both credentials, yet whatever was compared before, the answer is
    that for the credentials as they were at the beginning. *)
Theorem c173_history :
  forall H cs history, Forall complete cs -> Forall (places cs) history ->
  exists cs' answers, compare_each H cs history = Some (cs', answers) /\ length cs' = length cs /\
  Forall2 (fun p answer => exists c d, nth_error cs (fst p) = Some c /\ nth_error cs (snd p) = Some d /\ snd (lt H c d) = Some answer) history answers.
Proof. exact history_lemma. Qed.
Print Assumptions c173_history.

(** So every set of credentials has a leader, and in whatever order two nodes hold the same
    credentials, their leaders tie. *)
Theorem c173_leader : forall H cs, cs <> [] -> Forall complete cs -> exists c, leads H cs c.
Proof. exact leader_ex. Qed.
Print Assumptions c173_leader.
Theorem c173_agree :
  forall H cs ds c d, Permutation cs ds -> leads H cs c -> leads H ds d -> not_before H c d /\ not_before H d c /\ leads H cs d.
Proof. exact leaders_tie. Qed.
Print Assumptions c173_agree.

(** ** Concrete cases *)
Definition c173_plain (b : byte) (w : N) : credential := mkCredential w (b :: repeat x33 31) false None [].
Definition c173_sep (b : byte) (w : N) : credential := mkCredential w (b :: repeat x33 31) true (Some (mkHashable [] (repeat b 32) 0)) [].
Definition c173_set : list credential := [c173_plain x01 3; c173_sep x02 4; c173_sep x03 2].
(** Comparing leaves another credential behind, and comparing again gives the same. *)
Example c173_case :
  Forall complete c173_set /\ Forall (places c173_set) [(0, 1); (1, 0); (1, 2); (0, 1)]%nat /\
  (exists cs', compare_each toy_hash c173_set [(0, 1); (1, 0); (1, 2); (0, 1)]%nat = Some (cs', [true; false; true; true]) /\ cs' <> c173_set) /\
  before toy_hash (c173_plain x01 3) (c173_sep x02 4) /\ leads toy_hash c173_set (c173_plain x01 3).
Proof.
  split; [repeat constructor; intros E; discriminate|]. split; [repeat constructor; cbn; discriminate|].
  split; [eexists; split; [vm_compute; reflexivity|discriminate]|]. split; [vm_compute; reflexivity|].
  split; [left; reflexivity|]. intros d [<- | [<- | [<- | []]]]; vm_compute; reflexivity.
Qed.

(** C174 asks that more weight never ranks worse.  A credential of weight one beats the same
    credential with any greater weight whose hashes are not zero. *)
Theorem c174_refuted :
  forall H c w, complete c -> 2 <= w -> (forall i, 1 <= i < w -> counter_value H c i <> 0) -> before H (with_weight c 1) (with_weight c w).
Proof. exact (fun H c w Cc Hw Hv => one_beats H (with_weight c 1) (with_weight c w) eq_refl Cc Hw Hv). Qed.
Print Assumptions c174_refuted.
(** Nothing comes before a credential of weight one. *)
Theorem c174_one_refuted : forall H c d, weight c = 1 -> complete d -> not_before H d c.
Proof. exact one_leads. Qed.
Print Assumptions c174_one_refuted.
(** What holds: from weight two on. *)
Theorem c174_heavier_partial :
  forall H c v w, complete c -> 2 <= v <= w -> not_before H (with_weight c v) (with_weight c w).
Proof. exact heavier_lemma. Qed.
Print Assumptions c174_heavier_partial.

Example c174_case :
  complete (c173_sep x02 2) /\ before toy_hash (with_weight (c173_sep x02 2) 1) (with_weight (c173_sep x02 2) 4) /\
  before toy_hash (with_weight (c173_plain x8a 2) 5) (with_weight (c173_plain x8a 2) 2) /\
  (forall i, 1 <= i < 3 -> counter_value toy_hash (c173_sep x02 2) i <> 0).
Proof.
  split; [discriminate|]. split; [vm_compute; reflexivity|]. split; [vm_compute; reflexivity|].
  intros i Hi. assert (E : i = 1 \/ i = 2) by lia. destruct E as [-> | ->]; vm_compute; discriminate.
Qed.
