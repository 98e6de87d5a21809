(** C51 and C52. *)
From Verif Require Import Base UpgradeModel UpgradeSpec UpgradeProofs.
Local Open Scope N_scope.

(** A protocol with short voting periods, for examples. *)
Definition quick : params :=
  let (a0, a1, a2, a3, a4, a5, a6, a7, a8, a9, a10, a11, a12, a13, a14, a15, a16, a17, a18, a19, a20, a21, a22, a23, a24, a25, a26, a27, a28, a29, a30, a31, a32, a33, a34, a35, a36, a37, a38, a39, a40, a41, a42, a43, a44, a45, a46, a47, a48, a49, a50, a51, a52, a53, a54, a55, a56, a57, a58, a59, a60, a61, a62, a63, a64, a65, a66, a67, a68, a69, a70, a71, a72, a73, a74, a75, a76, a77, a78, a79, a80, a81, a82, a83, a84, a85, a86, a87, a88, a89, a90, a91, a92, a93, a94, a95, a96, a97) := v7_base in
  mkParams 3 2 2 0 4 a5 a6 a7 a8 a9 a10 a11 a12 a13 a14 a15 a16 a17 a18 a19 a20 a21 a22 a23 a24 a25 a26 a27 a28 a29 a30 a31 a32 a33 a34 a35 a36 a37 a38 a39 a40 a41 a42 a43 a44 a45 a46 a47 a48 a49 a50 a51 a52 a53 a54 a55 a56 a57 a58 a59 a60 a61 a62 a63 a64 a65 a66 a67 a68 a69 a70 a71 a72 a73 a74 a75 a76 a77 a78 a79 a80 a81 a82 a83 a84 a85 a86 a87 a88 a89 a90 a91 a92 a93 a94 a95 a96 a97.
Definition quick_table : list (version * params) := [(V7, quick); (V8, quick)].
Definition ex_start : upgrade_state := mkUpgrade V7 (Some V7) 0 0 0.
Definition nothing : upgrade_vote := mkVote V7 0 false.
Definition yes : upgrade_vote := mkVote V7 0 true.
Definition ev (v : upgrade_vote) : round_event := mkEvent v V7.
Definition ex_history : list round_event :=
  [ev nothing; ev (mkVote V8 1 false); ev yes; ev yes; ev nothing; mkEvent nothing V8].
Lemma ex_runs : history quick_table Debug ex_start 10 ex_history (mkUpgrade V8 None 0 0 0).
Proof. repeat (eapply history_step; [vm_compute; reflexivity|reflexivity|]); constructor. Qed.

(** C51.  The protocol only changes to one that was proposed, was approved often enough before
    its deadline, and only in the announced round. *)
Theorem c51_voted_in table m s first ev s' i old new :
  history table m s first ev s' -> idle s -> 1 <= first -> rounds_fit table (first + N.of_nat (length ev)) ->
  changes (current s) ev i old new -> voted_in table ev i old new.
Proof. exact (upgrade_lemma table m s first ev s' i old new). Qed.
Print Assumptions c51_voted_in.
(** A pending version was proposed by one of the blocks, its votes are counted right, and once
    the deadline's block is there it has enough of them: otherwise it has been cleared. *)
Theorem c51_pending table m s first ev s' n :
  history table m s first ev s' -> idle s -> 1 <= first -> rounds_fit table (first + N.of_nat (length ev)) -> pending s' n ->
  exists p k e, lookup (current s') table = Some p /\ nth_error ev k = Some e /\ propose (ev_vote e) = n /\ delay_allowed p (ev_vote e) /\
    vote_before s' = first + N.of_nat k + upgrade_vote_rounds p /\ switch_on s' = vote_before s' + wait p (ev_vote e) /\
    approvals s' = in_favour (firstn (N.to_nat (upgrade_vote_rounds p)) (skipn k ev)) /\
    (N.of_nat k + upgrade_vote_rounds p < N.of_nat (length ev) -> upgrade_threshold p <= approvals s') /\
    N.of_nat (length ev) <= N.of_nat k + upgrade_vote_rounds p + wait p (ev_vote e).
Proof. exact (pending_lemma table m s first ev s' n). Qed.
Print Assumptions c51_pending.
(** One proposal at a time; refused votes change nothing. *)
Theorem c51_one_at_a_time table m s n round v p : lookup (current s) table = Some p -> pending s n -> propose v <> current s ->
  apply_upgrade_vote table m s round v = (s, Err CompetingProposal).
Proof. exact (competing_lemma table m s n round v p). Qed.
Print Assumptions c51_one_at_a_time.
Theorem c51_refused_votes table m s round v p s' err : lookup (current s) table = Some p -> 0 < upgrade_vote_rounds p ->
  round + upgrade_vote_rounds p < 2 ^ 64 ->
  apply_upgrade_vote table m s round v = (s', Err err) -> s' = s.
Proof. exact (refused_lemma table m s round v p s' err). Qed.
Print Assumptions c51_refused_votes.
Lemma quick_fits n : n < 2 ^ 63 -> rounds_fit quick_table n.
Proof.
  intros Hn v p. unfold quick_table. cbn [lookup]. destruct (version_eqb v V7); [|destruct (version_eqb v V8); [|discriminate]];
  intros E; assert (p = quick) as -> by congruence; change (upgrade_vote_rounds quick) with 3;
  change (N.max (default_upgrade_wait_rounds quick) (max_upgrade_wait_rounds quick)) with 4; lia.
Qed.
(** Proposed in the second block, two votes, adopted 3 + 1 rounds later. *)
Example c51_example : history quick_table Debug ex_start 10 ex_history (mkUpgrade V8 None 0 0 0) /\ idle ex_start /\
  rounds_fit quick_table (10 + N.of_nat (length ex_history)) /\ changes V7 ex_history 5 V7 V8 /\ voted_in quick_table ex_history 5 V7 V8.
Proof.
  assert (C : changes V7 ex_history 5 V7 V8).
  { split; [exists (mkEvent nothing V8); split; reflexivity|]. split; [exists (ev nothing); split; reflexivity|discriminate]. }
  assert (I : idle ex_start) by (split; [right; reflexivity|repeat split; reflexivity]).
  assert (F : rounds_fit quick_table (10 + N.of_nat (length ex_history))) by (apply quick_fits; vm_compute; reflexivity).
  split; [exact ex_runs|]. split; [exact I|]. split; [exact F|]. split; [exact C|].
  exact (c51_voted_in _ _ _ _ _ _ _ _ _ ex_runs I ltac:(lia) F C).
Qed.
(** One vote is not enough: cleared at the deadline. *)
Example c51_example_failed :
  history quick_table Debug ex_start 10 [ev (mkVote V8 1 false); ev yes; ev nothing] (mkUpgrade V7 (Some V8) 1 13 14) /\
  apply_upgrade_vote quick_table Debug (mkUpgrade V7 (Some V8) 1 13 14) 13 nothing = (mkUpgrade V7 None 0 0 0, Ok tt) /\
  apply_upgrade_vote quick_table Debug (mkUpgrade V7 (Some V8) 1 13 14) 13 yes = (mkUpgrade V7 (Some V8) 1 13 14, Err ApprovalAfterDeadline) /\
  apply_upgrade_vote quick_table Debug (mkUpgrade V7 (Some V8) 1 13 14) 11 (mkVote V9 0 false) = (mkUpgrade V7 (Some V8) 1 13 14, Err CompetingProposal).
Proof.
  split; [repeat (eapply history_step; [vm_compute; reflexivity|reflexivity|]); constructor|]. split; [|split]; vm_compute; reflexivity.
Qed.

(** C52 is false: after genesis, after a switch and after a failed vote the state has no next
    protocol, and from there every proposal is refused as competing. *)
Theorem c52_can_propose_refuted table m s round v p : lookup (current s) table = Some p -> next_protocol s = None ->
  propose v <> current s -> apply_upgrade_vote table m s round v = (s, Err CompetingProposal).
Proof. exact (no_proposal_lemma table m s round v p). Qed.
Print Assumptions c52_can_propose_refuted.
(** So a chain never leaves the protocol of its first block. *)
Theorem c52_never_upgrades_refuted table m s first ev s' : history table m s first ev s' -> 1 <= first -> idle s -> next_protocol s = None ->
  s' = s /\ Forall (fun e => ev_protocol e = current s) ev.
Proof. exact (frozen_lemma table m s first ev s'). Qed.
Print Assumptions c52_never_upgrades_refuted.
(** It holds in states that name the current protocol as the next one. *)
Theorem c52_can_propose_partial table m s round v p : lookup (current s) table = Some p ->
  next_protocol s = Some (current s) -> propose v <> current s ->
  min_upgrade_wait_rounds p <= delay v -> delay v <= max_upgrade_wait_rounds p ->
  0 < upgrade_vote_rounds p -> round + upgrade_vote_rounds p + wait p v < 2 ^ 64 ->
  apply_upgrade_vote table m s round v =
    (mkUpgrade (current s) (Some (propose v)) (if approve v then 1 else 0) (round + upgrade_vote_rounds p) (round + upgrade_vote_rounds p + wait p v), Ok tt).
Proof. exact (propose_lemma table m s round v p). Qed.
Print Assumptions c52_can_propose_partial.
Theorem c52_can_approve_partial table m s n round v p : lookup (current s) table = Some p -> pending s n -> v = mkVote (current s) 0 true ->
  round < vote_before s -> vote_before s <= switch_on s -> approvals s + 1 < 2 ^ 64 ->
  apply_upgrade_vote table m s round v = (mkUpgrade (current s) (Some n) (approvals s + 1) (vote_before s) (switch_on s), Ok tt).
Proof. exact (approve_lemma table m s n round v p). Qed.
Print Assumptions c52_can_approve_partial.
Example c52_example :
  (exists p, lookup V29 built_in = Some p) /\
  apply_upgrade_vote built_in Debug (mkUpgrade V29 None 0 0 0) 100 (mkVote V30 140000 true) = (mkUpgrade V29 None 0 0 0, Err CompetingProposal) /\
  apply_upgrade_vote built_in Debug (mkUpgrade V29 (Some V29) 0 0 0) 100 (mkVote V30 140000 true) = (mkUpgrade V29 (Some V30) 1 10100 150100, Ok tt) /\
  apply_upgrade_vote built_in Debug (mkUpgrade V29 (Some V30) 1 10100 150100) 10099 (mkVote V29 0 true) = (mkUpgrade V29 (Some V30) 2 10100 150100, Ok tt).
Proof.
  split; [destruct (lookup V29 built_in) as [p|] eqn:E; [exists p; reflexivity|vm_compute in E; discriminate]|].
  split; [|split]; vm_compute; reflexivity.
Qed.
