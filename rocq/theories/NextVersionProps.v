(** C180 and C181. *)
From Verif Require Import Base Toy BlockModel UpgradeSpec UpgradeProps ChainSpec ChainProps NextVersionSpec NextVersionProofs.
Local Open Scope N_scope.

(** C180.  Every header of a chain announces a version and a later round; the protocol of the chain does not change before
    that round, and in that round it is the announced one. *)
Theorem c180_announced table H m g hs i x :
  linked table H m g hs -> idle (upgrade g) -> waits table ->
  round g + N.of_nat (length hs) + 1 < 2 ^ 64 -> rounds_fit table (round g + N.of_nat (length hs)) ->
  nth_error (g :: hs) i = Some x ->
  exists v r b, next_version_info m x = Some (Some v, r, b) /\ round x < r /\ comes (g :: hs) i v r.
Proof. exact (announced_lemma table H m g hs i x). Qed.
Print Assumptions c180_announced.
Lemma quick_waits : waits quick_table.
Proof.
  intros v p. unfold quick_table. cbn [lookup]. destruct (version_eqb v V7); [|destruct (version_eqb v V8); [|discriminate]];
  intros E; assert (p = quick) as -> by congruence; reflexivity.
Qed.
(** The protocols of the program itself. *)
Example c180_built_in : waits built_in.
Proof.
  intros v p E. assert (A : forallb (fun e => 0 <? default_upgrade_wait_rounds (snd e)) built_in = true) by (vm_compute; reflexivity).
  rewrite forallb_forall in A. apply N.ltb_lt. change p with (snd (v, p)). apply A.
  clear A. revert E. induction built_in as [|[k q] t IH]; [discriminate|]. cbn [lookup]. destruct (version_eqb v k) eqn:K; intros E.
  - left. assert (q = p) as -> by congruence. destruct v, k; try discriminate; reflexivity.
  - right. exact (IH E).
Qed.
(** Before the deadline of the vote nothing is announced, after it the change in round 15; after the change nothing more. *)
Example c180_example : linked quick_table toy_hash Debug ex_first ex_voted /\ idle (upgrade ex_first) /\ waits quick_table /\
  rounds_fit quick_table (round ex_first + N.of_nat (length ex_voted)) /\
  map (next_version_info Debug) (ex_first :: ex_voted) =
    [Some (Some V7, 10, true); Some (Some V7, 11, true); Some (Some V7, 12, true); Some (Some V7, 13, true); Some (Some V7, 14, true);
     Some (Some V8, 15, true); Some (Some V8, 16, true)] /\
  map (fun h => (round h, current (upgrade h))) (ex_first :: ex_voted) =
    [(9, V7); (10, V7); (11, V7); (12, V7); (13, V7); (14, V7); (15, V8)].
Proof.
  split; [apply passes_linked; vm_compute; reflexivity|].
  split; [split; [right; reflexivity|repeat split; reflexivity]|]. split; [exact quick_waits|].
  split; [apply quick_fits; vm_compute; reflexivity|]. split; vm_compute; reflexivity.
Qed.

(** C181, the part that holds.  The announcement of a change says that the version is supported, and it is if the chain
    gets to the change. *)
Theorem c181_supported_partial table H m g hs i j x y v r b :
  linked table H m g hs -> idle (upgrade g) -> waits table ->
  round g + N.of_nat (length hs) + 1 < 2 ^ 64 -> rounds_fit table (round g + N.of_nat (length hs)) ->
  nth_error (g :: hs) i = Some x -> next_version_info m x = Some (v, r, b) ->
  nth_error (g :: hs) j = Some y -> round y = r -> b = true /\ exists w p, v = Some w /\ lookup w table = Some p.
Proof. exact (known_lemma table H m g hs i j x y v r b). Qed.
Print Assumptions c181_supported_partial.
(** Missing: a version that is voted in although the program does not have it is announced as supported.  The next block
    then cannot be checked. *)
Theorem c181_supported_refuted :
  let table := [(V7, quick)] in
  exists g hs x v r h, linked table toy_hash Debug g hs /\ idle (upgrade g) /\ nth_error (g :: hs) (length hs) = Some x /\
    next_version_info Debug x = Some (Some v, r, true) /\ lookup v table = None /\
    round h = r /\ snd (pre_check table toy_hash Debug h x) = Panic /\ linked quick_table toy_hash Debug g (hs ++ [h]).
Proof.
  exists ex_first, (removelast ex_voted), (last (removelast ex_voted) ex_first), V8, 15, (last ex_voted ex_first).
  split; [apply passes_linked; vm_compute; reflexivity|]. split; [split; [right; reflexivity|repeat split; reflexivity]|].
  split; [vm_compute; reflexivity|]. split; [vm_compute; reflexivity|]. split; [reflexivity|]. split; [vm_compute; reflexivity|].
  split; [vm_compute; reflexivity|]. apply passes_linked. vm_compute. reflexivity.
Qed.
Print Assumptions c181_supported_refuted.
Example c181_example : exists x y, nth_error (ex_first :: ex_voted) 5 = Some x /\ nth_error (ex_first :: ex_voted) 6 = Some y /\
  next_version_info Debug x = Some (Some V8, round y, true).
Proof. eexists _, _. split; [reflexivity|]. split; [reflexivity|]. vm_compute. reflexivity. Qed.
