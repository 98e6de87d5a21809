(** Property C175: the chance of leading. *)
From Verif Require Import Base Toy MsgpackModel CommitteeModel CommitteeSpec LeaderSpec LeaderProps LeadChanceSpec LeadChanceProofs.
Local Open Scope nat_scope.

(** C175 asks that, all outcomes of the hashes counting alike, a credential leads in its share of
    the total weight.  What holds from weight two on: who leads is decided by the hashes that are
    drawn, one fewer than the weight for each, and each credential leads alone in its share of
    these draws, up to the share of outcomes with equal hashes.  With [m] possible values of a
    hash and [n] draws altogether the error is at most [n * (n - 1) / (2 * m)]. *)
Theorem c175_share_partial :
  forall m cs i c, Forall complete cs -> Forall (fun d => 2 <= weight d)%N cs -> nth_error cs i = Some c ->
  let draws := map draws_made cs in let n := total draws in let k := N.to_nat (weight c - 1) in let w := winning_cases m draws i in
  (forall H, wins i (combine (owners draws) (hashes_from H draws_made cs)) = true <-> leads_alone H cs i) /\
  2 * m * (n * w) <= 2 * m * (k * m ^ n) + n * n * (n - 1) * m ^ n /\
  2 * m * (k * m ^ n) <= 2 * m * (n * w) + n * n * (n - 1) * m ^ n.
Proof.
  intros m cs i c Cs Ws E draws n k w. split.
  - intros H. apply link_lemma; try assumption. apply nth_error_Some. congruence.
  - replace k with (nth i draws 0); [apply share_lemma|]. unfold draws, k. erewrite nth_error_nth; [reflexivity|]. rewrite nth_error_map, E. reflexivity.
Qed.
Print Assumptions c175_share_partial.

(** If as many hashes were drawn as the weight says, that would be the share of the weight. *)
Theorem c175_intended :
  forall m weights i, let n := total weights in let w := winning_cases m weights i in
  2 * m * (n * w) <= 2 * m * (nth i weights 0 * m ^ n) + n * n * (n - 1) * m ^ n /\
  2 * m * (nth i weights 0 * m ^ n) <= 2 * m * (n * w) + n * n * (n - 1) * m ^ n.
Proof. exact share_lemma. Qed.
Print Assumptions c175_intended.

(** The full statement is false: of two credentials with weights two and three the first should
    lead in two fifths of the outcomes.  However many values hashes have, it leads in less than
    nineteen fiftieths.  Credentials of weight one are always among the leaders, see C174. *)
Theorem c175_refuted :
  exists cs, Forall complete cs /\ map weight cs = [2; 3]%N /\
  forall m, 300 <= m -> 50 * winning_cases m (map draws_made cs) 0 < 19 * m ^ total (map draws_made cs).
Proof.
  exists [c173_plain x01 2; c173_sep x02 3]. split; [repeat constructor; discriminate|]. split; [reflexivity|]. intros m Hm.
  destruct (share_lemma m (map draws_made [c173_plain x01 2; c173_sep x02 3]) 0) as [A _]. revert A.
  change (total (map draws_made [c173_plain x01 2; c173_sep x02 3])) with 3. change (nth 0 (map draws_made [c173_plain x01 2; c173_sep x02 3]) 0) with 1.
  generalize (winning_cases m (map draws_made [c173_plain x01 2; c173_sep x02 3]) 0) as w. intros w A. cbn [Nat.pow Nat.sub] in *. rewrite ?Nat.mul_1_r, ?Nat.mul_1_l in *.
  assert (B : m * (3 * w) <= m * (m * (m * m) + 9 * (m * m))) by lia. apply Nat.mul_le_mono_pos_l in B; [|lia].
  pose proof (Nat.mul_le_mono_r _ _ (m * m) Hm) as C. assert (0 < m * m) by (apply Nat.mul_pos_pos; lia). rewrite Nat.mul_assoc in *. lia.
Qed.
Print Assumptions c175_refuted.

(** ** Concrete cases: four values, one draw against two. Of 64 outcomes the first wins in 14, the
    second in 34 and in the others the least hashes are the same. *)
Example c175_case :
  winning_cases 4 [1; 2] 0 = 14 /\ winning_cases 4 [1; 2] 1 = 34 /\ length (outcomes 4 3) = 64 /\
  wins 1 (combine (owners [1; 2]) [5; 3; 9]%N) = true /\ wins 0 (combine (owners [1; 2]) [5; 5; 9]%N) = false.
Proof. vm_compute. repeat split. Qed.
Example c175_leads :
  Forall complete c173_set /\ Forall (fun d => 2 <= weight d)%N c173_set /\ leads_alone toy_hash c173_set 0 /\
  map draws_made c173_set = [2; 3; 1] /\ wins 0 (combine (owners [2; 3; 1]) (hashes_from toy_hash draws_made c173_set)) = true.
Proof.
  split; [repeat constructor; discriminate|]. split; [repeat constructor; discriminate|]. split; [|split; vm_compute; reflexivity].
  eexists. split; [reflexivity|]. intros [|[|[|[|j]]]] d Nj E; try discriminate; try contradiction; injection E as <-; vm_compute; reflexivity.
Qed.
