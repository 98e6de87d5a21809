(** Proofs for the announcements of the next protocol. *)
From Verif Require Import Base BaseFacts BlockModel UpgradeSpec UpgradeProofs ChainSpec ChainProofs NextVersionSpec.
Local Open Scope N_scope.

Definition planned (u : upgrade_state) (n : N) : Prop :=
  exists q, pending u q /\ vote_before u < switch_on u /\ n < switch_on u.
Definition quiet (u : upgrade_state) (n : N) : Prop := idle u \/ planned u n.

Lemma idle_reset c : idle (mkUpgrade c None 0 0 0).
Proof. repeat split; cbn; auto. Qed.

Lemma idle_step table m s n v s' : waits table -> rounds_fit table (n + 1) -> idle s ->
  apply_upgrade_vote table m s (n + 1) v = (s', Ok tt) -> quiet s' (n + 1) /\ current s' = current s.
Proof.
  intros W F I E. pose proof I as (In & Ia & Iv & Is). unfold apply_upgrade_vote in E.
  destruct (lookup (current s) table) as [p|] eqn:Ep; [|discriminate]. specialize (W _ _ Ep). specialize (F _ _ Ep).
  unfold apply_proposal in E. destruct (version_eqb (propose v) (current s)) eqn:Ev; cbn [negb] in E.
  - destruct (delay v =? 0); cbn [negb] in E; [|discriminate]. unfold apply_approval in E.
    destruct (approve v).
    + destruct (is_next s (current s)); [discriminate|]. rewrite Iv in E. replace (0 <=? n + 1) with true in E by (symmetry; apply N.leb_le; lia). discriminate.
    + unfold clear_failed in E. rewrite Iv in E. replace (n + 1 =? 0) with false in E by (symmetry; apply N.eqb_neq; lia). cbn [andb] in E.
      unfold switch_over in E. rewrite Is in E. replace (n + 1 =? 0) with false in E by (symmetry; apply N.eqb_neq; lia).
      assert (s' = s) as -> by congruence. split; [left; exact I|reflexivity].
  - destruct (is_next s (current s)); cbn [negb] in E; [|discriminate].
    destruct ((max_upgrade_wait_rounds p <? delay v) || (delay v <? min_upgrade_wait_rounds p)) eqn:Er; [discriminate|].
    apply orb_false_iff in Er. destruct Er as [Er1 Er2]. apply N.ltb_ge in Er1, Er2.
    set (d := if delay v =? 0 then default_upgrade_wait_rounds p else delay v) in *.
    assert (D : 0 < d <= N.max (default_upgrade_wait_rounds p) (max_upgrade_wait_rounds p)).
    { unfold d. destruct (N.eqb_spec (delay v) 0); lia. }
    clearbody d. rewrite (add64_fits m (n + 1)) in E by lia. rewrite add64_fits in E by lia.
    assert (Q : forall a, pending (mkUpgrade (current s) (Some (propose v)) a (n + 1 + upgrade_vote_rounds p) (n + 1 + upgrade_vote_rounds p + d)) (propose v)).
    { intros a. split; [reflexivity|]. cbn. apply veqb_false. exact Ev. }
    assert (R : forall a, switch_over (clear_failed p (mkUpgrade (current s) (Some (propose v)) a (n + 1 + upgrade_vote_rounds p) (n + 1 + upgrade_vote_rounds p + d)) (n + 1)) (n + 1) = (s', Ok tt) ->
      quiet s' (n + 1) /\ current s' = current s).
    { intros a R. unfold clear_failed in R. cbn [vote_before approvals current] in R.
      destruct ((n + 1 =? n + 1 + upgrade_vote_rounds p) && (a <? upgrade_threshold p)); unfold switch_over in R; cbn [switch_on next_protocol] in R.
      - replace (n + 1 =? 0) with false in R by (symmetry; apply N.eqb_neq; lia). assert (s' = mkUpgrade (current s) None 0 0 0) as -> by congruence.
        split; [left; apply idle_reset|reflexivity].
      - replace (n + 1 =? n + 1 + upgrade_vote_rounds p + d) with false in R by (symmetry; apply N.eqb_neq; lia).
        assert (Es : s' = mkUpgrade (current s) (Some (propose v)) a (n + 1 + upgrade_vote_rounds p) (n + 1 + upgrade_vote_rounds p + d)) by congruence.
        split; [right; exists (propose v)|]; rewrite Es; [split; [apply Q|]|]; cbn [vote_before switch_on current]; [lia|reflexivity]. }
    unfold apply_approval in E. destruct (approve v).
    + destruct (is_next _ _); [discriminate|]. destruct (_ <=? _); [discriminate|]. cbn [approvals current next_protocol vote_before switch_on] in E.
      destruct (add64 m 0 1) as [a|]; [|discriminate]. exact (R a E).
    + exact (R 0 E).
Qed.

Lemma planned_step table m s q n v s' : pending s q -> vote_before s < switch_on s -> n < switch_on s ->
  apply_upgrade_vote table m s (n + 1) v = (s', Ok tt) ->
  quiet s' (n + 1) /\
  (n + 1 < switch_on s -> current s' = current s /\ (vote_before s <= n -> s' = s)) /\
  (n + 1 = switch_on s -> current s' = q).
Proof.
  intros Q V S E. pose proof Q as [Qn Qc].
  destruct (lookup (current s) table) as [p|] eqn:Ep; [|unfold apply_upgrade_vote in E; rewrite Ep in E; discriminate].
  destruct (version_dec (propose v) (current s)) as [Ev|Ev]; [|rewrite (competing_lemma table m s q _ v p Ep Q Ev) in E; discriminate].
  unfold apply_upgrade_vote in E. rewrite Ep in E. unfold apply_proposal in E. rewrite Ev, veqb_refl in E. cbn [negb] in E.
  destruct (delay v =? 0); cbn [negb] in E; [|discriminate]. unfold apply_approval in E.
  assert (R : forall a, (vote_before s <= n -> a = approvals s) ->
    switch_over (clear_failed p (mkUpgrade (current s) (next_protocol s) a (vote_before s) (switch_on s)) (n + 1)) (n + 1) = (s', Ok tt) ->
    quiet s' (n + 1) /\ (n + 1 < switch_on s -> current s' = current s /\ (vote_before s <= n -> s' = s)) /\ (n + 1 = switch_on s -> current s' = q)).
  { intros a A R. unfold clear_failed in R. cbn [vote_before approvals current] in R.
    destruct (n + 1 =? vote_before s) eqn:Eb; cbn [andb] in R.
    - apply N.eqb_eq in Eb. destruct (a <? upgrade_threshold p); unfold switch_over in R; cbn [switch_on next_protocol] in R.
      + replace (n + 1 =? 0) with false in R by (symmetry; apply N.eqb_neq; lia). assert (s' = mkUpgrade (current s) None 0 0 0) as -> by congruence.
        split; [left; apply idle_reset|]. split; [intros _; split; [reflexivity|lia]|lia].
      + replace (n + 1 =? switch_on s) with false in R by (symmetry; apply N.eqb_neq; lia).
        assert (Es : s' = mkUpgrade (current s) (next_protocol s) a (vote_before s) (switch_on s)) by congruence.
        split; [right; exists q|]; rewrite Es; [split; [split; assumption|cbn; lia]|]. split; [intros _; split; [reflexivity|lia]|lia].
    - apply N.eqb_neq in Eb. unfold switch_over in R. cbn [switch_on next_protocol] in R. destruct (n + 1 =? switch_on s) eqn:Eo.
      + apply N.eqb_eq in Eo. rewrite Qn in R. assert (s' = mkUpgrade q None 0 0 0) as -> by congruence.
        split; [left; apply idle_reset|]. split; [lia|reflexivity].
      + apply N.eqb_neq in Eo. assert (Es : s' = mkUpgrade (current s) (next_protocol s) a (vote_before s) (switch_on s)) by congruence.
        split; [right; exists q|]; rewrite Es; [split; [split; assumption|cbn; lia]|]. split; [|lia]. intros _. split; [reflexivity|].
        intros L. rewrite (A L). destruct s; reflexivity. }
  destruct (approve v).
  - destruct (is_next s (current s)); [discriminate|]. destruct (N.leb_spec (vote_before s) (n + 1)) as [L|L]; [discriminate|].
    destruct (add64 m (approvals s) 1) as [a|]; [|discriminate]. apply (R a); [lia|exact E].
  - apply (R (approvals s)); [reflexivity|]. rewrite <- E. destruct s; reflexivity.
Qed.

Section Chain.
Variables (table : list (version * params)) (H : bytes -> bytes) (m : mode).

Lemma round_at g hs i h : linked table H m g hs -> round g + N.of_nat (length hs) < 2 ^ 64 -> nth_error (g :: hs) i = Some h ->
  round h = round g + N.of_nat i.
Proof.
  intros L F E. destruct i as [|i].
  - cbn in E. assert (h = g) as -> by congruence. lia.
  - rewrite (rounds_lemma table H m g hs i h L F E). lia.
Qed.
Lemma index (g : header) hs i h : nth_error (g :: hs) i = Some h -> (i <= length hs)%nat.
Proof. intros E. assert (i < length (g :: hs))%nat by (apply nth_error_Some; congruence). cbn [length] in *. lia. Qed.

Lemma fit_down a b : a <= b -> rounds_fit table b -> rounds_fit table a.
Proof. intros L F v p Ep. specialize (F v p Ep). lia. Qed.

(** What the check of two neighbours in the chain says about their upgrade states. *)
Lemma neighbours x y : round x + 1 < 2 ^ 64 -> snd (pre_check table H m y x) = Ok tt ->
  round y = round x + 1 /\ apply_upgrade_vote table m (upgrade x) (round x + 1) (vote y) = (upgrade y, Ok tt).
Proof.
  intros F P. apply passes_facts in P. destruct P as (R & _ & A & _). rewrite add64_fits in R by exact F.
  assert (E : round y = round x + 1) by congruence. rewrite <- E. auto.
Qed.

Lemma always_quiet g hs i x : linked table H m g hs -> idle (upgrade g) -> waits table ->
  round g + N.of_nat (length hs) < 2 ^ 64 -> rounds_fit table (round g + N.of_nat (length hs)) ->
  nth_error (g :: hs) i = Some x -> quiet (upgrade x) (round x).
Proof.
  intros L I W B F X. apply (along table H m (fun _ x => quiet (upgrade x) (round x)) g hs 0 g L eq_refl) with (k := i); [left; exact I| |exact X].
  intros k a b Qa A Bn P. cbn [Nat.add] in A, Bn. pose proof (round_at g hs k a L B A) as Ra. pose proof (index g hs _ b Bn) as Ib.
  destruct (neighbours a b) as [Rb Ab]; [lia|exact P|]. rewrite Rb. destruct Qa as [Qa|(q & Qa & V & S)].
  - apply (idle_step table m (upgrade a) (round a) (vote b) (upgrade b) W); [apply (fit_down _ (round g + N.of_nat (length hs))); [lia|exact F]|exact Qa|exact Ab].
  - apply (planned_step table m (upgrade a) q (round a) (vote b) (upgrade b) Qa V S Ab).
Qed.

Lemma announced_lemma g hs i x : linked table H m g hs -> idle (upgrade g) -> waits table ->
  round g + N.of_nat (length hs) + 1 < 2 ^ 64 -> rounds_fit table (round g + N.of_nat (length hs)) ->
  nth_error (g :: hs) i = Some x ->
  exists v r b, next_version_info m x = Some (Some v, r, b) /\ round x < r /\ comes (g :: hs) i v r.
Proof.
  intros L I W B F X. assert (B' : round g + N.of_nat (length hs) < 2 ^ 64) by lia.
  pose proof (always_quiet g hs i x L I W B' F X) as Q. pose proof (round_at g hs i x L B' X) as Rx. pose proof (index g hs i x X) as Ix.
  unfold next_version_info. destruct ((vote_before (upgrade x) <=? round x) && (round x <? switch_on (upgrade x))) eqn:C.
  - apply andb_true_iff in C. destruct C as [C1 C2]. apply N.leb_le in C1. apply N.ltb_lt in C2.
    destruct Q as [(_ & _ & _ & Z)|(q & Q & V & S)]; [lia|]. exists q, (switch_on (upgrade x)), true. rewrite (proj1 Q). split; [reflexivity|]. split; [exact C2|].
    intros x' j y X' J Y. assert (x' = x) as -> by congruence.
    assert (K : forall k b, nth_error (g :: hs) (i + k) = Some b ->
      (round b < switch_on (upgrade x) -> upgrade b = upgrade x) /\ (round b = switch_on (upgrade x) -> current (upgrade b) = q)).
    { apply (along table H m (fun _ b => (round b < switch_on (upgrade x) -> upgrade b = upgrade x) /\ (round b = switch_on (upgrade x) -> current (upgrade b) = q)) g hs i x L X); [split; [reflexivity|lia]|].
      intros k a b [Pa _] A Bn P. pose proof (round_at g hs _ a L B' A) as Ra. pose proof (index g hs _ b Bn) as Ib.
      destruct (neighbours a b) as [Rb Ab]; [lia|exact P|]. split; intros Hr.
      - rewrite Pa in Ab by lia. destruct (planned_step table m (upgrade x) q (round a) (vote b) (upgrade b) Q V ltac:(lia) Ab) as (_ & P1 & _). apply P1; lia.
      - rewrite Pa in Ab by lia. destruct (planned_step table m (upgrade x) q (round a) (vote b) (upgrade b) Q V ltac:(lia) Ab) as (_ & _ & P1). apply P1; lia. }
    destruct (K (j - i)%nat y) as [K1 K2]; [replace (i + (j - i))%nat with j by lia; exact Y|]. split; [intros Hr; rewrite K1 by exact Hr; reflexivity|exact K2].
  - rewrite add64_fits by lia. exists (current (upgrade x)), (round x + 1), true. split; [reflexivity|]. split; [lia|].
    intros x' j y X' J Y. assert (x' = x) as -> by congruence. pose proof (round_at g hs j y L B' Y) as Ry.
    destruct (Nat.eq_dec j i) as [->|Nj]; [assert (y = x) as -> by congruence; split; [reflexivity|lia]|]. split; [lia|]. intros Hr.
    assert (j = S i) as -> by lia. pose proof (linked_nth table H m g hs i x y L X Y) as P. pose proof (index g hs _ y Y) as Iy.
    destruct (neighbours x y) as [_ A]; [lia|exact P|]. destruct Q as [Q|(q & Q & V & S)].
    + apply (idle_step table m (upgrade x) (round x) (vote y) (upgrade y) W); [apply (fit_down _ (round g + N.of_nat (length hs))); [lia|exact F]|exact Q|exact A].
    + destruct (planned_step table m (upgrade x) q (round x) (vote y) (upgrade y) Q V S A) as (_ & P1 & _). apply P1.
      apply andb_false_iff in C. destruct C as [C|C]; [apply N.leb_gt in C; lia|apply N.ltb_ge in C; lia].
Qed.

Lemma known_lemma g hs i j x y v r b : linked table H m g hs -> idle (upgrade g) -> waits table ->
  round g + N.of_nat (length hs) + 1 < 2 ^ 64 -> rounds_fit table (round g + N.of_nat (length hs)) ->
  nth_error (g :: hs) i = Some x -> next_version_info m x = Some (v, r, b) ->
  nth_error (g :: hs) j = Some y -> round y = r -> b = true /\ exists w p, v = Some w /\ lookup w table = Some p.
Proof.
  intros L I W B F X N Y R. destruct (announced_lemma g hs i x L I W B F X) as (w & r' & b' & N' & Lt & C).
  assert (r' = r /\ v = Some w) as [-> ->] by (split; congruence).
  pose proof (round_at g hs i x L ltac:(lia) X) as Rx. pose proof (round_at g hs j y L ltac:(lia) Y) as Ry.
  destruct (C x j y X ltac:(lia) Y) as [_ C2]. split.
  - unfold next_version_info in N. destruct (_ && _); [congruence|]. destruct (add64 _ _ _); congruence.
  - exists w. destruct j as [|j]; [lia|].
    destruct (nth_error (g :: hs) j) as [z|] eqn:Z.
    + pose proof (linked_nth table H m g hs j z y L Z Y) as P. apply passes_facts in P. destruct P as (_ & _ & _ & p & P & _).
      rewrite (C2 R) in P. exists p. split; [reflexivity|exact P].
    + exfalso. apply nth_error_None in Z. pose proof (index g hs _ y Y). cbn [length] in Z. lia.
Qed.
End Chain.
