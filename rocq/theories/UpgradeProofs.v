From Verif Require Import Base BaseFacts UpgradeModel UpgradeSpec.
From Verif Require OtsProofs ConfigProofs.
Local Open Scope N_scope.

Lemma veqb a b : version_eqb a b = true <-> a = b.
Proof. destruct (ConfigProofs.version_eqb_reflect a b); split; congruence. Qed.
Lemma veqb_refl a : version_eqb a a = true.
Proof. apply veqb. reflexivity. Qed.
Lemma veqb_false a b : version_eqb a b = false <-> a <> b.
Proof. rewrite <- not_true_iff_false, veqb. reflexivity. Qed.
Lemma version_dec (a b : version) : {a = b} + {a <> b}.
Proof. decide equality. Qed.
Lemma add64_fits m a b : a + b < 2 ^ 64 -> add64 m a b = Some (a + b).
Proof. intros Hl. unfold add64, two64. replace (a + b <? 2 ^ 64) with true by (symmetry; apply N.ltb_lt; exact Hl). reflexivity. Qed.

(** ** Appending to a history *)
Lemma in_favour_app a b : in_favour (a ++ b) = in_favour a + in_favour b.
Proof. unfold in_favour. rewrite filter_app, app_length. lia. Qed.
Lemma in_favour_one e : in_favour [e] = if approve (ev_vote e) then 1 else 0.
Proof. unfold in_favour. cbn [filter]. destruct (approve (ev_vote e)); reflexivity. Qed.
Lemma in_favour_length l : in_favour l <= N.of_nat (length l).
Proof. unfold in_favour. induction l as [|a l IH]; cbn [filter]; [reflexivity|]. destruct (approve _); cbn [length]; lia. Qed.

Definition last_protocol (start : version) (past : list round_event) : version :=
  match rev past with [] => start | e :: _ => ev_protocol e end.
Lemma last_protocol_app start past e : last_protocol start (past ++ [e]) = ev_protocol e.
Proof. unfold last_protocol. rewrite rev_app_distr. reflexivity. Qed.

Section Run.
Variables (table : list (version * params)) (m : mode) (first : N) (start : version).

Definition votes_for (past : list round_event) (p : params) (k : nat) : N :=
  in_favour (firstn (N.to_nat (upgrade_vote_rounds p)) (skipn k past)).
Definition waiting (past : list round_event) (s : upgrade_state) : Prop :=
  exists n p k e,
    pending s n /\ lookup (current s) table = Some p /\ nth_error past k = Some e /\ propose (ev_vote e) = n /\ delay_allowed p (ev_vote e) /\
    vote_before s = first + N.of_nat k + upgrade_vote_rounds p /\
    switch_on s = vote_before s + wait p (ev_vote e) /\
    approvals s = votes_for past p k /\
    (vote_before s < first + N.of_nat (length past) -> upgrade_threshold p <= approvals s) /\
    first + N.of_nat (length past) <= switch_on s.
Definition inv (past : list round_event) (s : upgrade_state) : Prop :=
  last_protocol start past = current s /\ (idle s \/ waiting past s).

Lemma skipn_app_le {A} k (l r : list A) : (k <= length l)%nat -> skipn k (l ++ r) = skipn k l ++ r.
Proof. intros Hk. rewrite skipn_app. replace (k - length l)%nat with O by lia. reflexivity. Qed.

Lemma votes_for_app past e p k : (k <= length past)%nat ->
  votes_for (past ++ [e]) p k =
  votes_for past p k + (if (N.of_nat (length past) <? N.of_nat k + upgrade_vote_rounds p) && approve (ev_vote e) then 1 else 0).
Proof.
  intros Hk. unfold votes_for. rewrite skipn_app_le by exact Hk. rewrite firstn_app, in_favour_app. f_equal.
  rewrite skipn_length. destruct (N.ltb_spec (N.of_nat (length past)) (N.of_nat k + upgrade_vote_rounds p)) as [L|L]; cbn [andb].
  - replace (N.to_nat (upgrade_vote_rounds p) - (length past - k))%nat with (S (N.to_nat (upgrade_vote_rounds p) - (length past - k) - 1)) by lia.
    cbn [firstn]. rewrite firstn_nil. apply in_favour_one.
  - replace (N.to_nat (upgrade_vote_rounds p) - (length past - k))%nat with O by lia. reflexivity.
Qed.

(** One accepted vote. *)
Lemma step_inv past s v s' : 1 <= first -> rounds_fit table (first + N.of_nat (length past)) ->
  inv past s -> apply_upgrade_vote table m s (first + N.of_nat (length past)) v = (s', Ok tt) ->
  inv (past ++ [mkEvent v (current s')]) s' /\
  (current s <> current s' -> voted_in table (past ++ [mkEvent v (current s')]) (length past) (current s) (current s')).
Proof.
  intros Hf Hr [Hl Hi] E. set (round := first + N.of_nat (length past)) in *.
  unfold apply_upgrade_vote in E. destruct (lookup (current s) table) as [p|] eqn:Ep; [|discriminate].
  specialize (Hr _ _ Ep).
  set (e := mkEvent v (current s')).
  assert (Hlen : length (past ++ [e]) = S (length past)) by (rewrite app_length; cbn; lia).
  assert (Hlast : last_protocol start (past ++ [e]) = current s') by apply last_protocol_app.
  unfold apply_proposal in E.
  destruct (version_eqb (propose v) (current s)) eqn:Ev; cbn [negb] in E.
  - (* no proposal *)
    destruct (delay v =? 0) eqn:Ed; cbn [negb] in E; [|discriminate].
    unfold apply_approval in E.
    destruct Hi as [[Hn [Ha [Hb Hs]]]|[n [q [k [e0 [[Hn Hnc] [Hq [He0 [Hp [Hwin [Hb [Hs [Ha [Ht Ho]]]]]]]]]]]]]].
    + (* idle *)
      destruct (approve v).
      { destruct (is_next s (current s)); [discriminate|]. rewrite Hb in E. destruct (N.leb_spec 0 round); [discriminate|lia]. }
      unfold clear_failed in E. rewrite Hb in E.
      replace (round =? 0) with false in E by (symmetry; apply N.eqb_neq; unfold round; lia). cbn [andb] in E.
      unfold switch_over in E. rewrite Hs in E. replace (round =? 0) with false in E by (symmetry; apply N.eqb_neq; unfold round; lia).
      assert (s' = s) as -> by congruence. split; [|congruence]. split; [exact Hlast|]. left. unfold idle. auto.
    + assert (q = p) as -> by congruence.
      assert (Hnn : is_next s (current s) = false).
      { unfold is_next. rewrite Hn. apply veqb_false. exact Hnc. }
      assert (Hk : (k < length past)%nat) by (apply nth_error_Some; congruence).
      assert (Hcount : approvals s <= N.of_nat (length past)).
      { rewrite Ha. unfold votes_for. etransitivity; [apply in_favour_length|]. rewrite firstn_length, skipn_length. lia. }
      rewrite Hnn in E.
      (* the state after the approval *)
      assert (Hs2 : exists s2, s2 = mkUpgrade (current s) (next_protocol s) (votes_for (past ++ [e]) p k) (vote_before s) (switch_on s) /\
                    switch_over (clear_failed p s2 round) round = (s', Ok tt)).
      { eexists. split; [reflexivity|]. rewrite votes_for_app by lia. change (ev_vote e) with v. destruct (approve v).
        - destruct (N.leb_spec (vote_before s) round) as [L|L]; [discriminate|].
          rewrite (add64_fits m (approvals s) 1) in E by lia.
          replace (N.of_nat (length past) <? N.of_nat k + upgrade_vote_rounds p) with true by (symmetry; apply N.ltb_lt; unfold round in L; lia).
          cbn [andb]. rewrite <- Ha. exact E.
        - rewrite andb_false_r. rewrite N.add_0_r, <- Ha. destruct s. exact E. }
      clear E. destruct Hs2 as [s2 [Es2 E]].
      unfold clear_failed in E.
      destruct ((round =? vote_before s2) && (approvals s2 <? upgrade_threshold p)) eqn:Ec.
      { unfold switch_over in E. cbn [switch_on] in E. replace (round =? 0) with false in E by (symmetry; apply N.eqb_neq; unfold round; lia).
        rewrite Es2 in E. cbn [current] in E. assert (s' = mkUpgrade (current s) None 0 0 0) as -> by congruence. cbn [current] in *.
        split; [|congruence]. split; [exact Hlast|]. left. unfold idle. cbn. auto. }
      assert (Hthr : vote_before s <= round -> upgrade_threshold p <= votes_for (past ++ [e]) p k).
      { intros L. rewrite Es2 in Ec. cbn [vote_before approvals] in Ec. destruct (N.eqb_spec round (vote_before s)) as [El|El].
        - cbn [andb] in Ec. apply N.ltb_ge in Ec. exact Ec.
        - rewrite votes_for_app by lia. rewrite <- Ha. specialize (Ht ltac:(unfold round in *; lia)). lia. }
      unfold switch_over in E. rewrite Es2 in E. cbn [switch_on next_protocol] in E.
      destruct (N.eqb_spec round (switch_on s)) as [El|El].
      * rewrite Hn in E. assert (s' = mkUpgrade n None 0 0 0) as -> by congruence. cbn [current] in *. split.
        { split; [exact Hlast|]. left. unfold idle. cbn. auto. }
        intros _. exists p, k, e0. split; [exact Ep|]. split; [rewrite nth_error_app1 by exact Hk; exact He0|]. split; [exact Hp|]. split; [exact Hwin|].
        split; [unfold round in El; lia|]. apply Hthr. lia.
      * assert (Es' : s' = mkUpgrade (current s) (next_protocol s) (votes_for (past ++ [e]) p k) (vote_before s) (switch_on s)) by congruence.
        assert (Ecur : current s' = current s) by (rewrite Es'; reflexivity). split; [|congruence]. split; [exact Hlast|]. right.
        exists n, p, k, e0. rewrite Ecur. split; [split; [rewrite Es'; exact Hn|congruence]|]. split; [exact Ep|].
        split; [rewrite nth_error_app1 by exact Hk; exact He0|]. split; [exact Hp|]. split; [exact Hwin|].
        rewrite Es'. cbn [vote_before switch_on approvals]. rewrite Hlen.
        split; [exact Hb|]. split; [exact Hs|]. split; [reflexivity|]. split; [|unfold round in *; lia].
        intros L. apply Hthr. unfold round. lia.
  - (* a proposal *)
    destruct (is_next s (current s)) eqn:En; cbn [negb] in E; [|discriminate].
    destruct ((max_upgrade_wait_rounds p <? delay v) || (delay v <? min_upgrade_wait_rounds p)) eqn:Er; [discriminate|].
    apply orb_false_iff in Er. destruct Er as [Er1 Er2]. rewrite N.ltb_ge in Er1, Er2.
    fold (wait p v) in E.
    assert (Hw : wait p v <= N.max (default_upgrade_wait_rounds p) (max_upgrade_wait_rounds p)).
    { unfold wait. destruct (delay v =? 0); lia. }
    assert (A1 : round + upgrade_vote_rounds p + wait p v < 2 ^ 64) by lia.
    rewrite (add64_fits m round) in E by lia. rewrite (add64_fits m (round + upgrade_vote_rounds p)) in E by exact A1.
    apply veqb_false in Ev.
    set (k := length past).
    assert (Hk : nth_error (past ++ [e]) k = Some e) by (rewrite nth_error_app2, Nat.sub_diag by (unfold k; lia); reflexivity).
    assert (Hv : votes_for (past ++ [e]) p k = if (0 <? upgrade_vote_rounds p) && approve v then 1 else 0).
    { rewrite votes_for_app by (unfold k; lia). change (ev_vote e) with v. unfold votes_for, k. rewrite skipn_all, firstn_nil.
      replace (N.of_nat (length past) <? N.of_nat (length past) + upgrade_vote_rounds p) with (0 <? upgrade_vote_rounds p); [reflexivity|].
      destruct (N.ltb_spec 0 (upgrade_vote_rounds p)), (N.ltb_spec (N.of_nat (length past)) (N.of_nat (length past) + upgrade_vote_rounds p)); try reflexivity; lia. }
    assert (Hs2 : switch_over (clear_failed p (mkUpgrade (current s) (Some (propose v)) (votes_for (past ++ [e]) p k) (round + upgrade_vote_rounds p) (round + upgrade_vote_rounds p + wait p v)) round) round = (s', Ok tt)).
    { rewrite Hv. unfold apply_approval in E. cbn [current next_protocol approvals vote_before switch_on] in E. unfold is_next in E. cbn [next_protocol] in E.
      destruct (approve v).
      - replace (version_eqb (propose v) (current s)) with false in E by (symmetry; apply veqb_false; exact Ev).
        destruct (N.leb_spec (round + upgrade_vote_rounds p) round) as [L|L]; [discriminate|].
        replace (0 <? upgrade_vote_rounds p) with true by (symmetry; apply N.ltb_lt; lia). cbn [andb].
        rewrite (add64_fits m 0 1) in E by reflexivity. exact E.
      - rewrite andb_false_r. exact E. }
    clear E. unfold clear_failed in Hs2. cbn [vote_before approvals current] in Hs2.
    destruct ((round =? round + upgrade_vote_rounds p) && (votes_for (past ++ [e]) p k <? upgrade_threshold p)) eqn:Ec.
    + unfold switch_over in Hs2. cbn [switch_on] in Hs2. replace (round =? 0) with false in Hs2 by (symmetry; apply N.eqb_neq; unfold round; lia).
      assert (s' = mkUpgrade (current s) None 0 0 0) as -> by congruence. cbn [current] in *. split; [|congruence]. split; [exact Hlast|]. left. unfold idle. cbn. auto.
    + assert (Hthr : upgrade_vote_rounds p = 0 -> upgrade_threshold p <= votes_for (past ++ [e]) p k).
      { intros L. rewrite L, N.add_0_r, N.eqb_refl in Ec. cbn [andb] in Ec. apply N.ltb_ge in Ec. exact Ec. }
      unfold switch_over in Hs2. cbn [switch_on next_protocol] in Hs2.
      destruct (N.eqb_spec round (round + upgrade_vote_rounds p + wait p v)) as [El|El].
      * assert (s' = mkUpgrade (propose v) None 0 0 0) as -> by congruence. cbn [current] in *. split.
        { split; [exact Hlast|]. left. unfold idle. cbn. auto. }
        intros _. exists p, k, e. split; [exact Ep|]. split; [exact Hk|]. split; [reflexivity|]. split; [exact (conj Er2 Er1)|]. change (ev_vote e) with v.
        split; [unfold k; lia|]. apply Hthr. lia.
      * assert (Es' : s' = mkUpgrade (current s) (Some (propose v)) (votes_for (past ++ [e]) p k) (round + upgrade_vote_rounds p) (round + upgrade_vote_rounds p + wait p v)) by congruence.
        assert (Ecur : current s' = current s) by (rewrite Es'; reflexivity). split; [|congruence]. split; [exact Hlast|]. right.
        exists (propose v), p, k, e. rewrite Ecur. split; [split; [rewrite Es'; reflexivity|congruence]|]. split; [exact Ep|].
        split; [exact Hk|]. split; [reflexivity|]. split; [exact (conj Er2 Er1)|]. rewrite Es'. cbn [vote_before switch_on approvals]. change (ev_vote e) with v. rewrite Hlen.
        split; [unfold round, k; lia|]. split; [reflexivity|]. split; [reflexivity|]. split; [|unfold round in *; lia].
        intros L. apply Hthr. unfold round in L. lia.
Qed.

Lemma run_inv s round ev s'' : history table m s round ev s'' ->
  forall past, 1 <= first -> rounds_fit table (first + N.of_nat (length past + length ev)) ->
  round = first + N.of_nat (length past) -> inv past s ->
  inv (past ++ ev) s'' /\
  (forall i old new, (length past <= i)%nat -> changes start (past ++ ev) i old new -> voted_in table (past ++ ev) i old new).
Proof.
  induction 1 as [s round|s round ev s' s'' v Ea Hh IH]; intros past Hf Hr Er Hi.
  - rewrite app_nil_r. split; [exact Hi|]. intros i old new Hlt [[e [He _]] _]. apply nth_error_None in Hlt. congruence.
  - set (e := mkEvent v (current s')).
    assert (Hr1 : rounds_fit table (first + N.of_nat (length past))).
    { intros w p Hp. specialize (Hr w p Hp). cbn [length] in Hr. lia. }
    subst round. destruct (step_inv past s v s' Hf Hr1 Hi Ea) as [Hi' Hc]. fold e in Hi', Hc.
    destruct (IH (past ++ [e])) as [Hi'' Hg]; [exact Hf| | |exact Hi'|].
    + rewrite app_length. cbn [length] in *. replace (length past + 1 + length ev)%nat with (length past + S (length ev))%nat by lia. exact Hr.
    + rewrite app_length. cbn [length]. lia.
    + rewrite <- app_assoc in Hi'', Hg. cbn [app] in Hi'', Hg. split; [exact Hi''|]. intros i old new Hlt Hch.
      destruct (Nat.eq_dec i (length past)) as [->|Hne].
      * assert (Hnew : new = current s').
        { destruct Hch as [[x [Hx Hxp]] _]. rewrite nth_error_app2, Nat.sub_diag in Hx by lia. cbn in Hx. assert (x = e) as -> by congruence. symmetry. exact Hxp. }
        assert (Hold : old = current s).
        { destruct Hch as [_ [Ho _]]. destruct Hi as [Hl _]. rewrite <- Hl. unfold last_protocol. destruct (length past) as [|j] eqn:El.
          - apply length_zero_iff_nil in El. subst past. exact Ho.
          - destruct Ho as [x [Hx Hxp]]. destruct (@exists_last _ past) as [past' [y ->]]; [destruct past; discriminate|].
            rewrite app_length in El. cbn [length] in El. rewrite rev_app_distr. cbn [rev app].
            rewrite <- app_assoc, nth_error_app2 in Hx by lia. replace (j - length past')%nat with O in Hx by lia. cbn in Hx. congruence. }
        subst old new. specialize (Hc (proj2 (proj2 Hch))). destruct Hc as [p [k [x [A1 [A2 [A3 [Aw [A4 A5]]]]]]]].
        assert (Hk : (k < length (past ++ [e]))%nat) by (apply nth_error_Some; congruence).
        exists p, k, x. split; [exact A1|].
        assert (Eapp : past ++ e :: ev = (past ++ [e]) ++ ev) by (rewrite <- app_assoc; reflexivity). rewrite Eapp.
        split; [rewrite nth_error_app1 by exact Hk; exact A2|]. split; [exact A3|]. split; [exact Aw|]. split; [exact A4|].
        rewrite skipn_app_le by lia. rewrite firstn_app, in_favour_app. lia.
      * apply Hg; [rewrite app_length; cbn [length]; lia|exact Hch].
Qed.
End Run.

Lemma idle_inv table first s : idle s -> inv table first (current s) [] s.
Proof. intros Hi. split; [reflexivity|left; exact Hi]. Qed.

Lemma upgrade_lemma table m s first ev s' i old new :
  history table m s first ev s' -> idle s -> 1 <= first -> rounds_fit table (first + N.of_nat (length ev)) ->
  changes (current s) ev i old new -> voted_in table ev i old new.
Proof.
  intros Hh Hi Hf Hr Hc.
  destruct (run_inv table m first (current s) s first ev s' Hh []) as [_ G]; [exact Hf|exact Hr|cbn; lia|apply idle_inv; exact Hi|].
  apply (G i old new); [cbn; lia|exact Hc].
Qed.
Lemma pending_lemma table m s first ev s' n :
  history table m s first ev s' -> idle s -> 1 <= first -> rounds_fit table (first + N.of_nat (length ev)) -> pending s' n ->
  exists p k e, lookup (current s') table = Some p /\ nth_error ev k = Some e /\ propose (ev_vote e) = n /\ delay_allowed p (ev_vote e) /\
    vote_before s' = first + N.of_nat k + upgrade_vote_rounds p /\ switch_on s' = vote_before s' + wait p (ev_vote e) /\
    approvals s' = in_favour (firstn (N.to_nat (upgrade_vote_rounds p)) (skipn k ev)) /\
    (N.of_nat k + upgrade_vote_rounds p < N.of_nat (length ev) -> upgrade_threshold p <= approvals s') /\
    N.of_nat (length ev) <= N.of_nat k + upgrade_vote_rounds p + wait p (ev_vote e).
Proof.
  intros Hh Hi Hf Hr [Hp Hpn].
  destruct (run_inv table m first (current s) s first ev s' Hh []) as [[_ [[[Hn|Hn] _]|G]] _]; [exact Hf|exact Hr|cbn; lia|apply idle_inv; exact Hi|congruence|congruence|].
  destruct G as [n' [p [k [e [[A1 A2] [A3 [A4 [A5 [Aw [A6 [A7 [A8 [A9 A10]]]]]]]]]]]]]. cbn [app] in *.
  exists p, k, e. repeat (split; [first [assumption|congruence]|]). split; [intros L; apply A9; lia|lia].
Qed.
Lemma competing_lemma table m s n round v p : lookup (current s) table = Some p -> pending s n -> propose v <> current s ->
  apply_upgrade_vote table m s round v = (s, Err CompetingProposal).
Proof.
  intros Hp [Hn Hnc] Hv. unfold apply_upgrade_vote. rewrite Hp. unfold apply_proposal.
  replace (version_eqb (propose v) (current s)) with false by (symmetry; apply veqb_false; exact Hv). cbn [negb].
  unfold is_next. rewrite Hn. replace (version_eqb n (current s)) with false by (symmetry; apply veqb_false; exact Hnc). reflexivity.
Qed.
Lemma refused_lemma table m s round v p s' err : lookup (current s) table = Some p -> 0 < upgrade_vote_rounds p ->
  round + upgrade_vote_rounds p < 2 ^ 64 ->
  apply_upgrade_vote table m s round v = (s', Err err) -> s' = s.
Proof.
  intros Hp Hv Hr E. unfold apply_upgrade_vote in E. rewrite Hp in E. unfold apply_proposal in E.
  destruct (version_eqb (propose v) (current s)) eqn:Ev; cbn [negb] in E.
  - destruct (delay v =? 0); cbn [negb] in E; [|congruence]. unfold apply_approval in E. destruct (approve v).
    + destruct (is_next s (current s)); [congruence|]. destruct (vote_before s <=? round); [congruence|].
      destruct (add64 m (approvals s) 1); [|congruence]. unfold switch_over in E. destruct (round =? _); [|congruence]. destruct (next_protocol _); congruence.
    + unfold switch_over in E. destruct (round =? _); [|congruence]. destruct (next_protocol _); congruence.
  - destruct (is_next s (current s)); cbn [negb] in E; [|congruence]. destruct (_ || _); [congruence|].
    rewrite (add64_fits m round) in E by exact Hr. destruct (add64 m (round + upgrade_vote_rounds p) _) as [on|]; [|congruence].
    unfold apply_approval in E. cbn [current next_protocol approvals vote_before switch_on is_next] in E. destruct (approve v).
    + rewrite Ev in E. destruct (N.leb_spec (round + upgrade_vote_rounds p) round) as [L|L]; [lia|].
      change (add64 m 0 1) with (Some 1) in E. unfold switch_over in E. destruct (round =? _); [|congruence]. destruct (next_protocol _); congruence.
    + unfold switch_over in E. destruct (round =? _); [|congruence]. destruct (next_protocol _); congruence.
Qed.

(** ** Starting a proposal *)
Lemma no_proposal_lemma table m s round v p : lookup (current s) table = Some p -> next_protocol s = None -> propose v <> current s ->
  apply_upgrade_vote table m s round v = (s, Err CompetingProposal).
Proof.
  intros Hp Hn Hv. unfold apply_upgrade_vote. rewrite Hp. unfold apply_proposal.
  replace (version_eqb (propose v) (current s)) with false by (symmetry; apply veqb_false; exact Hv). cbn [negb].
  unfold is_next. rewrite Hn. reflexivity.
Qed.
Lemma frozen_lemma table m s first ev s' : history table m s first ev s' -> 1 <= first -> idle s -> next_protocol s = None ->
  s' = s /\ Forall (fun e => ev_protocol e = current s) ev.
Proof.
  induction 1 as [s round|s round ev s' s'' v Ea Hh IH]; intros Hf Hi Hn; [split; [reflexivity|constructor]|].
  assert (s' = s) as ->.
  { unfold apply_upgrade_vote in Ea. destruct (lookup (current s) table) as [p|] eqn:Ep; [|discriminate].
    unfold apply_proposal in Ea. destruct (version_eqb (propose v) (current s)); cbn [negb] in Ea.
    - destruct (delay v =? 0); cbn [negb] in Ea; [|discriminate]. destruct Hi as [_ [Ha [Hb Hs]]]. unfold apply_approval in Ea. destruct (approve v).
      + destruct (is_next s (current s)); [discriminate|]. rewrite Hb in Ea. destruct (N.leb_spec 0 round); [discriminate|lia].
      + unfold clear_failed in Ea. rewrite Hb in Ea. replace (round =? 0) with false in Ea by (symmetry; apply N.eqb_neq; lia). cbn [andb] in Ea.
        unfold switch_over in Ea. rewrite Hs in Ea. replace (round =? 0) with false in Ea by (symmetry; apply N.eqb_neq; lia). congruence.
    - unfold is_next in Ea. rewrite Hn in Ea. cbn [negb] in Ea. discriminate. }
  destruct (IH ltac:(lia) Hi Hn) as [-> Hall]. split; [reflexivity|]. constructor; [reflexivity|exact Hall].
Qed.
(** From the state with the current version as next protocol proposals are accepted. *)
Lemma propose_lemma table m s round v p : lookup (current s) table = Some p ->
  next_protocol s = Some (current s) -> propose v <> current s ->
  min_upgrade_wait_rounds p <= delay v -> delay v <= max_upgrade_wait_rounds p ->
  0 < upgrade_vote_rounds p -> round + upgrade_vote_rounds p + wait p v < 2 ^ 64 ->
  apply_upgrade_vote table m s round v =
    (mkUpgrade (current s) (Some (propose v)) (if approve v then 1 else 0) (round + upgrade_vote_rounds p) (round + upgrade_vote_rounds p + wait p v), Ok tt).
Proof.
  intros Hp Hn Hv H1 H2 H3 H4. unfold apply_upgrade_vote. rewrite Hp. unfold apply_proposal.
  apply veqb_false in Hv. rewrite Hv. cbn [negb]. unfold is_next. rewrite Hn, veqb_refl. cbn [negb].
  replace (max_upgrade_wait_rounds p <? delay v) with false by (symmetry; apply N.ltb_ge; exact H2).
  replace (delay v <? min_upgrade_wait_rounds p) with false by (symmetry; apply N.ltb_ge; exact H1). cbn [orb].
  fold (wait p v). rewrite (add64_fits m round) by lia. rewrite (add64_fits m (round + upgrade_vote_rounds p)) by exact H4.
  unfold apply_approval. cbn [current next_protocol approvals vote_before switch_on is_next].
  assert (Hfin : forall a, switch_over (clear_failed p (mkUpgrade (current s) (Some (propose v)) a (round + upgrade_vote_rounds p) (round + upgrade_vote_rounds p + wait p v)) round) round
    = (mkUpgrade (current s) (Some (propose v)) a (round + upgrade_vote_rounds p) (round + upgrade_vote_rounds p + wait p v), Ok tt)).
  { intros a. unfold clear_failed. cbn [vote_before approvals current].
    replace (round =? round + upgrade_vote_rounds p) with false by (symmetry; apply N.eqb_neq; lia). cbn [andb].
    unfold switch_over. cbn [switch_on]. replace (round =? round + upgrade_vote_rounds p + wait p v) with false by (symmetry; apply N.eqb_neq; lia). reflexivity. }
  destruct (approve v).
  - rewrite Hv. replace (round + upgrade_vote_rounds p <=? round) with false by (symmetry; apply N.leb_gt; lia).
    change (add64 m 0 1) with (Some 1). apply Hfin.
  - apply Hfin.
Qed.
Lemma approve_lemma table m s n round v p : lookup (current s) table = Some p -> pending s n -> v = mkVote (current s) 0 true ->
  round < vote_before s -> vote_before s <= switch_on s -> approvals s + 1 < 2 ^ 64 ->
  apply_upgrade_vote table m s round v = (mkUpgrade (current s) (Some n) (approvals s + 1) (vote_before s) (switch_on s), Ok tt).
Proof.
  intros Hp [Hn Hnc] -> Hr Hs Ha. unfold apply_upgrade_vote. rewrite Hp. unfold apply_proposal. cbn [propose delay]. rewrite veqb_refl. cbn [negb N.eqb].
  unfold apply_approval. cbn [approve]. unfold is_next. rewrite Hn. replace (version_eqb n (current s)) with false by (symmetry; apply veqb_false; exact Hnc).
  replace (vote_before s <=? round) with false by (symmetry; apply N.leb_gt; exact Hr). rewrite (add64_fits m _ _ Ha).
  unfold clear_failed. cbn [vote_before approvals]. replace (round =? vote_before s) with false by (symmetry; apply N.eqb_neq; lia). cbn [andb].
  unfold switch_over. cbn [switch_on]. replace (round =? switch_on s) with false by (symmetry; apply N.eqb_neq; lia). reflexivity.
Qed.
Lemma history_step table m s round v c ev s' s'' : apply_upgrade_vote table m s round v = (s', Ok tt) -> c = current s' ->
  history table m s' (round + 1) ev s'' -> history table m s round (mkEvent v c :: ev) s''.
Proof. intros Ha -> Hh. econstructor; eassumption. Qed.
