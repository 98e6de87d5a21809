(** Rewards across accounts. *)
From Verif Require Import Base BasicsModel BasicsSpec BasicsProofs RewardsModel RewardsSpec RewardsProofs ConsensusModel ConfigProofs LedgerSpec.
Local Open Scope N_scope.

(** What an account owns at a level. *)
Definition worth (u : N) (a : account) (l : N) : N :=
  if participating a then micro_algos a + micro_algos a / u * (l - rewards_base a) else micro_algos a.
Fixpoint all_worth (u : N) (l : list account) (lv : N) : N :=
  match l with [] => 0 | a :: r => worth u a lv + all_worth u r lv end.

Definition acct_ok (lv : N) (a : account) : Prop :=
  micro_algos a < 2 ^ 64 /\ rewards_base a < 2 ^ 64 /\ rewarded_micro_algos a < 2 ^ 64 /\ (participating a = true -> rewards_base a <= lv).

Lemma part_true a : participating a = true <-> acc_status a <> NotParticipating.
Proof. unfold participating. destruct (acc_status a); split; congruence. Qed.
Lemma part_false a : participating a = false <-> acc_status a = NotParticipating.
Proof. unfold participating. destruct (acc_status a); split; congruence. Qed.

Lemma update_worth m p a lv : reward_unit p <> 0 -> lv < 2 ^ 64 -> acct_ok lv a -> worth (reward_unit p) a lv < 2 ^ 64 ->
  exists a', with_updated_rewards m p a lv = Some a' /\ micro_algos a' = worth (reward_unit p) a lv /\ acct_ok lv a' /\
    acc_status a' = acc_status a /\ (participating a = true -> rewards_base a' = lv) /\ (participating a = false -> a' = a).
Proof.
  intros Hu Hl (A1 & A2 & A3 & A4) Hw. unfold worth in *. destruct (participating a) eqn:Ep.
  - eexists. split; [apply credit_lemma|].
    + repeat split; assumption.
    + exact Hl.
    + apply part_true. exact Ep.
    + split; [exact Hu|]. split; [exact (A4 eq_refl)|exact Hw].
    + unfold credited, acct_ok, participating, earned. cbn [micro_algos acc_status rewards_base rewarded_micro_algos].
      repeat split; try reflexivity; try assumption; try discriminate; try (apply N.mod_lt; discriminate); intros; lia.
  - exists a. rewrite nonparticipating_lemma by (apply part_false; exact Ep). unfold acct_ok. rewrite Ep. repeat split; auto; discriminate.
Qed.
Lemma money_worth m p a lv : reward_unit p <> 0 -> lv < 2 ^ 64 -> acct_ok lv a -> worth (reward_unit p) a lv < 2 ^ 64 ->
  exists r, money m p a lv = Some (worth (reward_unit p) a lv, r).
Proof. intros. destruct (update_worth m p a lv) as (a' & E & E' & _); try assumption. unfold money. rewrite E, E'. eauto. Qed.
Lemma all_money_worth m p lv : reward_unit p <> 0 -> lv < 2 ^ 64 -> forall l, Forall (acct_ok lv) l -> all_worth (reward_unit p) l lv < 2 ^ 64 ->
  all_money m p l lv = Some (all_worth (reward_unit p) l lv).
Proof.
  intros Hu Hl. induction l as [|a l IH]; intros F Hw; [reflexivity|]. cbn [all_money all_worth] in *.
  destruct (money_worth m p a lv Hu Hl (Forall_inv F)) as [r E]; [lia|]. rewrite E, IH; [reflexivity|exact (Forall_inv_tail F)|lia].
Qed.

Lemma touch_worth m p lv i : reward_unit p <> 0 -> lv < 2 ^ 64 -> forall l, Forall (acct_ok lv) l -> all_worth (reward_unit p) l lv < 2 ^ 64 ->
  exists l', touch m p lv i l = Some l' /\ Forall (acct_ok lv) l' /\ all_worth (reward_unit p) l' lv = all_worth (reward_unit p) l lv.
Proof.
  intros Hu Hl. revert i. induction i as [|i IH]; intros [|a l] F Hw; cbn [touch all_worth] in *; try (exists []; auto; fail).
  - destruct (update_worth m p a lv Hu Hl (Forall_inv F)) as (a' & E & E1 & E2 & E3 & E4 & E5); [lia|]. rewrite E.
    eexists. split; [reflexivity|]. split; [constructor; [exact E2|exact (Forall_inv_tail F)]|]. cbn [all_worth]. f_equal.
    unfold worth in *. assert (Ep : participating a' = participating a) by (unfold participating; rewrite E3; reflexivity). rewrite Ep.
    destruct (participating a); [rewrite (E4 eq_refl), N.sub_diag, N.mul_0_r; lia|exact E1].
  - destruct (IH l (Forall_inv_tail F)) as (l' & E & F' & W); [lia|]. rewrite E. eexists. split; [reflexivity|].
    split; [constructor; [exact (Forall_inv F)|exact F']|]. cbn [all_worth]. congruence.
Qed.

Lemma worth_rise p a lv lv' : acct_ok lv a -> lv <= lv' ->
  worth (reward_unit p) a lv' = worth (reward_unit p) a lv + (if participating a then micro_algos a / reward_unit p else 0) * (lv' - lv).
Proof.
  intros (_ & _ & _ & A) H. unfold worth. destruct (participating a); [|lia]. specialize (A eq_refl).
  generalize (micro_algos a / reward_unit p). intros k. replace (lv' - rewards_base a) with ((lv - rewards_base a) + (lv' - lv)) by lia. lia.
Qed.
Lemma all_worth_rise p lv lv' : lv <= lv' -> forall l, Forall (acct_ok lv) l ->
  all_worth (reward_unit p) l lv' = all_worth (reward_unit p) l lv + all_units p l * (lv' - lv).
Proof.
  intros H. induction l as [|a l IH]; intros F; cbn [all_worth all_units]; [lia|].
  rewrite (worth_rise p a lv lv' (Forall_inv F) H), (IH (Forall_inv_tail F)). lia.
Qed.
Lemma acct_ok_rise lv lv' a : lv <= lv' -> acct_ok lv a -> acct_ok lv' a.
Proof. intros H (A & B & C & D). repeat split; auto. intros E. specialize (D E). lia. Qed.

Lemma round_worth m p s r pool l s' : next_state m s r p pool (all_units p l) = Some s' -> level s < 2 ^ 64 -> Forall (acct_ok (level s)) l ->
  level s' < 2 ^ 64 /\ Forall (acct_ok (level s')) l /\
  all_worth (reward_unit p) l (level s') + residue s' = all_worth (reward_unit p) l (level s) + residue s + handed s (all_units p l).
Proof.
  intros E Hl F. unfold handed. destruct (N.eqb_spec (all_units p l) 0) as [Z|Z].
  - rewrite Z in E. destruct (no_units_lemma _ _ _ _ _ _ E) as [-> ->]. repeat split; auto. lia.
  - destruct ((rate s + residue s <? 2 ^ 64) && (level s + (rate s + residue s) / all_units p l <? 2 ^ 64)) eqn:B.
    + apply andb_true_iff in B as [B1 B2]. apply N.ltb_lt in B1, B2.
      destruct (conserved_lemma _ _ _ _ _ _ _ E Z (conj B1 B2)) as (L & C & R).
      assert (X : level s' = level s + (rate s + residue s) / all_units p l).
      { assert (Y : (level s' - level s) = (rate s + residue s) / all_units p l).
        { apply (N.div_unique _ _ _ (residue s')); [exact R|]. rewrite N.mul_comm. symmetry. exact C. }
        rewrite <- Y. lia. }
      split; [rewrite X; exact B2|]. split; [eapply Forall_impl; [|exact F]; intros a; apply acct_ok_rise; exact L|].
      rewrite (all_worth_rise p _ _ L l F). lia.
    + assert (NF : ~ level_fits s (all_units p l)).
      { intros [X Y]. apply N.ltb_lt in X, Y. rewrite X, Y in B. discriminate. }
      destruct (overflow_lemma _ _ _ _ _ _ _ E Z NF) as [-> ->]. repeat split; auto. lia.
Qed.

Lemma events_worth m u : u <> 0 -> forall l b b' paid, Forall (fun e => reward_unit (event_params e) = u) l ->
  level (bk_rewards b) < 2 ^ 64 -> Forall (acct_ok (level (bk_rewards b))) (bk_accounts b) ->
  events m b l = Some (b', paid) -> all_worth u (bk_accounts b) (level (bk_rewards b)) + residue (bk_rewards b) + paid < 2 ^ 64 ->
  level (bk_rewards b') < 2 ^ 64 /\ Forall (acct_ok (level (bk_rewards b'))) (bk_accounts b') /\
  all_worth u (bk_accounts b') (level (bk_rewards b')) + residue (bk_rewards b') =
    all_worth u (bk_accounts b) (level (bk_rewards b)) + residue (bk_rewards b) + paid.
Proof.
  intros Hu. induction l as [|e l IH]; intros b b' paid Fp Hl F E W; cbn [events] in E.
  - injection E as <- <-. repeat split; auto. lia.
  - destruct (event_step m b e) as [[b1 x]|] eqn:Es; [|discriminate]. destruct (events m b1 l) as [[b2 y]|] eqn:Er; [|discriminate].
    assert (b2 = b') as -> by congruence. assert (Ep : paid = x + y) by congruence. pose proof (Forall_inv Fp) as Eu.
    assert (S1 : level (bk_rewards b1) < 2 ^ 64 /\ Forall (acct_ok (level (bk_rewards b1))) (bk_accounts b1) /\
      all_worth u (bk_accounts b1) (level (bk_rewards b1)) + residue (bk_rewards b1) =
      all_worth u (bk_accounts b) (level (bk_rewards b)) + residue (bk_rewards b) + x).
    { destruct e as [r p pool|p i]; cbn [event_step event_params] in Es, Eu; subst u.
      - destruct (next_state _ _ _ _ _ _) as [s|] eqn:En; [|discriminate].
        assert (b1 = mkBook s (bk_accounts b)) as -> by congruence. assert (handed (bk_rewards b) (all_units p (bk_accounts b)) = x) as <- by congruence.
        cbn [bk_rewards bk_accounts]. apply (round_worth m p _ r pool); assumption.
      - destruct (touch_worth m p (level (bk_rewards b)) i Hu Hl (bk_accounts b) F) as (l' & E1 & F1 & W1); [lia|].
        rewrite E1 in Es. assert (b1 = mkBook (bk_rewards b) l') as -> by congruence. assert (x = 0) by congruence. subst x.
        cbn [bk_rewards bk_accounts]. repeat split; auto. rewrite W1. lia. }
    destruct S1 as (L1 & F1 & W1). destruct (IH b1 b' y (Forall_inv_tail Fp) L1 F1 Er) as (L2 & F2 & W2); [lia|]. repeat split; auto. lia.
Qed.

(** ** Touching more often *)
Lemma debug_update p a l a' : reward_unit p <> 0 -> account_ok a -> l < 2 ^ 64 -> with_updated_rewards Debug p a l = Some a' ->
  (participating a = false /\ a' = a) \/
  (participating a = true /\ rewards_base a <= l /\ micro_algos a' = micro_algos a + micro_algos a / reward_unit p * (l - rewards_base a) /\
   micro_algos a' < 2 ^ 64 /\ rewards_base a' = l /\ participating a' = true /\ account_ok a').
Proof.
  intros Hu A Hl E. destruct (participating a) eqn:Ep; [right|left].
  - destruct (with_updated_rewards Debug p a l) as [x|] eqn:E0; [|discriminate].
    assert (R : in_range p a l).
    { assert (D : in_range p a l \/ ~ in_range p a l).
      { unfold in_range. destruct (N.le_gt_cases (rewards_base a) l); [|right; lia].
        destruct (N.lt_ge_cases (micro_algos a + earned p a l) (2 ^ 64)); [left; auto|right; lia]. }
      destruct D as [D|D]; [exact D|]. exfalso. pose proof (proj2 (debug_panics_lemma p a l A Hl) (conj (proj1 (part_true a) Ep) D)). congruence. }
    rewrite (credit_lemma Debug p a l A Hl (proj1 (part_true a) Ep) R) in E0. assert (a' = credited a (earned p a l) l) as -> by congruence.
    destruct R as (_ & R1 & R2). destruct A as (A1 & A2 & A3). unfold earned in *.
    repeat split; cbn [credited micro_algos rewards_base rewarded_micro_algos acc_status]; try assumption; try lia;
      try (unfold participating in *; cbn [acc_status]; exact Ep).
    apply N.mod_lt. discriminate.
  - split; [reflexivity|]. rewrite nonparticipating_lemma in E by (apply part_false; exact Ep). congruence.
Qed.

Lemma all_money_debug p lv : reward_unit p <> 0 -> lv < 2 ^ 64 -> forall l w, Forall (acct_ok lv) l -> all_money Debug p l lv = Some w ->
  w = all_worth (reward_unit p) l lv.
Proof.
  intros Hu Hl. induction l as [|a l IH]; intros w F E; cbn [all_money all_worth] in *; [congruence|].
  destruct (money Debug p a lv) as [[x r]|] eqn:Em; [|discriminate]. destruct (all_money Debug p l lv) as [y|] eqn:Ey; [|discriminate].
  rewrite <- (IH y (Forall_inv_tail F) eq_refl). assert (w = x + y) as -> by congruence. f_equal.
  unfold money in Em. destruct (with_updated_rewards Debug p a lv) as [e|] eqn:E0; [|discriminate]. assert (x = micro_algos e) as -> by congruence.
  destruct (Forall_inv F) as (A1 & A2 & A3 & _).
  destruct (debug_update p a lv e Hu (conj A1 (conj A2 A3)) Hl E0) as [[P ->]|(P & _ & X & _)]; unfold worth; rewrite P; [reflexivity|exact X].
Qed.
Lemma book_conserved m u l b b' paid w p : reward_unit p = u -> u <> 0 -> Forall (fun e => reward_unit (event_params e) = u) l ->
  book_ok b -> all_money Debug p (bk_accounts b) (level (bk_rewards b)) = Some w -> w + residue (bk_rewards b) + paid < 2 ^ 64 ->
  events m b l = Some (b', paid) ->
  book_ok b' /\ exists w', (forall m', all_money m' p (bk_accounts b') (level (bk_rewards b')) = Some w') /\
    w' + residue (bk_rewards b') = w + residue (bk_rewards b) + paid.
Proof.
  intros <- Hu Fp [Hl F] Ew W E. change (Forall (acct_ok (level (bk_rewards b))) (bk_accounts b)) in F.
  apply (all_money_debug p _ Hu Hl _ _ F) in Ew. subst w.
  destruct (events_worth m _ Hu l b b' paid Fp Hl F E W) as (L' & F' & W').
  split; [split; assumption|]. eexists. split; [intros m'; apply all_money_worth; try assumption; lia|]. exact W'.
Qed.
Lemma touch_succeeds m p b i w : reward_unit p <> 0 -> book_ok b -> all_money Debug p (bk_accounts b) (level (bk_rewards b)) = Some w -> w < 2 ^ 64 ->
  exists b', event_step m b (Touch p i) = Some (b', 0).
Proof.
  intros Hu [Hl F] Ew W. apply (all_money_debug p _ Hu Hl _ _ F) in Ew. subst w.
  cbn [event_step]. destruct (touch_worth m p _ i Hu Hl _ F W) as (l' & -> & _). eauto.
Qed.

(** [b] is at least as well off as [a] from the base of [b] on. *)
Definition ahead (u : N) (a b : account) : Prop :=
  participating a = true /\ participating b = true /\ account_ok a /\ account_ok b /\ rewards_base a <= rewards_base b /\
  micro_algos a + micro_algos a / u * (rewards_base b - rewards_base a) <= micro_algos b.

Lemma ahead_worth u a b l : u <> 0 -> ahead u a b -> rewards_base b <= l -> worth u a l <= worth u b l.
Proof.
  intros Hu (P & Q & _ & _ & H1 & H2) Hl. unfold worth. rewrite P, Q.
  replace (l - rewards_base a) with ((rewards_base b - rewards_base a) + (l - rewards_base b)) by lia.
  assert (M : micro_algos a / u <= micro_algos b / u) by (apply N.div_le_mono; [exact Hu|]; revert H2; generalize (micro_algos a / u * (rewards_base b - rewards_base a)); intros; lia).
  pose proof (N.mul_le_mono_r _ _ (l - rewards_base b) M). rewrite N.mul_add_distr_l. lia.
Qed.

Lemma touched_more p to : reward_unit p <> 0 -> to < 2 ^ 64 -> forall ls' ls, among ls ls' -> forall a b from b' y r,
  ahead (reward_unit p) a b -> rewards_base b <= from -> rising from ls' to ->
  touched Debug p b ls' = Some b' -> money Debug p b' to = Some (y, r) ->
  exists a' x r', touched Debug p a ls = Some a' /\ money Debug p a' to = Some (x, r') /\ x <= y.
Proof.
  intros Hu Hto. assert (Rl : forall ls from, rising from ls to -> from <= to).
  { induction ls as [|l ls IH]; cbn; intros from; [auto|]. intros [A B]. specialize (IH _ B). lia. }
  induction 1 as [|l ls ls' Ha IH|l ls ls' Ha IH]; intros a b from b' y r Hab Hb Hr Et Em.
  - cbn [touched] in Et. injection Et as <-. exists a. cbn [touched].
    pose proof (ahead_worth _ a b to Hu Hab) as W. cbn [rising] in Hr. specialize (W ltac:(clear - Hb Hr; lia)).
    destruct Hab as (P & Q & (A1 & A2 & A3) & (B1 & B2 & B3) & H1 & H2).
    unfold money in Em. destruct (with_updated_rewards Debug p b to) as [e|] eqn:E; [|discriminate].
    destruct (debug_update p b to e Hu (conj B1 (conj B2 B3)) Hto E) as [[X _]|(_ & X1 & X2 & X3 & _)]; [congruence|].
    assert (Wb : worth (reward_unit p) b to = micro_algos e) by (unfold worth; rewrite Q, X2; reflexivity).
    assert (y = micro_algos e) as -> by congruence. rewrite Wb in W. clear X2 Wb Em E H2.
    assert (Hle : rewards_base a <= to) by (clear W X3; lia).
    destruct (money_worth Debug p a to Hu Hto) as [r' Em']; [exact (conj A1 (conj A2 (conj A3 (fun _ => Hle))))|exact (N.le_lt_trans _ _ _ W X3)|].
    exists (worth (reward_unit p) a to), r'. auto.
  - cbn [touched rising] in Et, Hr. destruct Hr as [Hr1 Hr2]. destruct (with_updated_rewards Debug p b l) as [b1|] eqn:E; [|discriminate].
    pose proof (Rl _ _ Hr2) as Hlt. destruct Hab as (P & Q & A & B & H1 & H2).
    destruct (debug_update p b l b1 Hu B ltac:(clear - Hlt Hto; lia) E) as [[X _]|(_ & X1 & X2 & X3 & X4 & X5 & X6)]; [congruence|].
    apply (IH a b1 l b' y r); try assumption; [|rewrite X4; apply N.le_refl].
    split; [exact P|]. split; [exact X5|]. split; [exact A|]. split; [exact X6|]. split; [rewrite X4; clear - H1 X1; lia|].
    pose proof (ahead_worth (reward_unit p) a b l Hu (conj P (conj Q (conj A (conj B (conj H1 H2))))) ltac:(clear - Hb Hr1; lia)) as W.
    unfold worth in W. rewrite P, Q in W. rewrite X4, X2. exact W.
  - cbn [touched rising] in Et, Hr |- *. destruct Hr as [Hr1 Hr2]. destruct (with_updated_rewards Debug p b l) as [b1|] eqn:E; [|discriminate].
    pose proof (Rl _ _ Hr2) as Hlt. pose proof (ahead_worth (reward_unit p) a b l Hu Hab ltac:(clear - Hb Hr1; lia)) as W.
    destruct Hab as (P & Q & A & B & H1 & H2).
    destruct (debug_update p b l b1 Hu B ltac:(clear - Hlt Hto; lia) E) as [[X _]|(_ & X1 & X2 & X3 & X4 & X5 & X6)]; [congruence|].
    assert (Wb : worth (reward_unit p) b l = micro_algos b1) by (unfold worth; rewrite Q, X2; reflexivity).
    destruct A as (A1 & A2 & A3).
    rewrite Wb in W. assert (Hle : rewards_base a <= l) by (clear - H1 X1; lia). assert (Hl : l < 2 ^ 64) by (clear - Hlt Hto; lia).
    destruct (update_worth Debug p a l Hu Hl) as (a1 & Ea & Y1 & (Y2 & Y3 & Y4 & Y5) & Y6 & Y7 & _);
      [exact (conj A1 (conj A2 (conj A3 (fun _ => Hle))))|exact (N.le_lt_trans _ _ _ W X3)|].
    rewrite Ea. specialize (Y7 P). apply (IH a1 b1 l b' y r); try assumption; [|rewrite X4; apply N.le_refl].
    split; [unfold participating in *; rewrite Y6; exact P|]. split; [exact X5|]. split; [exact (conj Y2 (conj Y3 Y4))|]. split; [exact X6|].
    rewrite X4, Y7, N.sub_diag, N.mul_0_r, N.add_0_r, Y1. split; [apply N.le_refl|exact W].
Qed.

Lemma touched_idle p a : participating a = false -> forall ls, touched Debug p a ls = Some a.
Proof. intros H. induction ls as [|l ls IH]; [reflexivity|]. cbn [touched]. rewrite nonparticipating_lemma by (apply part_false; exact H). exact IH. Qed.

Lemma more_often p a ls ls' to b' y r : reward_unit p <> 0 -> to < 2 ^ 64 -> account_ok a ->
  among ls ls' -> rising (rewards_base a) ls' to ->
  touched Debug p a ls' = Some b' -> money Debug p b' to = Some (y, r) ->
  exists b x r', touched Debug p a ls = Some b /\ money Debug p b to = Some (x, r') /\ x <= y.
Proof.
  intros Hu Hto A Ha Hr Et Em. destruct (participating a) eqn:Ep.
  - apply (touched_more p to Hu Hto ls' ls Ha a a (rewards_base a) b' y r); auto; [|lia].
    split; [exact Ep|]. split; [exact Ep|]. split; [exact A|]. split; [exact A|]. rewrite N.sub_diag, N.mul_0_r, N.add_0_r. split; apply N.le_refl.
  - rewrite (touched_idle p a Ep) in *. assert (b' = a) as -> by congruence. exists a, y, r. repeat split; auto. lia.
Qed.
Lemma one_unit v p : lookup v built_in = Some p -> reward_unit p = 1000000.
Proof.
  intros E. apply lookup_In in E. assert (F : forallb (fun vp => reward_unit (snd vp) =? 1000000) built_in = true) by (vm_compute; reflexivity).
  rewrite forallb_forall in F. specialize (F _ E). apply N.eqb_eq in F. exact F.
Qed.
