From Verif Require Import Base BaseFacts RewardsModel RewardsSpec.
Local Open Scope N_scope.

Lemma checked_add_ok a b : a + b < 2 ^ 64 -> checked_add a b = Some (a + b).
Proof. intros Hl. unfold checked_add. change two64 with (2 ^ 64). apply N.ltb_lt in Hl. rewrite Hl. reflexivity. Qed.
Lemma checked_add_none a b : 2 ^ 64 <= a + b -> checked_add a b = None.
Proof. intros Hl. unfold checked_add. change two64 with (2 ^ 64). apply N.ltb_ge in Hl. rewrite Hl. reflexivity. Qed.

Definition same_level (s s' : rewards_state) : Prop := level s' = level s /\ residue s' = residue s.
Lemma refresh_level m s r p pool n : refresh m s r p pool = Some n -> same_level s n.
Proof.
  unfold refresh. destruct (div64 _ _) as [x|]; [|discriminate]. destruct (add64 _ _ _) as [y|]; [|discriminate]. intros E.
  assert (n = mkRewards (rs_fee_sink s) (rs_rewards_pool s) (level s) x (residue s) y) as -> by congruence. split; reflexivity.
Qed.
Lemma refreshed_level m s r p pool n : (if r =? recalculation_round s then refresh m s r p pool else Some s) = Some n -> same_level s n.
Proof. destruct (r =? _); [apply refresh_level|]. intros E. assert (n = s) as -> by congruence. split; reflexivity. Qed.

Lemma conserved_lemma m s r p pool units s' : next_state m s r p pool units = Some s' -> units <> 0 -> level_fits s units ->
  level s <= level s' /\ (level s' - level s) * units + residue s' = rate s + residue s /\ residue s' < units.
Proof.
  intros E Hu [H1 H2]. unfold next_state in E.
  destruct (if r =? recalculation_round s then _ else _) as [n|] eqn:En; [|discriminate].
  apply N.eqb_neq in Hu. rewrite Hu in E. rewrite (checked_add_ok _ _ H1), (checked_add_ok _ _ H2) in E.
  assert (s' = mkRewards (rs_fee_sink n) (rs_rewards_pool n) (level s + (rate s + residue s) / units) (rate n) ((rate s + residue s) mod units) (recalculation_round n)) as -> by congruence.
  cbn [level residue]. apply N.eqb_neq in Hu. split; [apply N.le_add_r|].
  replace (level s + (rate s + residue s) / units - level s) with ((rate s + residue s) / units) by (generalize ((rate s + residue s) / units); intros; lia).
  split; [|apply N.mod_lt; exact Hu]. rewrite N.mul_comm. symmetry. apply N.div_mod'.
Qed.
Lemma no_units_lemma m s r p pool s' : next_state m s r p pool 0 = Some s' -> level s' = level s /\ residue s' = residue s.
Proof.
  intros E. unfold next_state in E. destruct (if r =? recalculation_round s then _ else _) as [n|] eqn:En; [|discriminate].
  cbn [N.eqb] in E. assert (s' = n) as -> by congruence. exact (refreshed_level _ _ _ _ _ _ En).
Qed.
Lemma overflow_lemma m s r p pool units s' : next_state m s r p pool units = Some s' -> units <> 0 -> ~ level_fits s units ->
  level s' = level s /\ residue s' = residue s.
Proof.
  intros E Hu Hn. unfold next_state in E. destruct (if r =? recalculation_round s then _ else _) as [n|] eqn:En; [|discriminate].
  apply refreshed_level in En. apply N.eqb_neq in Hu. rewrite Hu in E.
  destruct (N.lt_ge_cases (rate s + residue s) (2 ^ 64)) as [H1|H1].
  - rewrite (checked_add_ok _ _ H1) in E. destruct (N.lt_ge_cases (level s + (rate s + residue s) / units) (2 ^ 64)) as [H2|H2].
    + exfalso. apply Hn. split; assumption.
    + rewrite (checked_add_none _ _ H2) in E. assert (s' = n) as -> by congruence. exact En.
  - rewrite (checked_add_none _ _ H1) in E. assert (s' = n) as -> by congruence. exact En.
Qed.
Lemma rate_lemma m s r p pool units s' : next_state m s r p pool units = Some s' -> r <> recalculation_round s ->
  rate s' = rate s /\ recalculation_round s' = recalculation_round s.
Proof.
  intros E Hr. unfold next_state in E. apply N.eqb_neq in Hr. rewrite Hr in E.
  destruct (units =? 0); [assert (s' = s) as -> by congruence; split; reflexivity|].
  destruct (checked_add _ _) as [t|]; [|assert (s' = s) as -> by congruence; split; reflexivity].
  destruct (checked_add (level s) _) as [l|]; [|assert (s' = s) as -> by congruence; split; reflexivity].
  assert (s' = mkRewards (rs_fee_sink s) (rs_rewards_pool s) l (rate s) (t mod units) (recalculation_round s)) as -> by congruence. split; reflexivity.
Qed.
Lemma rounds_lemma m s l s' : rounds m s l s' -> exists paid rates, handed_out m s l paid rates /\ paid + residue s' = rates + residue s.
Proof.
  induction 1 as [s|s i s' l s'' Hu Hf Hn Hr [paid [rates [Hh IH]]]].
  - exists 0, 0. split; [constructor|reflexivity].
  - exists ((level s' - level s) * in_units i + paid), (rate s + rates). split; [econstructor; eassumption|].
    destruct (conserved_lemma _ _ _ _ _ _ _ Hn Hu Hf) as [_ [E _]]. lia.
Qed.

(** ** The new rate *)
Lemma new_rate_lemma m s p pool units s' : next_state m s (recalculation_round s) p pool units = Some s' ->
  pool + min_balance p + residue s < 2 ^ 64 ->
  rate s' = (pool + (min_balance p + if pending_residue_rewards p then residue s else 0)) / rewards_rate_refresh_interval p /\
  rewards_rate_refresh_interval p <> 0.
Proof.
  intros E Hl. unfold next_state in E. rewrite N.eqb_refl in E. destruct (refresh m s _ p pool) as [n|] eqn:En; [|discriminate].
  assert (Hn : rate n = (pool + (min_balance p + if pending_residue_rewards p then residue s else 0)) / rewards_rate_refresh_interval p /\ rewards_rate_refresh_interval p <> 0).
  { unfold refresh in En.
    assert (Eo : (if pending_residue_rewards p then match checked_add (min_balance p) (residue s) with Some n => n | None => pool end else min_balance p)
                 = min_balance p + if pending_residue_rewards p then residue s else 0).
    { destruct (pending_residue_rewards p); [|lia]. rewrite (checked_add_ok (min_balance p) (residue s)) by lia. reflexivity. }
    rewrite Eo in En. rewrite (checked_add_ok pool) in En by (destruct (pending_residue_rewards p); lia).
    unfold div64 in En. destruct (N.eqb_spec (rewards_rate_refresh_interval p) 0) as [|Hz]; [discriminate|].
    destruct (add64 m _ _) as [nx|]; [|discriminate].
    match type of En with Some ?x = _ => assert (n = x) as -> by congruence end. split; [reflexivity|exact Hz]. }
  assert (Hs : rate s' = rate n).
  { destruct (units =? 0); [congruence|]. destruct (checked_add _ _); [|congruence]. destruct (checked_add (level s) _); [|congruence].
    match type of E with Some ?x = _ => assert (s' = x) as -> by congruence end. reflexivity. }
  rewrite Hs. exact Hn.
Qed.
Lemma funded_partial m s p pool units s' : next_state m s (recalculation_round s) p pool units = Some s' ->
  pool + min_balance p + residue s < 2 ^ 64 ->
  rate s' * rewards_rate_refresh_interval p <= pool + min_balance p + (if pending_residue_rewards p then residue s else 0).
Proof.
  intros E Hl. destruct (new_rate_lemma _ _ _ _ _ _ E Hl) as [-> Hz]. rewrite N.mul_comm. etransitivity; [apply N.mul_div_le; exact Hz|]. lia.
Qed.
Lemma funded_zero m s p pool units s' : next_state m s (recalculation_round s) p pool units = Some s' ->
  pool + min_balance p + residue s < 2 ^ 64 ->
  min_balance p = 0 -> (pending_residue_rewards p = true -> residue s = 0) ->
  rate s' * rewards_rate_refresh_interval p <= spendable p pool (residue s).
Proof.
  intros E Hl Hm Hr. pose proof (funded_partial _ _ _ _ _ _ E Hl) as B. unfold spendable. rewrite Hm in *.
  destruct (pending_residue_rewards p); [rewrite (Hr eq_refl) in *|]; lia.
Qed.

Ltac not_none := match goal with |- ?t = None <-> _ => let X := fresh in assert (X : t <> None)
  by (destruct (_ =? 0); [discriminate|]; destruct (checked_add _ _); [|discriminate]; destruct (checked_add _ _); discriminate); split; [intros; contradiction|] end.
Lemma panic_iff m s r p pool units : next_state m s r p pool units = None <->
  r = recalculation_round s /\ (rewards_rate_refresh_interval p = 0 \/ (m = Debug /\ 2 ^ 64 <= r + rewards_rate_refresh_interval p)).
Proof.
  unfold next_state. destruct (N.eqb_spec r (recalculation_round s)) as [E|E].
  - unfold refresh. cbv zeta. generalize (match checked_add pool (if pending_residue_rewards p then match checked_add (min_balance p) (residue s) with Some n => n | None => pool end else min_balance p) with Some n => n | None => 0 end).
    intros x. unfold div64. destruct (N.eqb_spec (rewards_rate_refresh_interval p) 0) as [Z|Z]; [split; [auto|reflexivity]|].
    unfold add64. change two64 with (2 ^ 64). destruct (N.ltb_spec (r + rewards_rate_refresh_interval p) (2 ^ 64)) as [L|L]; cbv beta iota.
    + not_none. intros [_ [H1|[_ H1]]]; [contradiction|lia].
    + destruct m.
      * split; [auto|reflexivity].
      * not_none. intros [_ [H1|[H1 _]]]; [contradiction|discriminate].
  - not_none. tauto.
Qed.
