(** Proofs about normalized balances and about rewards of money that is split. *)
From Verif Require Import Base BaseFacts BasicsModel BasicsSpec BasicsProofs RewardsModel LedgerSpec.
Local Open Scope N_scope.

Lemma normalized_value p a n : acc_status a = Online -> normalized_online_balance Debug p a = Some n ->
  reward_unit p + rewards_base a <> 0 /\ n = micro_algos a * reward_unit p / (reward_unit p + rewards_base a).
Proof.
  intros Hs. unfold normalized_online_balance. rewrite Hs. unfold add64.
  destruct (N.ltb_spec (rewards_base a + reward_unit p) two64); [|discriminate].
  destruct (N.ltb_spec (micro_algos a * reward_unit p) two64); [|discriminate].
  destruct (N.eqb_spec (rewards_base a + reward_unit p) 0); [discriminate|]. intros E. injection E as <-.
  split; [lia|]. rewrite (N.add_comm (reward_unit p)). reflexivity.
Qed.

Lemma updated_value p a level a' : account_ok a -> level < two64 -> acc_status a <> NotParticipating ->
  with_updated_rewards Debug p a level = Some a' ->
  reward_unit p <> 0 /\ rewards_base a <= level /\ a' = credited a (earned p a level) level.
Proof.
  intros Ha Hl Hs E.
  assert (Hr : reward_unit p <> 0 /\ rewards_base a <= level /\ micro_algos a + earned p a level < two64).
  { revert E. unfold with_updated_rewards, earned. destruct (acc_status a); [| |congruence];
      (unfold reward_units, div64; destruct (N.eqb_spec (reward_unit p) 0); [discriminate|];
       unfold sub64; destruct (N.leb_spec (rewards_base a) level); [|discriminate];
       unfold mul64; destruct (N.ltb_spec (micro_algos a / reward_unit p * (level - rewards_base a)) two64); [|discriminate];
       unfold add64; destruct (N.ltb_spec (micro_algos a + micro_algos a / reward_unit p * (level - rewards_base a)) two64); [|discriminate];
       intros _; auto). }
  rewrite (credit_lemma Debug p a level Ha Hl Hs Hr) in E. injection E as <-.
  split; [apply Hr|]. split; [apply Hr|reflexivity].
Qed.

Lemma recovers_lemma p a level a' n : account_ok a -> level < two64 -> acc_status a = Online -> rewards_base a = 0 ->
  with_updated_rewards Debug p a level = Some a' -> normalized_online_balance Debug p a' = Some n ->
  micro_algos a / reward_unit p * reward_unit p <= n <= micro_algos a.
Proof.
  intros Ha Hl Hs H0 E En.
  destruct (updated_value p a level a' Ha Hl ltac:(congruence) E) as (Hu & _ & ->).
  destruct (normalized_value _ _ _ (eq_trans (eq_refl : acc_status (credited a (earned p a level) level) = acc_status a) Hs) En) as (Hd & ->).
  cbn [micro_algos credited rewards_base] in *. unfold earned. rewrite H0, N.sub_0_r.
  set (u := reward_unit p) in *. set (x := micro_algos a) in *.
  pose proof (N.div_mod x u Hu) as Ex. pose proof (N.mod_lt x u Hu) as Hr.
  set (q := x / u) in *. set (r := x mod u) in *. clearbody q r. rewrite Ex. clear - Hu Hr Hd.
  replace (u * q + r + q * level) with (q * (u + level) + r) by ring. split.
  - apply N.div_le_lower_bound; [exact Hd|]. nia.
  - apply N.div_le_upper_bound; [exact Hd|]. nia.
Qed.

Lemma whole_lemma p a level a' n : account_ok a -> level < two64 -> acc_status a = Online -> rewards_base a = 0 ->
  micro_algos a mod reward_unit p = 0 ->
  with_updated_rewards Debug p a level = Some a' -> normalized_online_balance Debug p a' = Some n -> n = micro_algos a.
Proof.
  intros Ha Hl Hs H0 Hw E En. pose proof (recovers_lemma p a level a' n Ha Hl Hs H0 E En) as H.
  destruct (updated_value p a level a' Ha Hl ltac:(congruence) E) as (Hu & _).
  pose proof (N.div_mod (micro_algos a) (reward_unit p) Hu) as Ex. rewrite Hw in Ex. lia.
Qed.

Lemma before_lemma p a b la lb a' b' x y : account_ok a -> account_ok b -> la < two64 -> lb < two64 ->
  acc_status a = Online -> acc_status b = Online -> rewards_base a = 0 -> rewards_base b = 0 ->
  with_updated_rewards Debug p a la = Some a' -> with_updated_rewards Debug p b lb = Some b' ->
  normalized_online_balance Debug p a' = Some x -> normalized_online_balance Debug p b' = Some y ->
  x + reward_unit p <= y -> micro_algos a < micro_algos b.
Proof.
  intros Ha Hb Hla Hlb Sa Sb Ba Bb Ea Eb Ex Ey Hxy.
  pose proof (recovers_lemma p a la a' x Ha Hla Sa Ba Ea Ex) as H1.
  pose proof (recovers_lemma p b lb b' y Hb Hlb Sb Bb Eb Ey) as H2.
  destruct (updated_value p a la a' Ha Hla ltac:(congruence) Ea) as (Hu & _).
  pose proof (N.div_mod (micro_algos a) (reward_unit p) Hu) as Em. pose proof (N.mod_lt (micro_algos a) (reward_unit p) Hu). lia.
Qed.

Lemma order_lemma p a b level x y ma mb ra rb : account_ok a -> account_ok b -> level < two64 ->
  acc_status a = Online -> acc_status b = Online -> rewards_base a = rewards_base b ->
  normalized_online_balance Debug p a = Some x -> normalized_online_balance Debug p b = Some y -> x < y ->
  money Debug p a level = Some (ma, ra) -> money Debug p b level = Some (mb, rb) -> ma < mb.
Proof.
  intros Ha Hb Hl Sa Sb Eb Ex Ey Hxy. unfold money.
  destruct (with_updated_rewards Debug p a level) as [a'|] eqn:E1; [|discriminate].
  destruct (with_updated_rewards Debug p b level) as [b'|] eqn:E2; [|discriminate].
  intros M1 M2. injection M1 as <- <-. injection M2 as <- <-.
  destruct (updated_value p a level a' Ha Hl ltac:(congruence) E1) as (Hu & L1 & ->).
  destruct (updated_value p b level b' Hb Hl ltac:(congruence) E2) as (_ & L2 & ->).
  destruct (normalized_value p a x Sa Ex) as (Hd & ->). destruct (normalized_value p b y Sb Ey) as (_ & ->).
  cbn [micro_algos credited]. unfold earned. rewrite <- Eb in *.
  set (u := reward_unit p) in *. set (d := level - rewards_base a) in *. set (den := u + rewards_base a) in *.
  assert (Hm : micro_algos a < micro_algos b).
  { destruct (N.lt_ge_cases (micro_algos a) (micro_algos b)) as [C|C]; [exact C|]. exfalso.
    assert (micro_algos b * u / den <= micro_algos a * u / den) by (apply N.div_le_mono; [exact Hd|nia]). lia. }
  assert (Hq : micro_algos a / u <= micro_algos b / u) by (apply N.div_le_mono; [exact Hu|lia]).
  assert (Hqd : micro_algos a / u * d <= micro_algos b / u * d) by (apply N.mul_le_mono_r; exact Hq). lia.
Qed.

(** What touching an account does to its normalized balance, in numbers. *)
Lemma touch_numbers u b l q r : u <> 0 -> b <= l -> r < u ->
  (u * q + r) * u / (u + b) <= (u * q + r + q * (l - b)) * u / (u + l) + r.
Proof.
  intros Hu Hb Hr. set (n' := _ / (u + l)).
  assert (Hn' : (u * q + r + q * (l - b)) * u < (u + l) * (n' + 1)).
  { unfold n'. pose proof (N.mul_succ_div_gt ((u * q + r + q * (l - b)) * u) (u + l) ltac:(lia)) as X.
    rewrite <- N.add_1_r in X. exact X. }
  clearbody n'. apply N.lt_succ_r. rewrite <- N.add_1_r. apply N.div_lt_upper_bound; [lia|].
  assert (Ed : exists d, l = b + d) by (exists (l - b); lia). destruct Ed as (d & ->).
  replace (b + d - b) with d in Hn' by lia.
  (* multiply by u + b *)
  assert (H1 : (u * q + q * d) * u < (u + b + d) * (n' + 1)) by nia.
  assert (H2 : u * q * u < (u + b) * (n' + 1)).
  { assert (X : (u + b) * ((u * q + q * d) * u) < (u + b) * ((u + b + d) * (n' + 1))) by (apply N.mul_lt_mono_pos_l; [lia|exact H1]).
    assert (Y : (u + b + d) * (u * q * u) <= (u + b) * ((u * q + q * d) * u)).
    { replace ((u + b) * ((u * q + q * d) * u)) with ((u + b + d) * (u * q * u) + b * q * d * u) by ring. lia. }
    apply (N.mul_lt_mono_pos_l (u + b + d)); [lia|].
    replace ((u + b + d) * ((u + b) * (n' + 1))) with ((u + b) * ((u + b + d) * (n' + 1))) by ring. lia. }
  nia.
Qed.

Lemma touched_lemma p a level a' n n' : account_ok a -> level < two64 -> acc_status a = Online ->
  with_updated_rewards Debug p a level = Some a' ->
  normalized_online_balance Debug p a = Some n -> normalized_online_balance Debug p a' = Some n' ->
  n <= n' + micro_algos a mod reward_unit p.
Proof.
  intros Ha Hl Hs E En En'.
  destruct (updated_value p a level a' Ha Hl ltac:(congruence) E) as (Hu & L & ->).
  destruct (normalized_value p a n Hs En) as (_ & ->).
  destruct (normalized_value _ _ _ (eq_trans (eq_refl : acc_status (credited a (earned p a level) level) = acc_status a) Hs) En') as (_ & ->).
  cbn [micro_algos credited rewards_base] in *. unfold earned.
  pose proof (N.div_mod (micro_algos a) (reward_unit p) Hu) as Ex. pose proof (N.mod_lt (micro_algos a) (reward_unit p) Hu) as Hr.
  pose proof (touch_numbers (reward_unit p) (rewards_base a) level (micro_algos a / reward_unit p) (micro_algos a mod reward_unit p) Hu L Hr) as X.
  rewrite <- Ex in X. exact X.
Qed.

(** ** Split money *)

Definition total (l : list account) : N := fold_right N.add 0 (map micro_algos l).
Definition total_units (u : N) (l : list account) : N := fold_right N.add 0 (map (fun a => micro_algos a / u) l).

Lemma floors u l : u <> 0 ->
  total_units u l <= total l / u /\ total l / u <= total_units u l + N.pred (N.of_nat (length l)).
Proof.
  intros Hu.
  assert (H : u * total_units u l <= total l /\ total l + N.of_nat (length l) <= u * (total_units u l + N.of_nat (length l))).
  { induction l as [|a l IH]; [cbn; lia|]. destruct IH as [I1 I2].
    cbn [total total_units map fold_right length] in *. fold (total l) in *. fold (total_units u l) in *.
    pose proof (N.div_mod (micro_algos a) u Hu) as Ex. pose proof (N.mod_lt (micro_algos a) u Hu) as Hr. nia. }
  destruct H as [H1 H2]. split.
  - apply N.div_le_lower_bound; assumption.
  - destruct l as [|a l]; [change (total []) with 0; rewrite N.div_0_l by exact Hu; lia|].
    apply N.lt_succ_r. rewrite <- N.add_1_r. apply N.div_lt_upper_bound; [exact Hu|].
    cbn [length] in *. nia.
Qed.

Lemma sum_money p l level base s : level < two64 ->
  Forall (fun a => account_ok a /\ participating a = true /\ rewards_base a = base) l ->
  all_money Debug p l level = Some s -> s = total l + total_units (reward_unit p) l * (level - base).
Proof.
  intros Hl. revert s. induction l as [|a l IH]; intros s Hf E; cbn [all_money] in E.
  - injection E as <-. reflexivity.
  - apply Forall_cons_iff in Hf as [(Ha & Hp & Hb) Hf]. unfold money in E.
    destruct (with_updated_rewards Debug p a level) as [a'|] eqn:E1; [|discriminate].
    destruct (all_money Debug p l level) as [y|]; [|discriminate]. injection E as <-.
    rewrite (IH y Hf eq_refl).
    assert (Hs : acc_status a <> NotParticipating) by (unfold participating in Hp; destruct (acc_status a); congruence).
    destruct (updated_value p a level a' Ha Hl Hs E1) as (_ & _ & ->). cbn [micro_algos credited]. unfold earned. rewrite Hb.
    cbn [total total_units map fold_right]. fold (total l) (total_units (reward_unit p) l). ring.
Qed.

Lemma split_rewards_lemma p l c level base s x r : level < two64 ->
  Forall (fun a => account_ok a /\ participating a = true /\ rewards_base a = base) (c :: l) ->
  micro_algos c = total l -> all_money Debug p l level = Some s -> money Debug p c level = Some (x, r) ->
  s <= x /\ x <= s + N.pred (N.of_nat (length l)) * (level - base).
Proof.
  intros Hl Hf Ht Es Ex. apply Forall_cons_iff in Hf as [(Hc & Hp & Hb) Hf].
  rewrite (sum_money p l level base s Hl Hf Es). unfold money in Ex.
  destruct (with_updated_rewards Debug p c level) as [c'|] eqn:E1; [|discriminate]. injection Ex as <- <-.
  assert (Hs : acc_status c <> NotParticipating) by (unfold participating in Hp; destruct (acc_status c); congruence).
  destruct (updated_value p c level c' Hc Hl Hs E1) as (Hu & _ & ->). cbn [micro_algos credited]. unfold earned. rewrite Hb, Ht.
  destruct (floors (reward_unit p) l Hu) as [F1 F2]. nia.
Qed.
