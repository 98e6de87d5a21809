(** Property C146: rewards across accounts. *)
From Verif Require Import Base BasicsModel BasicsSpec BasicsProps RewardsModel RewardsProps ConsensusModel ConfigProofs LedgerSpec LedgerProofs.
Local Open Scope N_scope.

(** C146.  Whatever rounds pass and whichever accounts are touched, the money of all accounts and the residue
    together grow by exactly what was handed out, as long as it all fits 64 bits. *)
Theorem c146_conserved :
  forall (m : mode) (p : params) (l : list event) (b b' : book) (w paid : N),
  reward_unit p <> 0 -> Forall (fun e => reward_unit (event_params e) = reward_unit p) l ->
  book_ok b -> all_money Debug p (bk_accounts b) (level (bk_rewards b)) = Some w ->
  events m b l = Some (b', paid) -> w + residue (bk_rewards b) + paid < 2 ^ 64 ->
  book_ok b' /\ exists w', (forall m', all_money m' p (bk_accounts b') (level (bk_rewards b')) = Some w') /\
    w' + residue (bk_rewards b') = w + residue (bk_rewards b) + paid.
Proof. exact (fun m p l b b' w paid Hu Hf Hb Hw E Hs => book_conserved m (reward_unit p) l b b' paid w p eq_refl Hu Hf Hb Hw Hs E). Qed.
Print Assumptions c146_conserved.

(** Touching an account never fails meanwhile. *)
Theorem c146_touch_succeeds :
  forall (m : mode) (p : params) (b : book) (i : nat) (w : N),
  reward_unit p <> 0 -> book_ok b -> all_money Debug p (bk_accounts b) (level (bk_rewards b)) = Some w -> w < 2 ^ 64 ->
  exists b', event_step m b (Touch p i) = Some (b', 0).
Proof. exact touch_succeeds. Qed.
Print Assumptions c146_touch_succeeds.

(** C146.  An account that is touched more often has at least as much money. *)
Theorem c146_more_often :
  forall (p : params) (a : account) (ls ls' : list N) (to : N) (b' : account) (y r : N),
  reward_unit p <> 0 -> to < 2 ^ 64 -> account_ok a -> among ls ls' -> rising (rewards_base a) ls' to ->
  touched Debug p a ls' = Some b' -> money Debug p b' to = Some (y, r) ->
  exists b x r', touched Debug p a ls = Some b /\ money Debug p b to = Some (x, r') /\ x <= y.
Proof. exact more_often. Qed.
Print Assumptions c146_more_often.

(** C146.  All built-in protocols have one reward unit, so upgrades do not matter. *)
Theorem c146_one_unit : forall v p, lookup v built_in = Some p -> reward_unit p = 1000000.
Proof. exact one_unit. Qed.
Print Assumptions c146_one_unit.

(** Three accounts, one of which does not participate; two rounds with an upgrade between them; the first
    account is touched in time to earn more in the second round. *)
Definition older : params := match lookup V17 built_in with Some p => p | None => v30 end.
Definition ex_acct (s : status) (algos base : N) : account := mkAccount s algos base 0 [] [] 0 0 0 [] [] [] [] [] (mkSchema 0 0) 0.
Definition ex_book : book :=
  mkBook (mkRewards zero32 zero32 100 3000000 1 5000) [ex_acct Online 2500000 90; ex_acct Offline 1000000 100; ex_acct NotParticipating 7000000 0].
Definition ex_events : list event := [NewRound 11 older 0; Touch older 0; Touch v30 2; NewRound 12 v30 0; Touch v30 1].
Example c146_case :
  book_ok ex_book /\ Forall (fun e => reward_unit (event_params e) = reward_unit v30) ex_events /\
  all_money Debug v30 (bk_accounts ex_book) 100 = Some 10500020 /\
  match events Debug ex_book ex_events with
  | Some (b, paid) =>
      paid = 6000000 /\ level (bk_rewards b) = 1600100 /\ residue (bk_rewards b) = 1 /\ map micro_algos (bk_accounts b) = [4500020; 2600000; 7000000] /\
      all_money Release v30 (bk_accounts b) (level (bk_rewards b)) = Some 16500020
  | None => False
  end.
Proof.
  split; [split; [reflexivity|repeat constructor; cbn; try discriminate; intros; lia]|].
  split; [repeat constructor; vm_compute; reflexivity|]. split; [vm_compute; reflexivity|]. vm_compute. repeat split; reflexivity.
Qed.
Example c146_often_case :
  among [2000100] [1000100; 2000100] /\ rising 100 [1000100; 2000100] 3000100 /\
  option_map micro_algos (touched Debug v30 (ex_acct Online 1500000 100) [1000100; 2000100]) = Some 4500000 /\
  option_map micro_algos (touched Debug v30 (ex_acct Online 1500000 100) [2000100]) = Some 3500000.
Proof. repeat split; try (vm_compute; reflexivity); try (vm_compute; discriminate). apply AmongSkip, AmongKeep, AmongNil. Qed.
