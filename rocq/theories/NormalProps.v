(** Properties C158 and C159: normalized balances, and rewards of money that is split. *)
From Verif Require Import Base BasicsModel BasicsSpec BasicsProps RewardsModel LedgerSpec NormalProofs.
Local Open Scope N_scope.

(** C158.  The normalized balance of an account that had a balance at level 0 and got its rewards is that balance, up to
    what it had beyond whole units. *)
Theorem c158_recovers : forall p a level a' n,
  account_ok a -> level < 2 ^ 64 -> acc_status a = Online -> rewards_base a = 0 ->
  with_updated_rewards Debug p a level = Some a' -> normalized_online_balance Debug p a' = Some n ->
  micro_algos a / reward_unit p * reward_unit p <= n <= micro_algos a.
Proof. exact recovers_lemma. Qed.
Print Assumptions c158_recovers.

Theorem c158_whole_units : forall p a level a' n,
  account_ok a -> level < 2 ^ 64 -> acc_status a = Online -> rewards_base a = 0 ->
  micro_algos a mod reward_unit p = 0 ->
  with_updated_rewards Debug p a level = Some a' -> normalized_online_balance Debug p a' = Some n -> n = micro_algos a.
Proof. exact whole_lemma. Qed.
Print Assumptions c158_whole_units.

(** C158.  So the normalized balances of accounts that got their rewards at different levels tell which one had more. *)
Theorem c158_compares : forall p a b la lb a' b' x y,
  account_ok a -> account_ok b -> la < 2 ^ 64 -> lb < 2 ^ 64 ->
  acc_status a = Online -> acc_status b = Online -> rewards_base a = 0 -> rewards_base b = 0 ->
  with_updated_rewards Debug p a la = Some a' -> with_updated_rewards Debug p b lb = Some b' ->
  normalized_online_balance Debug p a' = Some x -> normalized_online_balance Debug p b' = Some y ->
  x + reward_unit p <= y -> micro_algos a < micro_algos b.
Proof. exact before_lemma. Qed.
Print Assumptions c158_compares.

(** C158.  Of accounts updated at the same level, the one with the larger normalized balance has more money at every
    later level. *)
Theorem c158_order : forall p a b level x y ma mb ra rb,
  account_ok a -> account_ok b -> level < 2 ^ 64 ->
  acc_status a = Online -> acc_status b = Online -> rewards_base a = rewards_base b ->
  normalized_online_balance Debug p a = Some x -> normalized_online_balance Debug p b = Some y -> x < y ->
  money Debug p a level = Some (ma, ra) -> money Debug p b level = Some (mb, rb) -> ma < mb.
Proof. exact order_lemma. Qed.
Print Assumptions c158_order.

(** C158.  Getting rewards lowers the normalized balance by no more than what is beyond whole units. *)
Theorem c158_touched : forall p a level a' n n',
  account_ok a -> level < 2 ^ 64 -> acc_status a = Online ->
  with_updated_rewards Debug p a level = Some a' ->
  normalized_online_balance Debug p a = Some n -> normalized_online_balance Debug p a' = Some n' ->
  n <= n' + micro_algos a mod reward_unit p.
Proof. exact touched_lemma. Qed.
Print Assumptions c158_touched.

(** C159.  Accounts that together have what one account has get no more rewards than it, and lose at most one unit's
    rewards for each account but one. *)
Theorem c159_split : forall p l c level base s x r,
  level < 2 ^ 64 -> Forall (fun a => account_ok a /\ participating a = true /\ rewards_base a = base) (c :: l) ->
  micro_algos c = fold_right N.add 0 (map micro_algos l) ->
  all_money Debug p l level = Some s -> money Debug p c level = Some (x, r) ->
  s <= x /\ x <= s + N.pred (N.of_nat (length l)) * (level - base).
Proof. exact split_rewards_lemma. Qed.
Print Assumptions c159_split.

(** ** Concrete cases *)

Definition saver (algos base : N) : account := mkAccount Online algos base 0 [] [] 0 0 0 [] [] [] [] [] (mkSchema 0 0) 0.
(** 2.5 Algos at level 0, updated at levels 500000 and 1000000: 3.5 and 5 Algos, as whole units made from rewards earn
    rewards themselves.  Normalized, the half Algo first counts less. *)
Example c158_case :
  account_ok (saver 2500000 0) /\
  with_updated_rewards Debug v30 (saver 2500000 0) 500000 = Some (credited (saver 2500000 0) 1000000 500000) /\
  normalized_online_balance Debug v30 (credited (saver 2500000 0) 1000000 500000) = Some 2333333 /\
  option_map micro_algos (with_updated_rewards Debug v30 (credited (saver 2500000 0) 1000000 500000) 1000000) = Some 5000000 /\
  normalized_online_balance Debug v30 (saver 5000000 1000000) = Some 2500000.
Proof.
  split; [unfold account_ok; cbn; lia|]. split; [vm_compute; reflexivity|]. split; [vm_compute; reflexivity|].
  split; vm_compute; reflexivity.
Qed.
Example c158_order_case :
  normalized_online_balance Debug v30 (saver 2500000 500000) = Some 1666666 /\
  normalized_online_balance Debug v30 (saver 3500000 500000) = Some 2333333 /\
  option_map fst (money Debug v30 (saver 2500000 500000) 600000) = Some 2700000 /\
  option_map fst (money Debug v30 (saver 3500000 500000) 600000) = Some 3800000.
Proof. split; [vm_compute; reflexivity|]. split; [vm_compute; reflexivity|]. split; vm_compute; reflexivity. Qed.
(** Three times 1.9 Algos earn three units' rewards, 5.7 Algos earn five. *)
Example c159_case :
  all_money Debug v30 [saver 1900000 10; saver 1900000 10; saver 1900000 10] 110 = Some 5700300 /\
  option_map fst (money Debug v30 (saver 5700000 10) 110) = Some 5700500.
Proof. split; vm_compute; reflexivity. Qed.
