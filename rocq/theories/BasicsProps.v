(** C36-C40 and C65-C67. *)
From Verif Require Import Base BaseFacts BasicsModel BasicsSpec BasicsProofs.
Local Open Scope N_scope.

(** An example protocol and account. *)
Definition v30 : params := match lookup V30 built_in with Some p => p | None => v7_base end.
Definition ex_account : account :=
  mkAccount Online 5500000 10 3 [] [] 0 0 0 [] [7; 8] [] [1] [2; 3; 4] (mkSchema 5 6) 1.

(** ** C36 *)
Theorem c36_sub_capped a b : sub_capped a b = if a <? b then 0 else a - b.
Proof. exact (sub_capped_lemma a b). Qed.
Print Assumptions c36_sub_capped.
Example c36_sub_capped_example : sub_capped 10 3 = 7 /\ sub_capped 3 10 = 0.
Proof. split; reflexivity. Qed.

Theorem c36_round_up m n r : r <> 0 -> n + r < 2 ^ 64 ->
  exists x, round_up_to_multiple_of m n r = Some x /\ least_multiple n r x.
Proof. exact (round_up_lemma m n r). Qed.
Print Assumptions c36_round_up.
Example c36_round_up_example : round_up_to_multiple_of Debug 1001 500 = Some 1500 /\ round_up_to_multiple_of Debug 1000 500 = Some 1000.
Proof. split; vm_compute; reflexivity. Qed.
(** Outside that range the least multiple may fit and still not be returned. *)
Example c36_round_up_limit :
  least_multiple (2 ^ 63) (2 ^ 63 + 1) (2 ^ 63 + 1) /\
  round_up_to_multiple_of Debug (2 ^ 63) (2 ^ 63 + 1) = None /\
  round_up_to_multiple_of Release (2 ^ 63) (2 ^ 63 + 1) = Some 0.
Proof.
  split; [|split; vm_compute; reflexivity]. split; [exists 1; reflexivity|]. split; [lia|]. intros k Hk. destruct k; lia.
Qed.

Theorem c36_ots_id n d batch offset : ots_id n d = Some (batch, offset) <-> batch * d + offset = n /\ offset < d.
Proof. exact (ots_id_lemma n d batch offset). Qed.
Print Assumptions c36_ots_id.
Theorem c36_ots_id_monotone n n' d b o b' o' : n <= n' -> ots_id n d = Some (b, o) -> ots_id n' d = Some (b', o') ->
  b < b' \/ b = b' /\ o <= o'.
Proof. exact (ots_id_monotone n n' d b o b' o'). Qed.
Print Assumptions c36_ots_id_monotone.
Example c36_ots_id_example : ots_id 30007 10000 = Some (3, 7) /\ ots_id 40001 10000 = Some (4, 1) /\ ots_id 5 0 = None.
Proof. split; [|split]; reflexivity. Qed.

Theorem c36_reward_units proto a u : reward_units proto a = Some u -> u * reward_unit proto <= a < (u + 1) * reward_unit proto.
Proof. exact (reward_units_lemma proto a u). Qed.
Print Assumptions c36_reward_units.
Example c36_reward_units_example : reward_units v30 5500000 = Some 5.
Proof. vm_compute. reflexivity. Qed.

(** ** C37 *)
Theorem c37_credited_exactly m proto a level :
  account_ok a -> level < 2 ^ 64 -> acc_status a <> NotParticipating -> in_range proto a level ->
  with_updated_rewards m proto a level = Some (credited a (earned proto a level) level).
Proof. exact (credit_lemma m proto a level). Qed.
Print Assumptions c37_credited_exactly.
Theorem c37_not_participating m proto a level : acc_status a = NotParticipating -> with_updated_rewards m proto a level = Some a.
Proof. exact (nonparticipating_lemma m proto a level). Qed.
Print Assumptions c37_not_participating.
(** Applying the same level again changes nothing. *)
Theorem c37_twice m proto a b level : account_ok a -> level < 2 ^ 64 ->
  with_updated_rewards m proto a level = Some b -> with_updated_rewards m proto b level = Some b.
Proof. exact (twice_lemma m proto a b level). Qed.
Print Assumptions c37_twice.
(** With overflow checks it panics exactly when out of range. *)
Theorem c37_panics proto a level : account_ok a -> level < 2 ^ 64 ->
  with_updated_rewards Debug proto a level = None <-> acc_status a <> NotParticipating /\ ~ in_range proto a level.
Proof. exact (debug_panics_lemma proto a level). Qed.
Print Assumptions c37_panics.
(** Without them the increase of the level and the balance are taken modulo 2^64, and it panics for a unit of zero only. *)
Theorem c37_wraps proto a level :
  account_ok a -> level < 2 ^ 64 -> acc_status a <> NotParticipating -> reward_unit proto <> 0 ->
  with_updated_rewards Release proto a level =
    Some (wrapped (credited a (micro_algos a / reward_unit proto * ((level + 2 ^ 64 - rewards_base a) mod 2 ^ 64)) level)).
Proof. exact (release_wraps_lemma proto a level). Qed.
Print Assumptions c37_wraps.
(** The amounts reported without storing them agree. *)
Theorem c37_money m proto a level :
  account_ok a -> level < 2 ^ 64 -> acc_status a <> NotParticipating -> in_range proto a level ->
  money m proto a level = Some (micro_algos a + earned proto a level, (rewarded_micro_algos a + earned proto a level) mod 2 ^ 64) /\
  pending_rewards m proto (micro_algos a) (rewards_base a) level = Some (earned proto a level).
Proof. exact (money_lemma m proto a level). Qed.
Print Assumptions c37_money.
Example c37_example :
  account_ok ex_account /\ in_range v30 ex_account 110 /\ earned v30 ex_account 110 = 500 /\
  option_map micro_algos (with_updated_rewards Debug v30 ex_account 110) = Some 5500500.
Proof.
  split; [unfold account_ok; cbn; lia|]. split; [split; [vm_compute; discriminate|]; split; vm_compute; [discriminate|reflexivity]|].
  split; vm_compute; reflexivity.
Qed.
Example c37_panic_example : ~ in_range v30 ex_account 9 /\ with_updated_rewards Debug v30 ex_account 9 = None /\
  option_map micro_algos (with_updated_rewards Release v30 ex_account 9) = Some 5499995.
Proof. split; [intros (_ & H & _); apply H; reflexivity|]. split; vm_compute; reflexivity. Qed.

(** ** C38 *)
Theorem c38_min_balance proto a : ConsensusModel.min_balance proto < 2 ^ 64 ->
  account_min_balance proto a = N.min (charges proto a) (2 ^ 64 - 1).
Proof. exact (min_balance_lemma proto a). Qed.
Print Assumptions c38_min_balance.
Theorem c38_monotone proto a b : ConsensusModel.min_balance proto < 2 ^ 64 -> uses_more a b ->
  account_min_balance proto a <= account_min_balance proto b.
Proof. exact (min_balance_monotone proto a b). Qed.
Print Assumptions c38_monotone.
Example c38_example : account_min_balance v30 ex_account = 1242500 /\ charges v30 ex_account = 1242500.
Proof. split; vm_compute; reflexivity. Qed.

(** ** C39 *)
Theorem c39_normalized_partial m proto a : acc_status a = Online -> reward_unit proto <> 0 ->
  rewards_base a + reward_unit proto < 2 ^ 64 -> micro_algos a * reward_unit proto < 2 ^ 64 ->
  normalized_online_balance m proto a = Some (micro_algos a * reward_unit proto / (reward_unit proto + rewards_base a)).
Proof. exact (normalized_lemma m proto a). Qed.
Print Assumptions c39_normalized_partial.
Theorem c39_offline m proto a : acc_status a <> Online -> normalized_online_balance m proto a = Some 0.
Proof. exact (normalized_zero m proto a). Qed.
Print Assumptions c39_offline.
Theorem c39_panics m proto a : acc_status a = Online -> rewards_base a + reward_unit proto < 2 ^ 64 ->
  2 ^ 64 <= micro_algos a * reward_unit proto -> normalized_online_balance m proto a = None.
Proof. exact (normalized_panics m proto a). Qed.
Print Assumptions c39_panics.
(** Twenty million Algos are enough. *)
Theorem c39_never_fails_refuted : exists a, acc_status a = Online /\ account_ok a /\ micro_algos a = 20 * 10 ^ 12 /\
  micro_algos a * reward_unit v30 / (reward_unit v30 + rewards_base a) < 2 ^ 64 /\
  forall m, normalized_online_balance m v30 a = None.
Proof.
  exists (mkAccount Online (20 * 10 ^ 12) 0 0 [] [] 0 0 0 [] [] [] [] [] (mkSchema 0 0) 0).
  split; [reflexivity|]. split; [unfold account_ok; cbn; lia|]. split; [reflexivity|]. split; [vm_compute; reflexivity|].
  intros [|]; vm_compute; reflexivity.
Qed.
Print Assumptions c39_never_fails_refuted.
Example c39_example : normalized_online_balance Debug v30 ex_account = Some 5499945.
Proof. vm_compute. reflexivity. Qed.

(** ** C40 *)
Theorem c40_status text s : status_from_str text = Some s <-> text = status_to_string s.
Proof. exact (status_lemma text s). Qed.
Print Assumptions c40_status.
Example c40_example : status_from_str (str "Not Participating") = Some NotParticipating /\ status_from_str (str "online") = None.
Proof. split; vm_compute; reflexivity. Qed.

(** ** C65 *)
Theorem c65_address_index c sender i : address_by_index c i sender = nth_error (sender :: accounts c) (N.to_nat i).
Proof. exact (address_index_lemma c sender i). Qed.
Print Assumptions c65_address_index.
Theorem c65_app_index c i : app_id_by_index c i = nth_error (application_id c :: foreign_apps c) (N.to_nat i).
Proof. exact (app_index_lemma c i). Qed.
Print Assumptions c65_app_index.
Theorem c65_index_of_address c sender t :
  match index_by_address c t sender with
  | Some i => address_by_index c i sender = Some t /\ forall j, j < i -> address_by_index c j sender <> Some t
  | None => ~ In t (sender :: accounts c)
  end.
Proof. exact (address_refs_lemma c sender t). Qed.
Print Assumptions c65_index_of_address.
Theorem c65_index_of_app c t :
  match index_by_app_id c t with
  | Some i => app_id_by_index c i = Some t /\ forall j, j < i -> app_id_by_index c j <> Some t
  | None => ~ In t (application_id c :: foreign_apps c)
  end.
Proof. exact (app_refs_lemma c t). Qed.
Print Assumptions c65_index_of_app.
Example c65_example : let c := mkRefs 9 [str "x"; str "y"; str "x"] [4; 9; 5] in
  index_by_address c (str "y") (str "s") = Some 2 /\ address_by_index c 3 (str "s") = Some (str "x") /\
  address_by_index c 4 (str "s") = None /\ index_by_app_id c 9 = Some 0 /\ index_by_app_id c 5 = Some 3.
Proof. split; [|split; [|split; [|split]]]; vm_compute; reflexivity. Qed.

(** ** C66 *)
Theorem c66_add a b : num_uint (add_schema a b) = N.min (num_uint a + num_uint b) (2 ^ 64 - 1) /\
  num_byte_slice (add_schema a b) = N.min (num_byte_slice a + num_byte_slice b) (2 ^ 64 - 1).
Proof. exact (add_schema_lemma a b). Qed.
Print Assumptions c66_add.
Theorem c66_sub a b : num_uint (sub_schema a b) = num_uint a - num_uint b /\
  num_byte_slice (sub_schema a b) = num_byte_slice a - num_byte_slice b.
Proof. exact (sub_schema_lemma a b). Qed.
Print Assumptions c66_sub.
Theorem c66_add_then_sub a b : num_uint a + num_uint b < 2 ^ 64 -> num_byte_slice a + num_byte_slice b < 2 ^ 64 ->
  sub_schema (add_schema a b) b = a.
Proof. exact (sub_add_lemma a b). Qed.
Print Assumptions c66_add_then_sub.
Theorem c66_range a b : schema_ok a -> schema_ok (add_schema a b) /\ schema_ok (sub_schema a b).
Proof. exact (schema_range a b). Qed.
Print Assumptions c66_range.
Theorem c66_cost proto s : schema_min_balance proto s =
  N.min (schema_min_balance_per_entry proto * (num_uint s + num_byte_slice s) +
         schema_uint_min_balance proto * num_uint s + schema_bytes_min_balance proto * num_byte_slice s) (2 ^ 64 - 1).
Proof. exact (schema_min_balance_lemma proto s). Qed.
Print Assumptions c66_cost.
Theorem c66_of_values kv : to_state_schema kv = mkSchema (count_type TUint kv) (count_type TBytes kv).
Proof. exact (to_schema_lemma kv). Qed.
Print Assumptions c66_of_values.
Example c66_example :
  add_schema (mkSchema 3 (2 ^ 64 - 2)) (mkSchema 4 5) = mkSchema 7 (2 ^ 64 - 1) /\
  sub_schema (mkSchema 3 9) (mkSchema 4 5) = mkSchema 0 4 /\
  to_state_schema [(str "a", new_uint 3); (str "b", new_bytes [x01]); (str "c", new_uint 4)] = mkSchema 2 1 /\
  schema_min_balance v30 (mkSchema 5 6) = 25000 * 11 + 3500 * 5 + 25000 * 6.
Proof. split; [|split; [|split]]; vm_compute; reflexivity. Qed.

(** ** C67 *)
Theorem c67_bytes b : to_teal_value (to_value_delta (mkTeal TBytes b 0)) = Some (mkTeal TBytes b 0).
Proof. exact (delta_round_trip (mkTeal TBytes b 0) (or_introl eq_refl)). Qed.
Print Assumptions c67_bytes.
Theorem c67_uint n : to_teal_value (to_value_delta (mkTeal TUint [] n)) = Some (mkTeal TUint [] n).
Proof. exact (delta_round_trip (mkTeal TUint [] n) (or_intror eq_refl)). Qed.
Print Assumptions c67_uint.
Theorem c67_delete d : action d = Delete <-> to_teal_value d = None.
Proof. exact (delete_reads_none d). Qed.
Print Assumptions c67_delete.
Theorem c67_valid proto sd : delta_is_valid proto sd = true <->
  (sd = [] \/ max_app_key_len proto <> 0) /\ forall key d, In (key, d) sd -> entry_fits proto key d.
Proof. exact (valid_lemma proto sd). Qed.
Print Assumptions c67_valid.
Example c67_example :
  delta_is_valid v30 [(str "k", mkDelta SetBytes (str "v") 0); (str "l", mkDelta Delete [] 0)] = true /\
  delta_is_valid v30 [(str "k", mkDelta SetBytes (repeat x00 128) 0)] = false /\
  delta_is_valid v30 [(repeat x00 64, mkDelta SetBytes (repeat x00 64) 0)] = true.
Proof. split; [|split]; vm_compute; reflexivity. Qed.
