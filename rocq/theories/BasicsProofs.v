From Verif Require Import Base BaseFacts BasicsModel BasicsSpec.
Local Open Scope N_scope.

(** ** Rounds *)
Lemma sub_capped_lemma a b : sub_capped a b = if a <? b then 0 else a - b.
Proof. unfold sub_capped. destruct (N.ltb_spec b a), (N.ltb_spec a b); lia. Qed.

Lemma least_multiple_ceil n r : r <> 0 -> least_multiple n r ((n + r - 1) / r * r).
Proof.
  intros Hr. pose proof (N.div_mod (n + r - 1) r Hr) as Hd. pose proof (N.mod_upper_bound (n + r - 1) r Hr) as Hm.
  set (q := (n + r - 1) / r) in *. split; [exists q; reflexivity|]. split; [nia|]. intros k Hk. apply N.mul_le_mono_r.
  destruct (N.le_gt_cases q k) as [|Hlt]; [assumption|exfalso]. assert (k + 1 <= q) by lia. nia.
Qed.
Lemma round_up_lemma m n r : r <> 0 -> n + r < two64 ->
  exists x, round_up_to_multiple_of m n r = Some x /\ least_multiple n r x.
Proof.
  intros Hr Hs. exists ((n + r - 1) / r * r). split; [|apply least_multiple_ceil; exact Hr].
  unfold round_up_to_multiple_of, add64. destruct (N.ltb_spec (n + r) two64); [|lia]. unfold sub64.
  destruct (N.leb_spec 1 (n + r)); [|lia]. unfold div64. destruct (N.eqb_spec r 0); [contradiction|]. unfold mul64.
  pose proof (N.mul_div_le (n + r - 1) r Hr). destruct (N.ltb_spec ((n + r - 1) / r * r) two64); [reflexivity|lia].
Qed.
Lemma ots_id_lemma n d batch offset : ots_id n d = Some (batch, offset) <-> batch * d + offset = n /\ offset < d.
Proof.
  unfold ots_id, div64, rem64. destruct (N.eqb_spec d 0) as [->|Hd].
  - split; [discriminate|lia].
  - pose proof (N.div_mod n d Hd) as Hdm. pose proof (N.mod_upper_bound n d Hd) as Hm. split.
    + intros E. assert (batch = n / d) as -> by congruence. assert (offset = n mod d) as -> by congruence. lia.
    + intros [E Ho]. assert (batch = n / d) as -> by (apply (N.div_unique n d batch offset); lia).
      assert (offset = n mod d) as -> by (apply (N.mod_unique n d (n / d) offset); lia). reflexivity.
Qed.
Lemma ots_id_monotone n n' d b o b' o' : n <= n' -> ots_id n d = Some (b, o) -> ots_id n' d = Some (b', o') ->
  b < b' \/ b = b' /\ o <= o'.
Proof. rewrite !ots_id_lemma. intros Hle [E Ho] [E' Ho']. destruct (N.lt_trichotomy b b') as [|[->|]]; [left; assumption|right; lia|exfalso; nia]. Qed.
Lemma reward_units_lemma proto a u : reward_units proto a = Some u -> u * reward_unit proto <= a < (u + 1) * reward_unit proto.
Proof.
  unfold reward_units, div64. destruct (N.eqb_spec (reward_unit proto) 0) as [|Hu]; [discriminate|]. intros E.
  assert (u = a / reward_unit proto) as -> by congruence.
  pose proof (N.div_mod a (reward_unit proto) Hu). pose proof (N.mod_upper_bound a (reward_unit proto) Hu). lia.
Qed.

(** ** Rewards *)
Lemma credit_lemma m proto a level : account_ok a -> level < two64 -> acc_status a <> NotParticipating -> in_range proto a level ->
  with_updated_rewards m proto a level = Some (credited a (earned proto a level) level).
Proof.
  intros (Hm & Hb & Hr) Hl Hs (Hu & Hle & Hov). unfold with_updated_rewards, earned in *. change (2 ^ 64) with two64 in Hov.
  unfold reward_units, div64. destruct (N.eqb_spec (reward_unit proto) 0); [contradiction|].
  unfold sub64. destruct (N.leb_spec (rewards_base a) level); [|lia].
  unfold mul64. destruct (N.ltb_spec (micro_algos a / reward_unit proto * (level - rewards_base a)) two64); [|lia].
  unfold add64. destruct (N.ltb_spec (micro_algos a + micro_algos a / reward_unit proto * (level - rewards_base a)) two64); [|lia].
  destruct (acc_status a) eqn:Es; [| |congruence]; unfold set_rewards, credited; rewrite Es; reflexivity.
Qed.
Lemma nonparticipating_lemma m proto a level : acc_status a = NotParticipating -> with_updated_rewards m proto a level = Some a.
Proof. intros E. unfold with_updated_rewards. rewrite E. reflexivity. Qed.
Lemma debug_panics_lemma proto a level : account_ok a -> level < two64 ->
  with_updated_rewards Debug proto a level = None <-> acc_status a <> NotParticipating /\ ~ in_range proto a level.
Proof.
  intros (Hm & Hb & Hr) Hl. unfold with_updated_rewards, in_range, earned. change (2 ^ 64) with two64.
  destruct (acc_status a); [| |split; [discriminate|intros [H _]; congruence]];
  (unfold reward_units, div64; destruct (N.eqb_spec (reward_unit proto) 0) as [|Hu]; [split; [split; [discriminate|tauto]|reflexivity]|];
   unfold sub64; destruct (N.leb_spec (rewards_base a) level) as [Hle|Hgt]; [|split; [split; [discriminate|lia]|reflexivity]];
   unfold mul64; destruct (N.ltb_spec (micro_algos a / reward_unit proto * (level - rewards_base a)) two64); [|split; [split; [discriminate|lia]|reflexivity]];
   unfold add64; destruct (N.ltb_spec (micro_algos a + micro_algos a / reward_unit proto * (level - rewards_base a)) two64); [|split; [split; [discriminate|lia]|reflexivity]];
   split; [discriminate|intros [_ H1]; exfalso; apply H1; auto]).
Qed.
Lemma release_wraps_lemma proto a level : account_ok a -> level < two64 -> acc_status a <> NotParticipating -> reward_unit proto <> 0 ->
  with_updated_rewards Release proto a level =
    Some (wrapped (credited a (micro_algos a / reward_unit proto * ((level + 2 ^ 64 - rewards_base a) mod 2 ^ 64)) level)).
Proof.
  intros (Hm & Hb & Hr) Hl Hs Hu. unfold with_updated_rewards. change (2 ^ 64) with two64.
  assert (T : two64 <> 0) by discriminate.
  unfold reward_units, div64. destruct (N.eqb_spec (reward_unit proto) 0); [contradiction|].
  set (units := micro_algos a / reward_unit proto).
  assert (Es : sub64 Release level (rewards_base a) = Some ((level + two64 - rewards_base a) mod two64)).
  { unfold sub64. destruct (N.leb_spec (rewards_base a) level) as [Hle|Hgt].
    - f_equal. replace (level + two64 - rewards_base a) with (level - rewards_base a + 1 * two64) by lia.
      rewrite N.mod_add, N.mod_small by lia. reflexivity.
    - f_equal. rewrite N.mod_small by lia. reflexivity. }
  rewrite Es. set (delta := (level + two64 - rewards_base a) mod two64).
  assert (Em : mul64 Release units delta = Some ((units * delta) mod two64)).
  { unfold mul64. destruct (N.ltb_spec (units * delta) two64); [|reflexivity]. rewrite N.mod_small by assumption. reflexivity. }
  rewrite Em.
  assert (Ea : add64 Release (micro_algos a) ((units * delta) mod two64) = Some ((micro_algos a + units * delta) mod two64)).
  { unfold add64. destruct (N.ltb_spec (micro_algos a + (units * delta) mod two64) two64).
    - f_equal. rewrite <- (N.add_mod_idemp_r (micro_algos a) (units * delta)) by exact T. symmetry. apply N.mod_small. assumption.
    - f_equal. rewrite N.add_mod_idemp_r by exact T. reflexivity. }
  rewrite Ea. assert (Er : (rewarded_micro_algos a + (units * delta) mod two64) mod two64 = (rewarded_micro_algos a + units * delta) mod two64)
    by (apply N.add_mod_idemp_r; exact T). rewrite Er.
  destruct (acc_status a) eqn:Es'; [| |congruence]; unfold set_rewards, wrapped, credited; cbn [micro_algos rewards_base rewarded_micro_algos acc_status vote_id selection_id vote_first_valid vote_last_valid vote_key_dilution asset_params assets auth_addr app_local_states app_params total_app_schema total_extra_app_pages]; change (2 ^ 64) with two64; rewrite Es'; reflexivity.
Qed.
Lemma add64_lt m a b c : add64 m a b = Some c -> c < two64.
Proof.
  unfold add64. destruct (N.ltb_spec (a + b) two64) as [Hlt|].
  - intros E. assert (c = a + b) as -> by congruence. exact Hlt.
  - destruct m; [discriminate|]. intros E. assert (c = (a + b) mod two64) as -> by congruence. apply N.mod_upper_bound. discriminate.
Qed.
Lemma updated_fields m proto a b level : with_updated_rewards m proto a level = Some b ->
  acc_status a = NotParticipating /\ b = a \/
  acc_status a <> NotParticipating /\ exists x y, b = set_rewards a x level y /\ (y < two64) /\ reward_unit proto <> 0 /\ (account_ok a -> x < two64).
Proof.
  unfold with_updated_rewards. destruct (acc_status a); [| |intros [= <-]; left; auto];
  (unfold reward_units, div64; destruct (N.eqb_spec (reward_unit proto) 0); [discriminate|];
   destruct (sub64 m level (rewards_base a)) as [delta|]; [|discriminate];
   destruct (mul64 m _ delta) as [rw|]; [|discriminate];
   destruct (add64 m (micro_algos a) rw) as [al|] eqn:Ea; [|discriminate]; intros E; right; split; [discriminate|];
   eexists; eexists; split; [symmetry; apply (f_equal (fun o => match o with Some x => x | None => a end)) in E; exact E|]; split;
   [apply N.mod_upper_bound; discriminate|]; split; [assumption|]; intros _; exact (add64_lt m _ _ _ Ea)).
Qed.
Lemma twice_lemma m proto a b level : account_ok a -> level < two64 ->
  with_updated_rewards m proto a level = Some b -> with_updated_rewards m proto b level = Some b.
Proof.
  intros Ha Hl E. destruct (updated_fields m proto a b level E) as [[Hs ->]|(Hs & x & y & -> & Hy & Hu & Hx)].
  - exact E.
  - specialize (Hx Ha). rewrite credit_lemma.
    + f_equal. unfold credited, earned, set_rewards. cbn. rewrite N.sub_diag, N.mul_0_r, !N.add_0_r.
      rewrite N.mod_small by exact Hy. reflexivity.
    + split; [exact Hx|]. split; [exact Hl|exact Hy].
    + exact Hl.
    + exact Hs.
    + split; [exact Hu|]. unfold earned, set_rewards. cbn. rewrite N.sub_diag, N.mul_0_r, N.add_0_r. split; [lia|exact Hx].
Qed.
Lemma money_lemma m proto a level : account_ok a -> level < two64 -> acc_status a <> NotParticipating -> in_range proto a level ->
  money m proto a level = Some (micro_algos a + earned proto a level, (rewarded_micro_algos a + earned proto a level) mod 2 ^ 64) /\
  pending_rewards m proto (micro_algos a) (rewards_base a) level = Some (earned proto a level).
Proof.
  intros Ha Hl Hs Hr. split.
  - unfold money. rewrite credit_lemma by assumption. reflexivity.
  - destruct Hr as (Hu & Hle & Hov). change (2 ^ 64) with two64 in Hov. unfold pending_rewards, reward_units, div64.
    destruct (N.eqb_spec (reward_unit proto) 0); [contradiction|]. unfold sub64. destruct (N.leb_spec (rewards_base a) level); [|lia].
    unfold mul64. unfold earned in *. destruct (N.ltb_spec (micro_algos a / reward_unit proto * (level - rewards_base a)) two64); [reflexivity|lia].
Qed.

(** ** Saturating sums *)
Lemma sat_add_cap a b : sat_add (N.min a max64) (N.min b max64) = N.min (a + b) max64.
Proof. unfold sat_add. lia. Qed.
Lemma sat_mul_cap c n : sat_mul c (N.min n max64) = N.min (c * n) max64.
Proof.
  unfold sat_mul. destruct (N.le_gt_cases n max64) as [Hn|Hn]; [rewrite (N.min_l n) by exact Hn; reflexivity|].
  rewrite (N.min_r n) by lia. destruct (N.eq_dec c 0) as [->|Hc]; [reflexivity|].
  assert (max64 <= c * max64) by nia. assert (max64 <= c * n) by nia. lia.
Qed.
Lemma schema_min_balance_lemma proto s : schema_min_balance proto s =
  N.min (schema_min_balance_per_entry proto * (num_uint s + num_byte_slice s) + schema_uint_min_balance proto * num_uint s + schema_bytes_min_balance proto * num_byte_slice s) max64.
Proof.
  unfold schema_min_balance. cbv zeta.
  assert (E : num_entries s = N.min (num_uint s + num_byte_slice s) max64) by (unfold num_entries, sat_add; lia).
  rewrite E, sat_mul_cap. unfold sat_mul. change (sat_add 0 ?x) with (sat_add (N.min 0 max64) x). rewrite !sat_add_cap. f_equal.
Qed.
Lemma min_balance_lemma proto a : ConsensusModel.min_balance proto < two64 -> account_min_balance proto a = N.min (charges proto a) max64.
Proof.
  intros Hb. unfold account_min_balance. cbv zeta. rewrite schema_min_balance_lemma.
  assert (E0 : ConsensusModel.min_balance proto = N.min (ConsensusModel.min_balance proto) max64).
  { unfold max64, two64 in *. lia. }
  rewrite E0 at 1. unfold sat_mul. rewrite !sat_add_cap. f_equal. unfold charges. cbv zeta. lia.
Qed.
Lemma min_balance_monotone proto a b : ConsensusModel.min_balance proto < two64 -> uses_more a b -> account_min_balance proto a <= account_min_balance proto b.
Proof.
  intros Hb (H1 & H2 & H3 & H4 & H5 & H6). rewrite !min_balance_lemma by exact Hb. apply N.min_le_compat_r.
  unfold charges. cbv zeta. repeat apply N.add_le_mono; apply N.mul_le_mono_l; lia.
Qed.

(** ** Normalized balance *)
Lemma normalized_lemma m proto a : acc_status a = Online -> reward_unit proto <> 0 ->
  rewards_base a + reward_unit proto < two64 -> micro_algos a * reward_unit proto < two64 ->
  normalized_online_balance m proto a = Some (micro_algos a * reward_unit proto / (reward_unit proto + rewards_base a)).
Proof.
  intros Hs Hu Hb Hm. unfold normalized_online_balance. rewrite Hs. unfold add64.
  destruct (N.ltb_spec (rewards_base a + reward_unit proto) two64); [|lia].
  destruct (N.ltb_spec (micro_algos a * reward_unit proto) two64); [|lia].
  destruct (N.eqb_spec (rewards_base a + reward_unit proto) 0); [lia|]. rewrite (N.add_comm (reward_unit proto)). reflexivity.
Qed.
Lemma normalized_panics m proto a : acc_status a = Online -> rewards_base a + reward_unit proto < two64 ->
  two64 <= micro_algos a * reward_unit proto -> normalized_online_balance m proto a = None.
Proof.
  intros Hs Hb Hm. unfold normalized_online_balance. rewrite Hs. unfold add64.
  destruct (N.ltb_spec (rewards_base a + reward_unit proto) two64); [|lia].
  destruct (N.ltb_spec (micro_algos a * reward_unit proto) two64); [lia|reflexivity].
Qed.
Lemma normalized_zero m proto a : acc_status a <> Online -> normalized_online_balance m proto a = Some 0.
Proof. intros Hs. unfold normalized_online_balance. destruct (acc_status a); [reflexivity|congruence|reflexivity]. Qed.

(** ** Status *)
Lemma status_lemma text s : status_from_str text = Some s <-> text = status_to_string s.
Proof.
  unfold status_from_str. split.
  - destruct (bytes_eqb_reflect text (str "Offline")) as [->|]; [intros [= <-]; reflexivity|].
    destruct (bytes_eqb_reflect text (str "Online")) as [->|]; [intros [= <-]; reflexivity|].
    destruct (bytes_eqb_reflect text (str "Not Participating")) as [->|]; [intros [= <-]; reflexivity|discriminate].
  - intros ->. destruct s; reflexivity.
Qed.

(** ** Schemas *)
Lemma add_schema_lemma a b : num_uint (add_schema a b) = N.min (num_uint a + num_uint b) max64 /\
  num_byte_slice (add_schema a b) = N.min (num_byte_slice a + num_byte_slice b) max64.
Proof. split; reflexivity. Qed.
Lemma sub_schema_lemma a b : num_uint (sub_schema a b) = num_uint a - num_uint b /\ num_byte_slice (sub_schema a b) = num_byte_slice a - num_byte_slice b.
Proof. split; reflexivity. Qed.
Lemma sub_add_lemma a b : num_uint a + num_uint b < two64 -> num_byte_slice a + num_byte_slice b < two64 -> sub_schema (add_schema a b) b = a.
Proof.
  intros H1 H2. destruct a as [u s], b as [u' s']. unfold sub_schema, add_schema, sat_add, sat_sub. cbn [num_uint num_byte_slice] in *.
  unfold max64, two64 in *. f_equal; lia.
Qed.
Lemma schema_range a b : schema_ok a -> schema_ok (add_schema a b) /\ schema_ok (sub_schema a b).
Proof. unfold schema_ok, add_schema, sub_schema, sat_add, sat_sub. cbn. unfold max64, two64. lia. Qed.
Lemma to_schema_lemma kv : to_state_schema kv = mkSchema (count_type TUint kv) (count_type TBytes kv).
Proof.
  unfold to_state_schema, count_type.
  cut (forall u b, fold_left (fun s (e : bytes * teal_value) => match ttype (snd e) with
      | TBytes => mkSchema (num_uint s) (num_byte_slice s + 1) | TUint => mkSchema (num_uint s + 1) (num_byte_slice s) end) kv (mkSchema u b)
    = mkSchema (u + count_type TUint kv) (b + count_type TBytes kv)).
  { intros G. rewrite G. reflexivity. }
  unfold count_type. induction kv as [|[k v] kv IH]; intros u b; cbn [fold_left filter length snd].
  - rewrite !N.add_0_r. reflexivity.
  - destruct (ttype v); rewrite IH; cbn [num_uint num_byte_slice length]; f_equal; lia.
Qed.

(** ** Deltas *)
Lemma delta_round_trip v : v = new_bytes (teal_bytes v) \/ v = new_uint (teal_uint v) -> to_teal_value (to_value_delta v) = Some v.
Proof. intros [->| ->]; reflexivity. Qed.
Lemma delete_reads_none d : action d = Delete <-> to_teal_value d = None.
Proof. unfold to_teal_value. destruct (action d); split; congruence. Qed.
Lemma valid_lemma proto sd : delta_is_valid proto sd = true <->
  (sd = [] \/ max_app_key_len proto <> 0) /\ forall key d, In (key, d) sd -> entry_fits proto key d.
Proof.
  assert (G : forall key d, entry_is_valid proto key d = true <-> entry_fits proto key d).
  { intros key d. unfold entry_is_valid, entry_fits. destruct (N.ltb_spec (max_app_key_len proto) (N.of_nat (length key))); [split; [discriminate|lia]|].
    destruct (action d).
    - destruct (N.ltb_spec (max_app_bytes_value_len proto) (N.of_nat (length (delta_bytes d)))); [split; [discriminate|intros [_ Hx]; specialize (Hx eq_refl); lia]|].
      destruct (N.ltb_spec (max_app_sum_key_value_lens proto) (N.of_nat (length key + length (delta_bytes d)))); [split; [discriminate|intros [_ Hx]; specialize (Hx eq_refl); lia]|].
      split; [intros _; split; [lia|]; intros _; lia|reflexivity].
    - split; [intros _; split; [lia|discriminate]|reflexivity].
    - split; [intros _; split; [lia|discriminate]|reflexivity]. }
  unfold delta_is_valid. destruct sd as [|e sd].
  - cbn. split; [intros _; split; [left; reflexivity|intros k d []]|reflexivity].
  - cbn [negb andb]. destruct (N.eqb_spec (max_app_key_len proto) 0) as [E|E].
    + split; [discriminate|]. intros [[Hx|Hx] _]; [discriminate|contradiction].
    + rewrite forallb_forall. split.
      * intros Hf. split; [right; exact E|]. intros key d Hi. apply G. apply (Hf (key, d) Hi).
      * intros [_ Hf] [key d] Hi. apply G. apply Hf. exact Hi.
Qed.

(** ** References *)
Lemma by_index_lemma {A} (self : A) l i : by_index self l i = nth_error (self :: l) (N.to_nat i).
Proof.
  unfold by_index. destruct (N.eqb_spec i 0) as [->|Hi]; [reflexivity|].
  destruct (N.to_nat i) as [|k] eqn:E; [lia|]. cbn [nth_error].
  destruct (N.ltb_spec (N.of_nat (length l)) i).
  - symmetry. apply nth_error_None. lia.
  - replace (S k - 1)%nat with k by lia. reflexivity.
Qed.
Section References.
Context {A : Type} (eqb : A -> A -> bool) (eqb_spec : forall a b, reflect (a = b) (eqb a b)).
Lemma position_lemma t (l : list A) : match position eqb t l with
  | Some i => nth_error l i = Some t /\ forall j, (j < i)%nat -> nth_error l j <> Some t
  | None => ~ In t l end.
Proof.
  induction l as [|x l IH]; cbn [position]; [intros []|]. destruct (eqb_spec x t) as [->|Hx].
  - split; [reflexivity|]. intros j Hj. lia.
  - destruct (position eqb t l) as [i|]; cbn [option_map].
    + destruct IH as [IH1 IH2]. split; [exact IH1|]. intros [|j] Hj; cbn; [congruence|]. apply IH2. lia.
    + intros [E|E]; [congruence|contradiction].
Qed.
Lemma index_of_lemma (self : A) l t : match index_of eqb self l t with
  | Some i => by_index self l i = Some t /\ forall j, j < i -> by_index self l j <> Some t
  | None => ~ In t (self :: l) end.
Proof.
  unfold index_of. destruct (eqb_spec t self) as [->|Hs].
  - split; [reflexivity|]. intros j Hj. lia.
  - pose proof (position_lemma t l) as P. destruct (position eqb t l) as [i|].
    + destruct P as [P1 P2]. split.
      * rewrite by_index_lemma. replace (N.to_nat (N.of_nat i + 1)) with (S i) by lia. exact P1.
      * intros j Hj. rewrite by_index_lemma. destruct (N.to_nat j) as [|k] eqn:E; cbn [nth_error]; [congruence|]. apply P2. lia.
    + intros [E|E]; [congruence|contradiction].
Qed.
End References.

Lemma address_refs_lemma c sender t : match index_by_address c t sender with
  | Some i => address_by_index c i sender = Some t /\ forall j, j < i -> address_by_index c j sender <> Some t
  | None => ~ In t (sender :: accounts c) end.
Proof. apply (index_of_lemma bytes_eqb bytes_eqb_reflect). Qed.
Lemma app_refs_lemma c t : match index_by_app_id c t with
  | Some i => app_id_by_index c i = Some t /\ forall j, j < i -> app_id_by_index c j <> Some t
  | None => ~ In t (application_id c :: foreign_apps c) end.
Proof. apply (index_of_lemma N.eqb N.eqb_spec). Qed.
Lemma address_index_lemma c sender i : address_by_index c i sender = nth_error (sender :: accounts c) (N.to_nat i).
Proof. apply by_index_lemma. Qed.
Lemma app_index_lemma c i : app_id_by_index c i = nth_error (application_id c :: foreign_apps c) (N.to_nat i).
Proof. apply by_index_lemma. Qed.
