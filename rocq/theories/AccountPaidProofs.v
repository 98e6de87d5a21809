(** Proofs for C166 and C168: the size of an account by what it pays for. *)
From Verif Require Import Base BaseFacts MsgpackModel MsgpackProofs ConsensusModel BasicsModel BasicsSpec BasicsProofs TxModel IdsModel AccountSizeModel AccountSizeSpec TxCodecSpec TxDecodeSpec IdsSpec GenDecodeSpec.
From Verif Require Import AccountSizeProofs.
Local Open Scope N_scope.

Definition uint_size (p : params) : N := 18 + max_app_key_len p.
Definition bytes_size (p : params) : N := 13 + N.min (max_app_sum_key_value_lens p + max_app_bytes_value_len p) (max_app_key_len p + 2 * max_app_bytes_value_len p).
Definition count {A} (l : list A) : N := N.of_nat (length l).

Lemma size_entry_kind p e : max_app_key_len p <= 255 -> max_app_bytes_value_len p <= 65535 -> entry_within p e ->
  size (VStr (fst e)) + size (teal_value_value (snd e)) <= if is_uint e then uint_size p else bytes_size p.
Proof.
  intros Hk Hv [Ek Ev]. destruct e as [k [t b u]]. cbn [fst snd ttype teal_bytes teal_uint] in *.
  pose proof (size_str k ltac:(unfold upto in *; lia)). unfold teal_value_value. cbn [ttype teal_bytes teal_uint].
  rewrite size_arr by (unfold upto; cbn; lia). cbn [total_size fold_right]. unfold upto in *. unfold uint_size, bytes_size, is_uint. cbn [snd ttype]. destruct t.
  - destruct Ev as (Eb & Es & ->). rewrite app_length in Es. change (size (VStr (teal_variant TBytes))) with 6. change (size (VNum 0)) with 1.
    pose proof (size_bytes b ltac:(unfold upto; lia)). lia.
  - subst b. change (size (VStr (teal_variant TUint))) with 5. rewrite size_nil_bytes. pose proof (size_num u). lia.
Qed.
Lemma size_state_kinds p n l : max_app_key_len p <= 255 -> max_app_bytes_value_len p <= 65535 -> n <= 65535 -> state_within p n l ->
  size (teal_map_value l) <= 3 + count (filter is_uint l) * uint_size p + count (filter (fun e => negb (is_uint e)) l) * bytes_size p.
Proof.
  intros Hk Hv Hn [Hl F]. unfold teal_map_value. etransitivity; [apply size_map; unfold upto in *; rewrite map_length; lia|].
  rewrite <- N.add_assoc. apply N.add_le_mono_l. clear Hl. unfold count. induction F as [|e l He F IH]; [cbn; lia|].
  pose proof (size_entry_kind p e Hk Hv He) as B. cbn [map map_total fold_right fst snd filter]. fold (map_total (map (fun e => (VStr (fst e), teal_value_value (snd e))) l)).
  destruct (is_uint e); cbn [negb length]; lia.
Qed.
Lemma size_state_schema p n l s : max_app_key_len p <= 255 -> max_app_bytes_value_len p <= 65535 -> n <= 65535 -> state_within p n l -> keeps_schema s l ->
  size (teal_map_value l) <= 3 + num_uint s * uint_size p + num_byte_slice s * bytes_size p.
Proof.
  intros Hk Hv Hn Hw [K1 K2]. pose proof (size_state_kinds p n l Hk Hv Hn Hw) as B. unfold upto in K1, K2. unfold count in B.
  pose proof (N.mul_le_mono_r _ _ (uint_size p) K1). pose proof (N.mul_le_mono_r _ _ (bytes_size p) K2). lia.
Qed.

Lemma size_indexed_sum {A} (f : A -> value) (g : A -> N) l : upto 65535 l -> Forall (fun e => size (f (snd e)) <= g (snd e)) l ->
  size (indexed f l) <= 3 + 9 * count l + sum_of g l.
Proof.
  intros Hl F. unfold indexed. etransitivity; [apply size_map; unfold upto in *; rewrite map_length; lia|].
  rewrite <- N.add_assoc. apply N.add_le_mono_l. clear Hl. unfold count. induction F as [|e l He F IH]; [cbn; lia|].
  cbn [map map_total fold_right fst snd sum_of length]. fold (map_total (map (fun e => (VNum (fst e), f (snd e))) l)) (sum_of g l).
  pose proof (size_num (fst e)). cbv beta in *. lia.
Qed.
Lemma sum_of_add {A} (f g : A -> N) l : sum_of (fun x => f x + g x) l = sum_of f l + sum_of g l.
Proof. induction l as [|e l IH]; [reflexivity|]. cbn [sum_of fold_right]. fold (sum_of (fun x => f x + g x) l) (sum_of f l) (sum_of g l). lia. Qed.
Lemma sum_of_mul {A} (f : A -> N) k l : sum_of (fun x => f x * k) l = sum_of f l * k.
Proof. induction l as [|e l IH]; [reflexivity|]. cbn [sum_of fold_right]. fold (sum_of (fun x => f x * k) l) (sum_of f l). lia. Qed.
Lemma sum_of_const {A} k (l : list (N * A)) : sum_of (fun _ => k) l = count l * k.
Proof. unfold count. induction l as [|e l IH]; [reflexivity|]. cbn [sum_of fold_right length]. fold (sum_of (fun _ : A => k) l). lia. Qed.

(** The size by its parts. *)
Definition parts_size (p : params) (assets locals apps pages uints slices : N) : N :=
  300 + assets * (29 + asset_size p) + locals * 32 + apps * (61 + 2 * max_app_total_program_len p) + pages * (2 * max_app_total_program_len p) +
  uints * uint_size p + slices * bytes_size p.
Definition size_by_parts (p : params) (a : account_data) : N :=
  parts_size p (count (ad_assets a)) (count (ad_locals a)) (count (ad_apps a)) (ad_pages a) (num_uint (ad_schema a)) (num_byte_slice (ad_schema a)).

Lemma size_parts valid_key p addr a : (forall k, valid_key k = true -> h32 k) -> limits_small p = true -> h32 addr -> account_in_memory valid_key a -> account_within p a ->
  books_kept a -> stored_account addr a <= size_by_parts p a.
Proof.
  intros Vk Hs Ha (_ & _ & _ & Mv & Msel & _ & _ & _ & [Np Mp] & [_ Mh] & Mauth & _ & _ & _ & Mpages) (Wp & Wa & Wl & Wc & Fp & Fl & Fc) (Ki & Kl & Kc & Su & Sb & Sg).
  unfold limits_small in Hs. rewrite !andb_true_iff in Hs. destruct Hs as [[[[[[[[[[[[H1 H2] H3] H4] H5] H6] H7] H8] H9] H10] H11] H12] H13].
  rewrite N.leb_le in H1, H2, H3, H4, H5, H7, H8, H9, H11, H12, H13. rewrite N.ltb_lt in H6, H10.
  unfold stored_account. fold (size (balance_record_value addr a)). unfold balance_record_value. rewrite size_arr by (unfold upto; cbn; lia). cbn [total_size fold_right].
  assert (E : size (account_data_value a) <= size_by_parts p a - 40); [|
    unfold h32 in Ha; rewrite size_bin by (unfold upto; lia); rewrite Ha; unfold size_by_parts, parts_size in *; lia].
  unfold account_data_value. etransitivity; [apply size_arr_long; unfold upto; cbn; lia|]. cbn [total_size fold_right].
  assert (S0 : size (VStr (status_variant (ad_status a))) <= 17) by (destruct (ad_status a); vm_compute; discriminate).
  pose proof (size_num (ad_algos a)) as Z1. pose proof (size_num (ad_rewards_base a)) as Z2. pose proof (size_num (ad_rewarded a)) as Z3.
  pose proof (size_num (ad_vote_first a)) as Z4. pose proof (size_num (ad_vote_last a)) as Z5. pose proof (size_num (ad_dilution a)) as Z6. pose proof (size_num_32 (ad_pages a) Mpages) as Z7.
  apply Vk in Mv. unfold h32 in *. rewrite (size_bin (ad_vote_id a)) by (unfold upto; lia). rewrite (size_bin (ad_auth a)) by (unfold upto; lia). rewrite Mv, Mauth.
  pose proof (size_bytes (ad_selection_id a) ltac:(unfold upto; lia)) as Ssel. rewrite Msel in Ssel. pose proof (size_schema (ad_schema a)) as Z8.
  assert (Sp : size (indexed asset_params_value (ad_asset_params a)) <= 3 + count (ad_assets a) * (9 + asset_size p)).
  { etransitivity; [apply (size_indexed _ _ (asset_size p))|].
    - unfold upto in *. lia.
    - rewrite Forall_forall in *. intros e He. apply size_asset; try assumption; [exact (proj2 (Mp e He))|exact (Fp e He)].
    - apply N.add_le_mono_l, N.mul_le_mono_r. unfold count. pose proof (NoDup_incl_length Np Ki) as B. rewrite !map_length in B. lia. }
  assert (Sh : size (indexed holding_value (ad_assets a)) <= 3 + count (ad_assets a) * (9 + 11)).
  { apply (size_indexed _ _ 11).
    - unfold upto in *. lia.
    - rewrite Forall_forall. intros e _. unfold holding_value. rewrite size_arr by (unfold upto; cbn; lia). cbn [total_size fold_right]. rewrite size_bool.
      pose proof (size_num (held (snd e))). lia. }
  assert (Sl : size (indexed app_local_value (ad_locals a)) <= 3 + count (ad_locals a) * 32 +
     sum_of (fun x => num_uint (al_schema x)) (ad_locals a) * uint_size p + sum_of (fun x => num_byte_slice (al_schema x)) (ad_locals a) * bytes_size p).
  { etransitivity; [apply (size_indexed_sum _ (fun x => 23 + num_uint (al_schema x) * uint_size p + num_byte_slice (al_schema x) * bytes_size p))|].
    - unfold upto in *. lia.
    - rewrite Forall_forall in *. intros e He. unfold app_local_value. rewrite size_arr by (unfold upto; cbn; lia). cbn [total_size fold_right].
      pose proof (size_state_schema p _ _ _ H1 H2 H4 (Fl e He) (Kl e He)). pose proof (size_schema (al_schema (snd e))). lia.
    - rewrite !sum_of_add, !sum_of_mul, sum_of_const. lia. }
  assert (Sc : size (indexed app_params_value (ad_apps a)) <= 3 + count (ad_apps a) * (61 + 2 * max_app_total_program_len p) + ad_pages a * (2 * max_app_total_program_len p) +
     sum_of (fun x => num_uint (ap_global x)) (ad_apps a) * uint_size p + sum_of (fun x => num_byte_slice (ap_global x)) (ad_apps a) * bytes_size p).
  { etransitivity; [apply (size_indexed_sum _ (fun x => (52 + 2 * max_app_total_program_len p) + ap_pages x * (2 * max_app_total_program_len p) + num_uint (ap_global x) * uint_size p + num_byte_slice (ap_global x) * bytes_size p))|].
    - unfold upto in *. lia.
    - rewrite Forall_forall in *. intros e He. destruct (Fc e He) as (Wp' & _ & _ & Wt & Ws).
      unfold app_params_value. rewrite size_arr by (unfold upto; cbn; lia). cbn [total_size fold_right].
      pose proof (size_state_schema p _ _ _ H1 H2 H3 Ws (Kc e He)) as B1. rewrite (size_arr [schema_value _; _]) by (unfold upto; cbn; lia). cbn [total_size fold_right].
      pose proof (size_schema (ap_local (snd e))) as B2. pose proof (size_schema (ap_global (snd e))) as B3. rewrite (size_num_small (ap_pages (snd e))) by lia.
      unfold upto in Wt. rewrite app_length in Wt.
      assert ((1 + ap_pages (snd e)) * max_app_total_program_len p <= (1 + max_extra_app_program_pages p) * max_app_total_program_len p) by (apply N.mul_le_mono_r; lia).
      pose proof (size_bytes (ap_approval (snd e)) ltac:(unfold upto; lia)) as B4. pose proof (size_bytes (ap_clear (snd e)) ltac:(unfold upto; lia)) as B5. lia.
    - rewrite !sum_of_add, !sum_of_mul, !sum_of_const, <- Sg. lia. }
  unfold size_by_parts, parts_size. rewrite Su, Sb, !N.mul_add_distr_r.
  clear - Z1 Z2 Z3 Z4 Z5 Z6 Z7 Z8 Ssel S0 Sp Sh Sl Sc. lia.
Qed.

(** What the minimum balance pays for. *)
Lemma charges_account p a :
  charges p (as_account a) =
    ConsensusModel.min_balance p + count (ad_assets a) * ConsensusModel.min_balance p + count (ad_apps a) * app_flat_params_min_balance p +
    ad_pages a * app_flat_params_min_balance p + count (ad_locals a) * app_flat_opt_in_min_balance p +
    num_uint (ad_schema a) * (schema_min_balance_per_entry p + schema_uint_min_balance p) +
    num_byte_slice (ad_schema a) * (schema_min_balance_per_entry p + schema_bytes_min_balance p).
Proof. unfold charges, as_account, count. cbn [assets BasicsModel.app_params app_local_states total_app_schema total_extra_app_pages]. rewrite !map_length. lia. Qed.

(** A rate in bytes per 100000 at which each part is paid for, if there can be any. *)
Definition rate_covers (p : params) (r : N) : bool :=
  ((max_assets_per_account p =? 0) || ((29 + asset_size p) * 100000 <=? r * ConsensusModel.min_balance p)) &&
  ((max_apps_opted_in p =? 0) || (32 * 100000 <=? r * app_flat_opt_in_min_balance p)) &&
  (((max_apps_opted_in p =? 0) && (max_apps_created p =? 0)) ||
   (uint_size p * 100000 <=? r * (schema_min_balance_per_entry p + schema_uint_min_balance p)) &&
   (bytes_size p * 100000 <=? r * (schema_min_balance_per_entry p + schema_bytes_min_balance p))) && (300 * 100000 <=? r * ConsensusModel.min_balance p).
Definition rate_covers_programs (p : params) (r : N) : bool :=
  (max_apps_created p =? 0) || ((61 + 2 * max_app_total_program_len p) * 100000 <=? r * app_flat_params_min_balance p).

Lemma no_entries {A} (l : list A) n : upto n l -> n = 0 -> l = [].
Proof. unfold upto. intros Hl ->. destruct l; [reflexivity|cbn in Hl; lia]. Qed.
Lemma times_covers n x y b : (b = true -> n = 0) -> b || (x <=? y) = true -> n * x <= n * y.
Proof. intros Hb E. apply orb_true_iff in E. destruct E as [E|E]; [rewrite (Hb E); lia|]. apply N.leb_le in E. apply N.mul_le_mono_l. exact E. Qed.

Lemma paid_but_programs p r a : account_within p a -> books_kept a -> rate_covers p r = true ->
  size_by_parts p a * 100000 + r * (count (ad_apps a) * app_flat_params_min_balance p + ad_pages a * app_flat_params_min_balance p) <=
  r * charges p (as_account a) + (count (ad_apps a) * (61 + 2 * max_app_total_program_len p) + ad_pages a * (2 * max_app_total_program_len p)) * 100000.
Proof.
  intros (_ & Wa & Wl & Wc & _) (_ & _ & _ & Su & Sb & _) Hr. unfold rate_covers in Hr. rewrite !andb_true_iff, N.leb_le in Hr. destruct Hr as [[[R1 R2] R34] R5].
  assert (Q1 : count (ad_assets a) * ((29 + asset_size p) * 100000) <= count (ad_assets a) * (r * ConsensusModel.min_balance p)).
  { apply (times_covers _ _ _ _) with (2 := R1). intros E%N.eqb_eq. rewrite (no_entries _ _ Wa E). reflexivity. }
  assert (Q2 : count (ad_locals a) * (32 * 100000) <= count (ad_locals a) * (r * app_flat_opt_in_min_balance p)).
  { apply (times_covers _ _ _ _) with (2 := R2). intros E%N.eqb_eq. rewrite (no_entries _ _ Wl E). reflexivity. }
  rewrite orb_andb_distrib_r, andb_true_iff in R34. destruct R34 as [R3 R4].
  assert (Z : (max_apps_opted_in p =? 0) && (max_apps_created p =? 0) = true -> num_uint (ad_schema a) = 0 /\ num_byte_slice (ad_schema a) = 0).
  { rewrite andb_true_iff, !N.eqb_eq. intros [E1 E2]. rewrite Su, Sb, (no_entries _ _ Wl E1), (no_entries _ _ Wc E2). split; reflexivity. }
  pose proof (times_covers (num_uint (ad_schema a)) _ _ _ (fun E => proj1 (Z E)) R3) as Q3.
  pose proof (times_covers (num_byte_slice (ad_schema a)) _ _ _ (fun E => proj2 (Z E)) R4) as Q4.
  rewrite charges_account. unfold size_by_parts, parts_size. clear - Q1 Q2 Q3 Q4 R5. lia.
Qed.
Lemma paid p r a : account_within p a -> books_kept a -> rate_covers p r = true -> rate_covers_programs p r = true ->
  size_by_parts p a * 100000 <= r * charges p (as_account a).
Proof.
  intros W B Hr Hp. pose proof (paid_but_programs p r a W B Hr) as Q. destruct W as (_ & _ & _ & Wc & _). destruct B as (_ & _ & _ & _ & _ & Sg).
  assert (Z : (max_apps_created p =? 0) = true -> count (ad_apps a) = 0 /\ ad_pages a = 0).
  { rewrite N.eqb_eq. intros E. rewrite Sg, (no_entries _ _ Wc E). split; reflexivity. }
  pose proof (times_covers (count (ad_apps a)) _ _ _ (fun E => proj1 (Z E)) Hp) as Q1. pose proof (times_covers (ad_pages a) _ _ _ (fun E => proj2 (Z E)) Hp) as Q2.
  clear - Q Q1 Q2. lia.
Qed.

Lemma pages_upto p a : account_within p a -> books_kept a -> ad_pages a <= count (ad_apps a) * max_extra_app_program_pages p.
Proof.
  intros (_ & _ & _ & _ & _ & _ & Fc) (_ & _ & _ & _ & _ & ->). unfold count. induction Fc as [|e l He F IH]; [cbn; lia|].
  cbn [sum_of fold_right length]. fold (sum_of ap_pages l). destruct He as [He _]. lia.
Qed.

(** The built-in protocols. *)
Definition program_part (p : params) : N :=
  max_apps_created p * (61 + 2 * max_app_total_program_len p) + max_apps_created p * max_extra_app_program_pages p * (2 * max_app_total_program_len p).
Lemma rates_built_in : forallb (fun e => let p := snd e in
  (ConsensusModel.min_balance p <? 2 ^ 64) && (maximum_minimum_balance p <? 2 ^ 64 - 1) && rate_covers p 4300 && rate_covers_programs p 4300 &&
  if maximum_minimum_balance p =? 0 then account_size p <=? 850000
  else rate_covers p 540 && (540 * maximum_minimum_balance p + program_part p * 100000 <=? 850000 * 100000)) built_in = true.
Proof. vm_compute. reflexivity. Qed.

Lemma paid_lemma valid_key v p addr a : In (v, p) built_in -> (forall k, valid_key k = true -> h32 k) -> h32 addr -> account_in_memory valid_key a -> account_within p a -> books_kept a ->
  stored_account addr a * 100000 <= 4300 * account_min_balance p (as_account a).
Proof.
  intros Hin Vk Ha Hm Hw Hb. pose proof rates_built_in as R. rewrite forallb_forall in R. specialize (R _ Hin). cbv zeta in R. cbn [snd] in R.
  rewrite !andb_true_iff in R. destruct R as [[[[R1 _] R2] R3] _]. rewrite N.ltb_lt in R1. rewrite (min_balance_lemma p (as_account a) R1).
  pose proof small_built_in as B. rewrite forallb_forall in B. specialize (B _ Hin). cbn [snd] in B. apply andb_true_iff in B. destruct B as [B1 _].
  pose proof (size_parts valid_key p addr a Vk B1 Ha Hm Hw Hb) as S1. pose proof (paid p 4300 a Hw Hb R2 R3) as S2. pose proof (any_protocol valid_key v p addr a Hin Vk Ha Hm Hw) as S3.
  unfold max64, two64 in *. change (2 ^ 64) with 18446744073709551616. clear - S1 S2 S3. lia.
Qed.
Lemma documented_lemma valid_key v p addr a : In (v, p) built_in -> (forall k, valid_key k = true -> h32 k) -> h32 addr -> account_in_memory valid_key a -> account_within p a -> books_kept a ->
  affordable p a -> stored_account addr a <= MAX_ENCODED_ACCOUNT_DATA_SIZE.
Proof.
  intros Hin Vk Ha Hm Hw Hb Hf. pose proof rates_built_in as R. rewrite forallb_forall in R. specialize (R _ Hin). cbv zeta in R. cbn [snd] in R.
  rewrite !andb_true_iff in R. destruct R as [[[[R1 R4] _] _] R]. rewrite N.ltb_lt in R1, R4.
  pose proof small_built_in as B. rewrite forallb_forall in B. specialize (B _ Hin). cbn [snd] in B. apply andb_true_iff in B. destruct B as [B1 _].
  unfold MAX_ENCODED_ACCOUNT_DATA_SIZE. destruct (N.eqb_spec (maximum_minimum_balance p) 0) as [E|E].
  - apply N.leb_le in R. pose proof (size_account valid_key p addr a Vk B1 Ha Hm Hw). lia.
  - destruct Hf as [Hf|Hf]; [contradiction|]. rewrite (min_balance_lemma p (as_account a) R1) in Hf. apply andb_true_iff in R. destruct R as [R2 R3]. apply N.leb_le in R3.
    pose proof (size_parts valid_key p addr a Vk B1 Ha Hm Hw Hb) as S1. pose proof (paid_but_programs p 540 a Hw Hb R2) as S2. pose proof (pages_upto p a Hw Hb) as S3.
    destruct Hw as (_ & _ & _ & Wc & _). unfold upto in Wc. fold (count (ad_apps a)) in Wc.
    assert (Hc : charges p (as_account a) <= maximum_minimum_balance p) by (clear - Hf R4; unfold max64, two64 in *; change (2 ^ 64) with 18446744073709551616 in *; lia).
    assert (P1 : count (ad_apps a) * (61 + 2 * max_app_total_program_len p) <= max_apps_created p * (61 + 2 * max_app_total_program_len p)) by (apply N.mul_le_mono_r; exact Wc).
    assert (P2 : ad_pages a * (2 * max_app_total_program_len p) <= max_apps_created p * max_extra_app_program_pages p * (2 * max_app_total_program_len p)).
    { apply N.mul_le_mono_r. etransitivity; [exact S3|]. apply N.mul_le_mono_r. exact Wc. }
    assert (P3 : 540 * charges p (as_account a) <= 540 * maximum_minimum_balance p) by (apply N.mul_le_mono_l; exact Hc).
    unfold program_part in R3. clear - S1 S2 P1 P2 P3 R3. lia.
Qed.
Lemma paid_rate valid_key v p addr a : In (v, p) built_in -> (forall k, valid_key k = true -> h32 k) -> h32 addr -> account_in_memory valid_key a -> account_within p a -> books_kept a ->
  stored_account addr a * 1000 <= 43 * account_min_balance p (as_account a).
Proof. intros Hin Vk Ha Hm Hw Hb. pose proof (paid_lemma valid_key v p addr a Hin Vk Ha Hm Hw Hb). lia. Qed.
Lemma balance_pays valid_key v p addr a : In (v, p) built_in -> (forall k, valid_key k = true -> h32 k) -> h32 addr -> account_in_memory valid_key a -> account_within p a -> books_kept a ->
  account_min_balance p (as_account a) <= ad_algos a -> stored_account addr a <= 43 * ad_algos a / 1000.
Proof. intros Hin Vk Ha Hm Hw Hb Hx. pose proof (paid_rate valid_key v p addr a Hin Vk Ha Hm Hw Hb). apply N.div_le_lower_bound; lia. Qed.
