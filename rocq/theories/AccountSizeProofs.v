(** Proofs for C166. *)
From Verif Require Import Base BaseFacts MsgpackModel MsgpackProofs ConsensusModel BasicsModel TxModel IdsModel AccountSizeModel AccountSizeSpec TxCodecSpec TxDecodeSpec IdsSpec GenDecodeSpec JsonModel.
Local Open Scope N_scope.

Definition size (v : value) : N := N.of_nat (length (encode v)).
Definition total_size (l : list value) : N := fold_right (fun v n => size v + n) 0 l.

Lemma write_uint_upto n : N.of_nat (length (write_uint n)) <= 9.
Proof. unfold write_uint. repeat destruct (_ <? _); cbn [length]; rewrite ?be_length; lia. Qed.
Lemma size_num n : size (VNum n) <= 9.
Proof. unfold size, VNum. cbn [encode write_header]. unfold write_sint. replace (0 <=? Z.of_N n)%Z with true by lia. rewrite N2Z.id. apply write_uint_upto. Qed.
Lemma size_num_small n : n < 128 -> size (VNum n) = 1.
Proof.
  intros Hn. unfold size, VNum. cbn [encode write_header]. unfold write_sint. replace (0 <=? Z.of_N n)%Z with true by lia.
  rewrite N2Z.id. unfold write_uint. replace (n <? 128) with true by lia. reflexivity.
Qed.
Lemma size_num_byte n : n < 256 -> size (VNum n) <= 2.
Proof.
  intros Hn. unfold size, VNum. cbn [encode write_header]. unfold write_sint. replace (0 <=? Z.of_N n)%Z with true by lia.
  rewrite N2Z.id. unfold write_uint. destruct (n <? 128); [cbn; lia|]. replace (n <? 256) with true by lia. cbn [length]. rewrite be_length. lia.
Qed.
Lemma size_num_32 n : n < 2 ^ 32 -> size (VNum n) <= 5.
Proof.
  intros Hn. unfold size, VNum. cbn [encode write_header]. unfold write_sint. replace (0 <=? Z.of_N n)%Z with true by lia.
  rewrite N2Z.id. unfold write_uint. destruct (n <? 128); [cbn; lia|]. destruct (n <? 256); [cbn [length]; rewrite be_length; lia|].
  destruct (n <? 65536); [cbn [length]; rewrite be_length; lia|]. replace (n <? 4294967296) with true by lia. cbn [length]. rewrite be_length. lia.
Qed.
Lemma size_num_big n : 2 ^ 32 <= n -> size (VNum n) = 9.
Proof.
  intros Hn. unfold size, VNum. cbn [encode write_header]. unfold write_sint. replace (0 <=? Z.of_N n)%Z with true by lia.
  rewrite N2Z.id. unfold write_uint. replace (n <? 128) with false by lia. replace (n <? 256) with false by lia.
  replace (n <? 65536) with false by lia. replace (n <? 4294967296) with false by lia. cbn [length]. rewrite be_length. lia.
Qed.
Lemma size_bool b : size (VBool b) = 1.
Proof. reflexivity. Qed.
Lemma size_str s : upto 255 s -> size (VStr s) <= 2 + N.of_nat (length s).
Proof.
  unfold upto, size. intros Hs. cbn [encode write_header]. destruct (_ <? 32); [rewrite app_length; cbn [length]; lia|].
  replace (N.of_nat (length s) <? 256) with true by lia. rewrite app_length. cbn [length]. rewrite be_length. lia.
Qed.
Lemma size_bin s : upto 255 s -> size (VBin s) = 2 + N.of_nat (length s).
Proof.
  unfold upto, size. intros Hs. cbn [encode write_header]. 
  replace (N.of_nat (length s) <? 256) with true by lia. rewrite app_length. cbn [length]. rewrite be_length. lia.
Qed.
Lemma size_concat l : N.of_nat (length (concat (map encode l))) = total_size l.
Proof. induction l as [|v l IH]; [reflexivity|]. cbn [map concat total_size fold_right]. rewrite app_length. unfold size at 1. fold (total_size l). lia. Qed.
Lemma size_arr l : upto 15 l -> size (VArr l) = 1 + total_size l.
Proof.
  unfold upto, size. intros Hl. cbn [encode write_header]. replace (N.of_nat (length l) <? 16) with true by lia.
  rewrite app_length, <- size_concat. cbn [length]. lia.
Qed.
Lemma size_arr_long l : upto 65535 l -> size (VArr l) <= 3 + total_size l.
Proof.
  unfold upto, size. intros Hl. cbn [encode write_header]. rewrite app_length, <- size_concat. destruct (_ <? 16); [cbn [length]; lia|].
  replace (N.of_nat (length l) <? 65536) with true by lia. cbn [length]. rewrite be_length. lia.
Qed.
Lemma size_bytes s : upto 65535 s -> size (VBytes s) <= 3 + 2 * N.of_nat (length s).
Proof.
  intros Hs. unfold VBytes. etransitivity; [apply size_arr_long; unfold upto in *; rewrite map_length; exact Hs|].
  enough (total_size (map (fun b => VInt (Z.of_N (Byte.to_N b))) s) <= 2 * N.of_nat (length s)) by lia. clear Hs.
  induction s as [|b s IH]; [cbn; lia|]. cbn [map total_size fold_right length]. fold (total_size (map (fun b => VInt (Z.of_N (Byte.to_N b))) s)).
  pose proof (size_num_byte (Byte.to_N b)). unfold VNum in H. pose proof (Byte.to_N_bounded b). lia.
Qed.
Lemma size_nil_bytes : size (VBytes []) = 1.
Proof. reflexivity. Qed.

(** Maps. *)
Lemma size_map_upto (l : list (value * value)) k : upto 65535 l -> Forall (fun e => size (fst e) + size (snd e) <= k) l -> size (VMap l) <= 3 + N.of_nat (length l) * k.
Proof.
  unfold upto. intros Hl F. unfold size. cbn [encode write_header]. rewrite app_length.
  assert (B : N.of_nat (length (concat (map (fun '(k, x) => encode k ++ encode x) l))) <= N.of_nat (length l) * k).
  { clear Hl. induction F as [|[a b] l Hab F IH]; [cbn; lia|]. cbn [map concat]. rewrite !app_length. unfold size in Hab. cbn [fst snd] in Hab.
    cbn [length]. lia. }
  destruct (_ <? 16); [cbn [length]; lia|]. replace (N.of_nat (length l) <? 65536) with true by lia. cbn [length]. rewrite be_length. lia.
Qed.
Lemma size_map_atleast (l : list (value * value)) k : Forall (fun e => k <= size (fst e) + size (snd e)) l -> N.of_nat (length l) * k <= size (VMap l).
Proof.
  intros F. unfold size. cbn [encode write_header]. rewrite app_length.
  assert (B : N.of_nat (length l) * k <= N.of_nat (length (concat (map (fun '(k, x) => encode k ++ encode x) l)))).
  { induction F as [|[a b] l Hab F IH]; [cbn; lia|]. cbn [map concat]. rewrite !app_length. unfold size in Hab. cbn [fst snd] in Hab.
    cbn [length]. lia. }
  lia.
Qed.
Lemma size_indexed {A} (f : A -> value) l k : upto 65535 l -> Forall (fun e => size (f (snd e)) <= k) l -> size (indexed f l) <= 3 + N.of_nat (length l) * (9 + k).
Proof.
  intros Hl F. unfold indexed. etransitivity; [apply (size_map_upto _ (9 + k))|rewrite map_length; lia].
  - unfold upto in *. rewrite map_length. exact Hl.
  - apply Forall_map. eapply Forall_impl; [|exact F]. intros e He. cbn [fst snd]; cbn [fst snd] in He. pose proof (size_num (fst e)) as B; clear - He B; cbv beta in *; lia.
Qed.
Lemma size_indexed_atleast {A} (f : A -> value) l k : Forall (fun e => 2 ^ 32 <= fst e /\ k <= size (f (snd e))) l -> N.of_nat (length l) * (9 + k) <= size (indexed f l).
Proof.
  intros F. unfold indexed. etransitivity; [|apply (size_map_atleast _ (9 + k))]; [rewrite map_length; lia|].
  apply Forall_map. eapply Forall_impl; [|exact F]. intros e [He Hk]. cbn [fst snd]. rewrite size_num_big by exact He. lia.
Qed.

Definition map_total (l : list (value * value)) : N := fold_right (fun e n => size (fst e) + size (snd e) + n) 0 l.
Lemma size_map l : upto 65535 l -> size (VMap l) <= 3 + map_total l.
Proof.
  unfold upto. intros Hl. unfold size. cbn [encode write_header]. rewrite app_length.
  assert (B : N.of_nat (length (concat (map (fun '(k, x) => encode k ++ encode x) l))) = map_total l).
  { clear Hl. induction l as [|[a b] l IH]; [reflexivity|]. cbn [map concat map_total fold_right fst snd]. fold (map_total l). rewrite !app_length. unfold size. lia. }
  destruct (_ <? 16); [cbn [length]; lia|]. replace (N.of_nat (length l) <? 65536) with true by lia. cbn [length]. rewrite be_length. lia.
Qed.

Definition entry_size (p : params) : N :=
  N.max (13 + N.min (max_app_sum_key_value_lens p + max_app_bytes_value_len p) (max_app_key_len p + 2 * max_app_bytes_value_len p)) (18 + max_app_key_len p).
Lemma size_entry p e : max_app_key_len p <= 255 -> max_app_bytes_value_len p <= 65535 -> entry_within p e ->
  size (VStr (fst e)) + size (teal_value_value (snd e)) <= entry_size p.
Proof.
  intros Hk Hv [Ek Ev]. destruct e as [k [t b u]]. cbn [fst snd ttype teal_bytes teal_uint] in *.
  pose proof (size_str k ltac:(unfold upto in *; lia)). unfold teal_value_value. cbn [ttype teal_bytes teal_uint].
  rewrite size_arr by (unfold upto; cbn; lia). cbn [total_size fold_right]. unfold upto in *. unfold entry_size. destruct t.
  - destruct Ev as (Eb & Es & ->). rewrite app_length in Es. change (size (VStr (teal_variant TBytes))) with 6. change (size (VNum 0)) with 1.
    pose proof (size_bytes b ltac:(unfold upto; lia)). lia.
  - subst b. change (size (VStr (teal_variant TUint))) with 5. rewrite size_nil_bytes. pose proof (size_num u). lia.
Qed.
Lemma size_state p n l : max_app_key_len p <= 255 -> max_app_bytes_value_len p <= 65535 -> n <= 65535 -> state_within p n l ->
  size (teal_map_value l) <= 3 + n * entry_size p.
Proof.
  intros Hk Hv Hn [Hl F]. unfold teal_map_value. etransitivity; [apply (size_map_upto _ (entry_size p))|].
  - unfold upto in *. rewrite map_length. lia.
  - apply Forall_map. eapply Forall_impl; [|exact F]. intros e He. cbn [fst snd]. apply size_entry; assumption.
  - rewrite map_length. unfold upto in Hl. nia.
Qed.
Lemma size_schema s : size (schema_value s) <= 19.
Proof. unfold schema_value. rewrite size_arr by (unfold upto; cbn; lia). cbn [total_size fold_right]. pose proof (size_num (num_uint s)). pose proof (size_num (num_byte_slice s)). lia. Qed.

Definition asset_size (p : params) : N := 221 + max_asset_unit_name_bytes p + max_asset_name_bytes p + max_asset_url_bytes p.
Lemma size_asset p a : max_asset_unit_name_bytes p <= 255 -> max_asset_name_bytes p <= 255 -> max_asset_url_bytes p <= 255 -> max_asset_decimals p < 128 ->
  params_in_memory a -> asset_within p a -> size (asset_params_value a) <= asset_size p.
Proof.
  intros Hu Hn Hl Hd (_ & _ & _ & _ & _ & M & A & B & C & D) (Wd & Wu & Wn & Wl). unfold asset_params_value.
  rewrite size_arr by (unfold upto; cbn; lia). cbn [total_size fold_right]. unfold h32 in *. unfold upto in *.
  pose proof (size_num (total a)). rewrite (size_num_small (decimals a)) by lia. rewrite size_bool.
  pose proof (size_str (unit_name a) ltac:(unfold upto; lia)). pose proof (size_str (asset_name a) ltac:(unfold upto; lia)).
  pose proof (size_str (url a) ltac:(unfold upto; lia)). pose proof (size_bytes (metadata_hash a) ltac:(unfold upto; lia)).
  rewrite !size_bin by (unfold upto; lia). rewrite A, B, C, D. unfold asset_size. rewrite M in *. lia.
Qed.
Definition app_size (p : params) : N :=
  52 + 2 * ((1 + max_extra_app_program_pages p) * max_app_total_program_len p) + max_global_schema_entries p * entry_size p.
Lemma size_app p a : max_app_key_len p <= 255 -> max_app_bytes_value_len p <= 65535 -> max_global_schema_entries p <= 65535 ->
  (1 + max_extra_app_program_pages p) * max_app_total_program_len p <= 65535 -> max_extra_app_program_pages p < 128 -> app_within p a ->
  size (app_params_value a) <= app_size p.
Proof.
  intros Hk Hv Hg Ht Hx (Wp & _ & _ & Wt & Ws). unfold app_params_value. rewrite size_arr by (unfold upto; cbn; lia). cbn [total_size fold_right].
  pose proof (size_state p _ _ Hk Hv Hg Ws). rewrite (size_arr [schema_value _; _]) by (unfold upto; cbn; lia). cbn [total_size fold_right].
  pose proof (size_schema (ap_local a)). pose proof (size_schema (ap_global a)). rewrite (size_num_small (ap_pages a)) by lia.
  unfold upto in Wt. rewrite app_length in Wt.
  assert ((1 + ap_pages a) * max_app_total_program_len p <= (1 + max_extra_app_program_pages p) * max_app_total_program_len p) by (apply N.mul_le_mono_r; lia).
  pose proof (size_bytes (ap_approval a) ltac:(unfold upto; lia)). pose proof (size_bytes (ap_clear a) ltac:(unfold upto; lia)).
  unfold app_size. lia.
Qed.
Definition local_size (p : params) : N := 23 + max_local_schema_entries p * entry_size p.
Lemma size_local p a : max_app_key_len p <= 255 -> max_app_bytes_value_len p <= 65535 -> max_local_schema_entries p <= 65535 ->
  state_within p (max_local_schema_entries p) (al_values a) -> size (app_local_value a) <= local_size p.
Proof.
  intros Hk Hv Hg Ws. unfold app_local_value. rewrite size_arr by (unfold upto; cbn; lia). cbn [total_size fold_right].
  pose proof (size_state p _ _ Hk Hv Hg Ws). pose proof (size_schema (al_schema a)). unfold local_size. lia.
Qed.

Definition limits_small (p : params) : bool :=
  (max_app_key_len p <=? 255) && (max_app_bytes_value_len p <=? 65535) && (max_global_schema_entries p <=? 65535) && (max_local_schema_entries p <=? 65535) &&
  ((1 + max_extra_app_program_pages p) * max_app_total_program_len p <=? 65535) && (max_extra_app_program_pages p <? 128) &&
  (max_asset_unit_name_bytes p <=? 255) && (max_asset_name_bytes p <=? 255) && (max_asset_url_bytes p <=? 255) && (max_asset_decimals p <? 128) &&
  (max_assets_per_account p <=? 65535) && (max_apps_opted_in p <=? 65535) && (max_apps_created p <=? 65535).
Definition account_size (p : params) : N :=
  300 + max_assets_per_account p * (9 + asset_size p) + max_assets_per_account p * 20 + max_apps_opted_in p * (9 + local_size p) + max_apps_created p * (9 + app_size p).

Lemma size_account valid_key p addr a : (forall k, valid_key k = true -> h32 k) -> limits_small p = true -> h32 addr -> account_in_memory valid_key a -> account_within p a ->
  stored_account addr a <= account_size p.
Proof.
  intros Vk Hs Ha (_ & _ & _ & Mv & Msel & _ & _ & _ & [_ Mp] & [_ Mh] & Mauth & _ & _ & _ & Mpages) (Wp & Wa & Wl & Wc & Fp & Fl & Fc).
  unfold limits_small in Hs. rewrite !andb_true_iff in Hs. destruct Hs as [[[[[[[[[[[[H1 H2] H3] H4] H5] H6] H7] H8] H9] H10] H11] H12] H13].
  rewrite N.leb_le in H1, H2, H3, H4, H5, H7, H8, H9, H11, H12, H13. rewrite N.ltb_lt in H6, H10.
  unfold stored_account. fold (size (balance_record_value addr a)). unfold balance_record_value. rewrite size_arr by (unfold upto; cbn; lia). cbn [total_size fold_right].
  assert (E : size (account_data_value a) <= account_size p - 40); [|
    unfold h32 in Ha; rewrite size_bin by (unfold upto; lia); rewrite Ha; unfold account_size in *; lia].
  unfold account_data_value. etransitivity; [apply size_arr_long; unfold upto; cbn; lia|]. cbn [total_size fold_right].
  assert (S0 : size (VStr (status_variant (ad_status a))) <= 17) by (destruct (ad_status a); vm_compute; discriminate).
  pose proof (size_num (ad_algos a)). pose proof (size_num (ad_rewards_base a)). pose proof (size_num (ad_rewarded a)).
  pose proof (size_num (ad_vote_first a)). pose proof (size_num (ad_vote_last a)). pose proof (size_num (ad_dilution a)). pose proof (size_num_32 (ad_pages a) Mpages).
  apply Vk in Mv. unfold h32 in *. rewrite (size_bin (ad_vote_id a)) by (unfold upto; lia). rewrite (size_bin (ad_auth a)) by (unfold upto; lia). rewrite Mv, Mauth.
  pose proof (size_bytes (ad_selection_id a) ltac:(unfold upto; lia)) as Ssel. rewrite Msel in Ssel. pose proof (size_schema (ad_schema a)).
  assert (Sp : size (indexed asset_params_value (ad_asset_params a)) <= 3 + max_assets_per_account p * (9 + asset_size p)).
  { etransitivity; [apply (size_indexed _ _ (asset_size p))|].
    - unfold upto in *. lia.
    - rewrite Forall_forall in *. intros e He. apply size_asset; try assumption; [exact (proj2 (Mp e He))|exact (Fp e He)].
    - unfold upto in Wp. apply N.add_le_mono_l, N.mul_le_mono_r. exact Wp. }
  assert (Sh : size (indexed holding_value (ad_assets a)) <= 3 + max_assets_per_account p * (9 + 11)).
  { etransitivity; [apply (size_indexed _ _ 11)|].
    - unfold upto in *. lia.
    - rewrite Forall_forall. intros e _. unfold holding_value. rewrite size_arr by (unfold upto; cbn; lia). cbn [total_size fold_right]. rewrite size_bool.
      pose proof (size_num (held (snd e))). lia.
    - unfold upto in Wa. apply N.add_le_mono_l, N.mul_le_mono_r. exact Wa. }
  assert (Sl : size (indexed app_local_value (ad_locals a)) <= 3 + max_apps_opted_in p * (9 + local_size p)).
  { etransitivity; [apply (size_indexed _ _ (local_size p))|].
    - unfold upto in *. lia.
    - rewrite Forall_forall in *. intros e He. apply size_local; try assumption. exact (Fl e He).
    - unfold upto in Wl. apply N.add_le_mono_l, N.mul_le_mono_r. exact Wl. }
  assert (Sc : size (indexed app_params_value (ad_apps a)) <= 3 + max_apps_created p * (9 + app_size p)).
  { etransitivity; [apply (size_indexed _ _ (app_size p))|].
    - unfold upto in *. lia.
    - rewrite Forall_forall in *. intros e He. apply size_app; try assumption. exact (Fc e He).
    - unfold upto in Wc. apply N.add_le_mono_l, N.mul_le_mono_r. exact Wc. }
  unfold account_size.
  set (X := max_assets_per_account p * (9 + asset_size p)) in *. set (Y := max_apps_opted_in p * (9 + local_size p)) in *. set (Z := max_apps_created p * (9 + app_size p)) in *.
  clearbody X Y Z. clear - H H0 H14 H15 H16 H17 H18 H19 Ssel S0 Sp Sh Sl Sc. lia.
Qed.

(** The built-in protocols. *)
Lemma small_built_in : forallb (fun e => limits_small (snd e) && (account_size (snd e) <=? 940000)) built_in = true.
Proof. vm_compute. reflexivity. Qed.
Lemma older_built_in : forallb (fun e => match fst e with V30 | Future => true | _ => account_size (snd e) <=? 850000 end) built_in = true.
Proof. vm_compute. reflexivity. Qed.

Lemma any_protocol valid_key v p addr a : In (v, p) built_in -> (forall k, valid_key k = true -> h32 k) -> h32 addr -> account_in_memory valid_key a -> account_within p a ->
  stored_account addr a <= 940000.
Proof.
  intros Hin Vk Ha Hm Hw. pose proof small_built_in as B. rewrite forallb_forall in B. specialize (B _ Hin). cbn [snd] in B.
  apply andb_true_iff in B. destruct B as [B1 B2]. rewrite N.leb_le in B2. pose proof (size_account valid_key p addr a Vk B1 Ha Hm Hw). lia.
Qed.
Lemma older_protocol valid_key v p addr a : In (v, p) built_in -> v <> V30 -> v <> Future -> (forall k, valid_key k = true -> h32 k) -> h32 addr ->
  account_in_memory valid_key a -> account_within p a -> stored_account addr a <= MAX_ENCODED_ACCOUNT_DATA_SIZE.
Proof.
  intros Hin N1 N2 Vk Ha Hm Hw. pose proof small_built_in as B. rewrite forallb_forall in B. specialize (B _ Hin). cbn [snd] in B.
  apply andb_true_iff in B. destruct B as [B1 _]. pose proof older_built_in as C. rewrite forallb_forall in C. specialize (C _ Hin). cbn [fst snd] in C.
  pose proof (size_account valid_key p addr a Vk B1 Ha Hm Hw) as D. unfold MAX_ENCODED_ACCOUNT_DATA_SIZE.
  destruct v; try (apply N.leb_le in C; exact (N.le_trans _ _ _ D C)); contradiction.
Qed.

(** The biggest account. *)
Definition index (i : nat) : N := 1099511627776 + N.of_nat i.
Definition copies {A} (n : nat) (x : A) : list (N * A) := map (fun i => (index i, x)) (seq 0 n).
Lemma copies_in_memory {A} (P : A -> Prop) n x : N.of_nat n < 1000000 -> P x -> indexed_in_memory P (copies n x).
Proof.
  intros Hn Hx. split.
  - unfold copies. rewrite map_map. cbn [fst]. apply FinFun.Injective_map_NoDup; [|apply seq_NoDup]. intros i j. unfold index. lia.
  - unfold copies. rewrite Forall_map, Forall_forall. intros i Hi%in_seq. cbn [fst snd]. split; [|exact Hx]. unfold n64, index. lia.
Qed.
Lemma copies_length {A} n (x : A) : length (copies n x) = n.
Proof. unfold copies. rewrite map_length, seq_length. reflexivity. Qed.
Lemma copies_forall {A} (P : A -> Prop) n x : P x -> Forall (fun e => P (snd e)) (copies n x).
Proof. intros Hx. unfold copies. rewrite Forall_map, Forall_forall. intros i _. exact Hx. Qed.
Lemma copies_size {A} (f : A -> value) n x k : k <= size (f x) -> N.of_nat n * (9 + k) <= size (indexed f (copies n x)).
Proof.
  intros Hk. pose proof (size_indexed_atleast f (copies n x) k) as B. rewrite copies_length in B. apply B.
  unfold copies. rewrite Forall_map, Forall_forall. intros i _. cbn [fst snd]. split; [unfold index; lia|exact Hk].
Qed.
Definition ff (n : nat) : bytes := repeat xff n.
Definition letters (n : nat) : bytes := repeat "a"%byte n.
Definition huge : N := 18446744073709551615.
Definition big_asset : asset_parameters :=
  mkAssetParams huge 19 true (letters 8) (letters 32) (letters 96) (ff 32) (ff 32) (ff 32) (ff 32) (ff 32).
Definition big_state (n : nat) : list (bytes * teal_value) := map (fun i => ([b8 (N.of_nat i)], mkTeal TBytes (ff 127) 0)) (seq 0 n).
Definition big_schema : schema := mkSchema huge huge.
Definition big_local : app_local := mkAppLocal (mkSchema 0 16) (big_state 16).
Definition big_app : app_params := mkAppParams (ff (N.to_nat 8192)) [] (big_state 64) big_schema (mkSchema 0 64) 3.
Definition big_account : account_data :=
  mkAccountData NotParticipating huge huge huge (ff 32) (ff 32) huge huge huge (copies 1000 big_asset) (copies 1000 (mkHolding huge true)) (ff 32)
    (copies 50 big_local) (copies 10 big_app) (mkSchema 0 1440) 30.

Definition key32 (k : bytes) : bool := (length k =? 32)%nat.
Definition current_params : params := match List.find (fun e => match fst e with V30 => true | _ => false end) built_in with Some e => snd e | None => v7_base end.
Lemma current_in : In (V30, current_params) built_in.
Proof. apply (List.find_some (fun e : version * params => match fst e with V30 => true | _ => false end)). vm_compute. reflexivity. Qed.
Lemma big_state_in n : (n <= 64)%nat -> teal_map_in_memory (big_state n).
Proof.
  intros Hn. unfold big_state, teal_map_in_memory. rewrite map_map. cbn [fst]. split.
  - apply (NoDup_map_inv (fun l : bytes => match l with b :: _ => N.to_nat (Byte.to_N b) | [] => O end)). rewrite map_map.
    rewrite (map_ext_in _ (fun i => i)); [rewrite map_id; apply seq_NoDup|]. intros i Hi%in_seq. rewrite to_N_b8. lia.
  - rewrite Forall_map, Forall_forall. intros i Hi%in_seq. cbn [fst snd teal_uint]. split; [|unfold n64; lia].
    assert (A : forallb (fun i => utf8 [b8 (N.of_nat i)]) (seq 0 64) = true) by (vm_compute; reflexivity). rewrite forallb_forall in A.
    apply A, in_seq. lia.
Qed.
Lemma big_state_within n : state_within current_params (N.of_nat n) (big_state n).
Proof.
  split; [unfold upto, big_state; rewrite map_length, seq_length; lia|]. unfold big_state. rewrite Forall_map, Forall_forall. intros i _.
  split; cbn [fst snd ttype teal_bytes teal_uint]; [vm_compute; discriminate|]. repeat split; vm_compute; discriminate.
Qed.
Ltac conjs := repeat match goal with |- _ /\ _ => split end.
Lemma big_in_memory : account_in_memory key32 big_account.
Proof.
  assert (A : n64 huge) by (vm_compute; reflexivity).
  unfold big_account, account_in_memory.
  cbn [ad_algos ad_rewards_base ad_rewarded ad_vote_id ad_selection_id ad_vote_first ad_vote_last ad_dilution ad_asset_params ad_assets ad_auth ad_locals ad_apps ad_schema ad_pages].
  conjs; try exact A; try reflexivity; try (apply copies_in_memory; [lia|]).
  - unfold params_in_memory. conjs; try exact A; vm_compute; reflexivity.
  - exact A.
  - split; [split; vm_compute; reflexivity|]. apply big_state_in. lia.
  - conjs; [apply big_state_in; lia|exact (conj A A)|split; vm_compute; reflexivity|vm_compute; reflexivity].
  - split; vm_compute; reflexivity.
Qed.
Lemma big_within : account_within current_params big_account.
Proof.
  unfold account_within, big_account. cbn [ad_asset_params ad_assets ad_locals ad_apps]. unfold upto at 1 2 3 4. rewrite !copies_length.
  split; [vm_compute; discriminate|]. split; [vm_compute; discriminate|]. split; [vm_compute; discriminate|]. split; [vm_compute; discriminate|]. split; [|split].
  - apply (copies_forall (asset_within current_params)). repeat split; vm_compute; discriminate.
  - apply (copies_forall (fun x => state_within current_params (max_local_schema_entries current_params) (al_values x))). exact (big_state_within 16).
  - apply (copies_forall (app_within current_params)).
    split; [vm_compute; discriminate|]. split; [vm_compute; discriminate|]. split; [vm_compute; discriminate|]. split; [vm_compute; discriminate|]. exact (big_state_within 64).
Qed.
Lemma big_books : books_kept big_account.
Proof.
  unfold books_kept, big_account. cbn [ad_asset_params ad_assets ad_locals ad_apps ad_schema ad_pages]. split; [|split; [|split]].
  - unfold copies. rewrite !map_map. cbn [fst]. apply incl_refl.
  - apply (copies_forall (fun x => keeps_schema (al_schema x) (al_values x))). split; vm_compute; discriminate.
  - apply (copies_forall (fun x => keeps_schema (ap_global x) (ap_state x))). split; vm_compute; discriminate.
  - split; [vm_compute; reflexivity|]. split; vm_compute; reflexivity.
Qed.
Lemma big_not_affordable : ~ affordable current_params big_account.
Proof. intros [A|A]; [vm_compute in A; discriminate A|]. vm_compute in A. apply A. reflexivity. Qed.
Lemma big_size : MAX_ENCODED_ACCOUNT_DATA_SIZE < stored_account (ff 32) big_account.
Proof.
  unfold stored_account. fold (size (balance_record_value (ff 32) big_account)). unfold balance_record_value. rewrite size_arr by (vm_compute; discriminate).
  cbn [total_size fold_right]. unfold MAX_ENCODED_ACCOUNT_DATA_SIZE.
  enough (850000 < size (account_data_value big_account)) by lia.
  assert (E : forall l, total_size l <= size (VArr l)).
  { intros l. unfold size. cbn [encode]. rewrite app_length, <- size_concat. lia. }
  unfold account_data_value. eapply N.lt_le_trans; [|apply E]. unfold big_account. cbn [ad_asset_params ad_assets ad_locals ad_apps total_size fold_right].
  pose proof (copies_size asset_params_value 1000 big_asset 355 ltac:(vm_compute; discriminate)).
  pose proof (copies_size holding_value 1000 (mkHolding huge true) 11 ltac:(vm_compute; discriminate)).
  pose proof (copies_size app_local_value 50 big_local 4000 ltac:(vm_compute; discriminate)).
  pose proof (copies_size app_params_value 10 big_app 33000 ltac:(vm_compute; discriminate)).
  lia.
Qed.
Lemma key32_ok : forall k, key32 k = true -> h32 k.
Proof. intros k. unfold key32, h32. apply Nat.eqb_eq. Qed.
