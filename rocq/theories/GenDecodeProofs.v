From Verif Require Import Base BaseFacts AddressModel GenDecodeModel GenDecodeSpec TxCodecSpec TxDecodeSpec IdsSpec JsonModel.
From Verif Require Import MsgpackProofs TxCodecProofs TxDecodeProofs.
Local Open Scope N_scope.

Section Read.
Variables (valid_key : bytes -> bool) (bins : bool).

Lemma get_seq_VBytes s : get_seq bins (VBytes s) = Some s.
Proof. change (get_vec get_u8 (VBytes s) = Some s). apply get_vec_VBytes. Qed.
Lemma get_32_VBytes s : h32 s -> get_32 bins (VBytes s) = Some s.
Proof. intros L. unfold get_32, get_fixed. rewrite get_seq_VBytes, L. reflexivity. Qed.
Lemma get_32_VBin s : h32 s -> get_32 bins (VBin s) = if bins then Some s else None.
Proof. intros L. unfold get_32, get_fixed, get_seq. destruct bins; [rewrite L|]; reflexivity. Qed.
Lemma get_str_VStr s : is_utf8 s -> get_str (VStr s) = Some s.
Proof. intros U. unfold get_str. rewrite U. reflexivity. Qed.
Lemma get_version_name v : get_version (VStr (variant_name v)) = Some v.
Proof. destruct v; vm_compute; reflexivity. Qed.
Lemma get_status_name s : get_status (VStr (status_variant s)) = Some s.
Proof. destruct s; vm_compute; reflexivity. Qed.

Lemma filter_all {A} (p : A -> bool) l : Forall (fun x => p x = true) l -> filter p l = l.
Proof. induction 1 as [|x l E _ IH]; cbn [filter]; [reflexivity|]. rewrite E, IH. reflexivity. Qed.
Lemma put_new {K A} (eqb : K -> K -> bool) (k : K) (a : A) l : (forall x, In x (map fst l) -> eqb x k = false) -> put eqb k a l = l ++ [(k, a)].
Proof.
  intros E. unfold put. rewrite filter_all; [reflexivity|]. apply Forall_forall. intros e He. rewrite E; [reflexivity|]. apply in_map, He.
Qed.
Lemma get_entries_ok {K A} (eqb : K -> K -> bool) (getk : value -> option K) (get : value -> option A) (kv : K -> value) (vv : A -> value) l :
  (forall x y, eqb x y = true -> x = y) -> Forall (fun e => getk (kv (fst e)) = Some (fst e) /\ get (vv (snd e)) = Some (snd e)) l ->
  forall acc, NoDup (map fst (acc ++ l)) ->
  get_entries eqb getk get (map (fun e => (kv (fst e), vv (snd e))) l) acc = Some (acc ++ l).
Proof.
  intros Heq. induction 1 as [|[k a] l [Ek Ea] _ IH]; intros acc Hd; cbn [map get_entries fst snd]; [rewrite app_nil_r; reflexivity|].
  cbn [fst snd] in Ek, Ea. rewrite Ek, Ea, put_new.
  - rewrite IH; rewrite <- app_assoc; [reflexivity|exact Hd].
  - intros x Hx. destruct (eqb x k) eqn:E; [|reflexivity]. apply Heq in E. subst x. exfalso.
    rewrite map_app in Hd. cbn [map fst] in Hd. apply NoDup_remove_2 in Hd. apply Hd, in_or_app. left. exact Hx.
Qed.
Lemma get_map_ok {K A} (eqb : K -> K -> bool) (getk : value -> option K) (get : value -> option A) (kv : K -> value) (vv : A -> value) l :
  (forall x y, eqb x y = true -> x = y) -> Forall (fun e => getk (kv (fst e)) = Some (fst e) /\ get (vv (snd e)) = Some (snd e)) l -> NoDup (map fst l) ->
  get_map eqb getk get (VMap (map (fun e => (kv (fst e), vv (snd e))) l)) = Some l.
Proof. intros Heq F Hd. apply (get_entries_ok eqb getk get kv vv l Heq F []). exact Hd. Qed.

(** ** Headers *)
Lemma get_rewards_ok r : h32 (rs_fee_sink r) -> h32 (rs_rewards_pool r) -> n64 (level r) -> n64 (rate r) -> n64 (residue r) -> n64 (recalculation_round r) ->
  get_rewards bins (rewards_value r) = if bins then Some r else None.
Proof.
  intros. unfold get_rewards, rewards_value. in_array. rewrite !get_32_VBin, !get_u64_VNum by assumption. destruct r, bins; reflexivity.
Qed.
Lemma get_vote_ok v : n64 (delay v) -> get_vote (vote_value v) = Some v.
Proof. intros. unfold get_vote, vote_value. in_array. rewrite get_version_name, get_u64_VNum by assumption. destruct v; reflexivity. Qed.
Lemma get_cert_ok c : h32 (voters c) /\ n64 (voters_total c) /\ n64 (cert_next_round c) -> get_cert bins (cert_value c) = Some c.
Proof. intros (A & B & C). unfold get_cert, cert_value. in_array. rewrite get_32_VBytes, !get_u64_VNum by assumption. destruct c; reflexivity. Qed.
Lemma get_header_lemma h : header_in_memory h -> get_block_header bins (BlockModel.header_value h) = if bins then Some (forget_upgrade h) else None.
Proof.
  intros (_ & A & B & C & D & E & F & G & (R1 & R2 & R3 & R4 & R5 & R6) & V & T & Hd & Fc). unfold get_block_header, BlockModel.header_value. in_array.
  rewrite !get_u64_VNum, !get_32_VBytes, get_str_VStr, get_rewards_ok, get_vote_ok by assumption.
  destruct bins eqn:Eb; [|reflexivity].
  rewrite (get_map_ok (fun _ _ : cert_type => true) (get_variant [(str "Basic", Basic)]) (get_cert true) (fun _ => VStr (str "Basic")) cert_value).
  - reflexivity.
  - intros [] [] _. reflexivity.
  - revert Fc. apply Forall_impl. intros [[] c] P. split; [reflexivity|]. rewrite <- Eb. apply get_cert_ok, P.
  - exact Hd.
Qed.
Lemma decode_header_lemma h rest : header_in_memory h ->
  decode_block_header bins (encode (BlockModel.header_value h) ++ rest) = if bins then Some (forget_upgrade h) else None.
Proof. intros M. unfold decode_block_header. rewrite decode_encode by apply M. apply get_header_lemma, M. Qed.

(** ** Genesis *)
Lemma get_teal_ok v : n64 (teal_uint v) -> get_teal bins (teal_value_value v) = Some v.
Proof.
  intros U. unfold get_teal, teal_value_value. in_array. rewrite get_seq_VBytes, get_u64_VNum by assumption. destruct v as [[] b u]; reflexivity.
Qed.
Lemma eqb_bytes x y : bytes_eqb x y = true -> x = y. Proof. apply bytes_eqb_spec. Qed.
Lemma eqb_N x y : (x =? y) = true -> x = y. Proof. apply N.eqb_eq. Qed.
Lemma get_teal_map_ok l : teal_map_in_memory l -> get_teal_map bins (teal_map_value l) = Some l.
Proof.
  intros [Hd F]. apply (get_map_ok bytes_eqb get_str (get_teal bins) VStr teal_value_value l eqb_bytes); [|exact Hd].
  revert F. apply Forall_impl. intros [k v] [U V]. split; [apply get_str_VStr, U|apply get_teal_ok, V].
Qed.
Lemma get_indexed_ok {A} (P : A -> Prop) (get : value -> option A) (f : A -> value) l :
  (forall a, P a -> get (f a) = Some a) -> indexed_in_memory P l -> get_indexed get (indexed f l) = Some l.
Proof.
  intros G [Hd F]. apply (get_map_ok N.eqb get_u64 get VNum f l eqb_N); [|exact Hd].
  revert F. apply Forall_impl. intros [k v] [U V]. split; [apply get_u64_VNum, U|apply G, V].
Qed.
Lemma get_holding_ok h : n64 (held h) -> get_holding (holding_value h) = Some h.
Proof. intros U. unfold get_holding, holding_value. in_array. rewrite get_u64_VNum by assumption. destruct h; reflexivity. Qed.
Lemma get_params_ok p : params_in_memory p -> get_params bins (asset_params_value p) = if bins then Some p else None.
Proof.
  intros (A & B & C & D & E & F & G & I & J & K). unfold get_params, asset_params_value. in_array.
  rewrite get_u64_VNum, get_u32_VNum, !get_str_VStr, get_32_VBytes, !get_32_VBin by assumption. destruct p, bins; reflexivity.
Qed.
Lemma get_app_local_ok x : schema_fits (al_schema x) /\ teal_map_in_memory (al_values x) -> get_app_local bins (app_local_value x) = Some x.
Proof. intros [A B]. unfold get_app_local, app_local_value. in_array. rewrite get_schema_value, get_teal_map_ok by assumption. destruct x; reflexivity. Qed.
Lemma get_app_params_ok x : teal_map_in_memory (ap_state x) /\ schema_fits (ap_local x) /\ schema_fits (ap_global x) /\ n32 (ap_pages x) ->
  get_app_params bins (app_params_value x) = Some x.
Proof.
  intros (A & B & C & D). unfold get_app_params, app_params_value. in_array.
  unfold get_schemas. in_array. rewrite !get_seq_VBytes, get_teal_map_ok, !get_schema_value, get_u32_VNum by assumption. destruct x; reflexivity.
Qed.
Lemma get_key_VBin k : valid_key k = true -> get_key valid_key (VBin k) = Some k.
Proof. intros V. unfold get_key, get_byte_buf. rewrite V. reflexivity. Qed.
End Read.

Lemma get_account_ok valid_key a : account_in_memory valid_key a -> get_account_data valid_key true (account_data_value a) = Some a.
Proof.
  intros (A & B & C & D & E & F & G & H & I & J & K & L & M & N & O). unfold get_account_data, account_data_value. in_array.
  rewrite get_status_name, !get_u64_VNum, get_key_VBin, get_32_VBytes by assumption.
  rewrite (get_indexed_ok _ (get_params true) asset_params_value _ (get_params_ok true) I).
  rewrite (get_indexed_ok _ get_holding holding_value _ get_holding_ok J).
  rewrite get_32_VBin by assumption.
  rewrite (get_indexed_ok _ (get_app_local true) app_local_value _ (get_app_local_ok true) L).
  rewrite (get_indexed_ok _ (get_app_params true) app_params_value _ (get_app_params_ok true) M).
  rewrite get_schema_value, get_u32_VNum by assumption. destruct a; reflexivity.
Qed.
Lemma get_account_bad valid_key a : get_account_data valid_key false (account_data_value a) = None.
Proof.
  unfold get_account_data, account_data_value. in_array. change (get_32 false (VBin (ad_auth a))) with (@None bytes).
  repeat match goal with |- match ?x with Some _ => _ | None => None end = None => destruct x end; reflexivity.
Qed.
Lemma get_allocation_bad valid_key a : get_allocation valid_key false (allocation_value a) = None.
Proof. unfold get_allocation, allocation_value. in_array. destruct (get_str _); [|reflexivity]. destruct (get_str _); [|reflexivity]. rewrite get_account_bad. reflexivity. Qed.
Lemma get_genesis_lemma valid_key bins g : genesis_in_memory valid_key g ->
  get_genesis valid_key bins (genesis_value g) = match bins, allocations g with false, _ :: _ => None | _, _ => Some g end.
Proof.
  intros (_ & A & B & C & D & E & F & G). unfold get_genesis, genesis_value. in_array.
  rewrite !get_str_VStr, get_version_name by assumption.
  assert (V : get_vec (get_allocation valid_key bins) (VArr (map allocation_value (allocations g))) =
              match bins, allocations g with false, _ :: _ => None | _, _ => Some (allocations g) end).
  { destruct bins.
    - apply get_all_same. revert G. apply Forall_impl. intros a (U & W & P). unfold get_allocation, allocation_value. in_array.
      rewrite !get_str_VStr, get_account_ok by assumption. destruct a; reflexivity.
    - destruct (allocations g) as [|a l]; [reflexivity|]. cbn [map get_vec get_all]. rewrite get_allocation_bad. reflexivity. }
  rewrite V, get_u64_VNum by assumption. destruct g as [? ? ? al]. cbn [allocations]. destruct bins, al; reflexivity.
Qed.
Lemma load_genesis_lemma valid_key bins g rest : genesis_in_memory valid_key g ->
  load_genesis valid_key bins (Some (encode (genesis_value g) ++ rest)) = match bins, allocations g with false, _ :: _ => Panic | _, _ => Ok g end.
Proof.
  intros M. unfold load_genesis. rewrite decode_encode by apply M. rewrite get_genesis_lemma by assumption. destruct bins, (allocations g); reflexivity.
Qed.
