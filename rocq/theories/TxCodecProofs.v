From Coq Require Import Permutation.
From Verif Require Import Base BaseFacts AddressModel TxModel TxCodecSpec MsgpackProofs TxProofs.
From Verif Require MultisigModel.
Local Open Scope N_scope.

(** ** Optional leading elements *)
Definition olist {A} (o : option A) : list A := match o with Some x => [x] | None => [] end.
Lemma olist_inj {A K} (cls : A -> K) (k : K) (o o' : option A) r r' :
  (forall x, o = Some x -> cls x = k) -> (forall x, o' = Some x -> cls x = k) ->
  Forall (fun x => cls x <> k) r -> Forall (fun x => cls x <> k) r' ->
  olist o ++ r = olist o' ++ r' -> o = o' /\ r = r'.
Proof.
  intros Ho Ho' Hr Hr' E. destruct o as [x|], o' as [x'|]; cbn [olist app] in E.
  - injection E as -> ->. auto.
  - subst r'. inversion Hr' as [|y z Hy Hz]; subst. destruct (Hy (Ho x eq_refl)).
  - subst r. inversion Hr as [|y z Hy Hz]; subst. destruct (Hy (Ho' x' eq_refl)).
  - auto.
Qed.

Lemma entry_olist name d v : entry name d v = olist (if d then None else Some (VStr (str name), v)).
Proof. unfold entry. destruct d; reflexivity. Qed.
Definition not_key (name : bytes) (e : value * value) : Prop := fst e <> VStr name.
Definition header_keys_list : list bytes :=
  [str "snd"; str "fee"; str "fv"; str "lv"; str "note"; str "gen"; str "gh"; str "grp"; str "lx"; str "rekey"].
Definition all_keys : list bytes := header_keys_list ++ [str "type"].
Lemma entry_inj name d v d' v' r r' : Forall (not_key (str name)) r -> Forall (not_key (str name)) r' ->
  entry name d v ++ r = entry name d' v' ++ r' -> entry name d v = entry name d' v' /\ r = r'.
Proof.
  intros Hr Hr' E. rewrite !entry_olist in *. apply (olist_inj fst (VStr (str name))) in E.
  - destruct E as [E1 E2]. rewrite E1. auto.
  - intros x. destruct d; [discriminate|]. intros [= <-]. reflexivity.
  - intros x. destruct d'; [discriminate|]. intros [= <-]. reflexivity.
  - exact Hr.
  - exact Hr'.
Qed.
Lemma entry_bin name a b : entry name (is_zero a) (VBin a) = entry name (is_zero b) (VBin b) -> a = b.
Proof.
  unfold entry. destruct (is_zero a) eqn:Ea, (is_zero b) eqn:Eb; try discriminate.
  - apply is_zero_true in Ea, Eb. congruence.
  - congruence.
Qed.
Lemma entry_hash name a b : entry name (is_zero a) (VBytes a) = entry name (is_zero b) (VBytes b) -> a = b.
Proof.
  unfold entry. destruct (is_zero a) eqn:Ea, (is_zero b) eqn:Eb; try discriminate.
  - apply is_zero_true in Ea, Eb. congruence.
  - intros E. apply VBytes_inj. congruence.
Qed.
Lemma entry_bytes name a b : entry name (is_empty a) (VBytes a) = entry name (is_empty b) (VBytes b) -> a = b.
Proof. unfold entry. destruct a, b; cbn [is_empty]; try discriminate; [reflexivity|]. intros E. apply VBytes_inj. congruence. Qed.
Lemma entry_str name a b : entry name (is_empty a) (VStr a) = entry name (is_empty b) (VStr b) -> a = b.
Proof. unfold entry. destruct a, b; cbn [is_empty]; congruence. Qed.
Lemma entry_num name a b : entry name (a =? 0) (VNum a) = entry name (b =? 0) (VNum b) -> a = b.
Proof.
  unfold entry. destruct (N.eqb_spec a 0), (N.eqb_spec b 0); try discriminate; [congruence|]. intros E. apply VNum_inj. congruence.
Qed.
Lemma not_key_entry name name' d v : name <> str name' -> Forall (not_key name) (entry name' d v).
Proof. intros Hn. unfold entry. destruct d; constructor; [|constructor]. unfold not_key. cbn. congruence. Qed.

Ltac other_keys :=
  repeat first
   [ apply Forall_nil
   | apply Forall_app; split
   | apply not_key_entry; vm_compute; discriminate
   | apply Forall_cons; [unfold not_key, required; cbn [fst]; vm_compute; discriminate|] ].

Lemma header_keys name h : ~ In name header_keys_list ->
  Forall (not_key name) (header_entries h).
Proof.
  intros Hn. unfold header_keys_list in Hn. cbn [In] in Hn. unfold header_entries.
  repeat (apply Forall_app; split); apply not_key_entry; intros E; apply Hn; rewrite E; tauto.
Qed.
Lemma fields_keys name f : In name all_keys ->
  Forall (not_key name) (field_entries f).
Proof.
  intros Hn. unfold field_entries.
  assert (G : forall k, ~ In (str k) all_keys -> name <> str k).
  { intros k Hk E. rewrite E in Hn. contradiction. }
  assert (R : forall k v, ~ In (str k) all_keys -> not_key name (required k v)).
  { intros k v Hk. unfold not_key, required. cbn [fst]. intros E. apply (G k Hk). congruence. }
  destruct f; repeat first [apply Forall_nil | apply Forall_app; split | apply not_key_entry; apply G | apply Forall_cons; [apply R|]];
  vm_compute; intros Hx; repeat (destruct Hx as [Hx|Hx]; [discriminate|]); exact Hx.
Qed.

Lemma header_entries_inj h h' r r' :
  Forall (fun e => forall name, In name header_keys_list -> not_key name e) r ->
  Forall (fun e => forall name, In name header_keys_list -> not_key name e) r' ->
  header_entries h ++ r = header_entries h' ++ r' -> h = h' /\ r = r'.
Proof.
  intros Hr Hr' E. unfold header_entries in E. rewrite <- !app_assoc in E.
  assert (K : forall name, In name header_keys_list ->
              Forall (not_key name) r /\ Forall (not_key name) r').
  { intros name Hn. split; [revert Hr|revert Hr']; apply Forall_impl; intros a Ha; exact (Ha name Hn). }
  destruct (K (str "snd")) as [K1 K1']; [unfold header_keys_list; cbn [In]; tauto|]. destruct (K (str "fee")) as [K2 K2']; [unfold header_keys_list; cbn [In]; tauto|].
  destruct (K (str "fv")) as [K3 K3']; [unfold header_keys_list; cbn [In]; tauto|]. destruct (K (str "lv")) as [K4 K4']; [unfold header_keys_list; cbn [In]; tauto|].
  destruct (K (str "note")) as [K5 K5']; [unfold header_keys_list; cbn [In]; tauto|]. destruct (K (str "gen")) as [K6 K6']; [unfold header_keys_list; cbn [In]; tauto|].
  destruct (K (str "gh")) as [K7 K7']; [unfold header_keys_list; cbn [In]; tauto|]. destruct (K (str "grp")) as [K8 K8']; [unfold header_keys_list; cbn [In]; tauto|].
  destruct (K (str "lx")) as [K9 K9']; [unfold header_keys_list; cbn [In]; tauto|]. destruct (K (str "rekey")) as [K10 K10']; [unfold header_keys_list; cbn [In]; tauto|].
  clear K Hr Hr'.
  apply entry_inj in E; [|other_keys; assumption|other_keys; assumption]. destruct E as [E1 E]. apply entry_bin in E1.
  apply entry_inj in E; [|other_keys; assumption|other_keys; assumption]. destruct E as [E2 E]. apply entry_num in E2.
  apply entry_inj in E; [|other_keys; assumption|other_keys; assumption]. destruct E as [E3 E]. apply entry_num in E3.
  apply entry_inj in E; [|other_keys; assumption|other_keys; assumption]. destruct E as [E4 E]. apply entry_num in E4.
  apply entry_inj in E; [|other_keys; assumption|other_keys; assumption]. destruct E as [E5 E]. apply entry_bytes in E5.
  apply entry_inj in E; [|other_keys; assumption|other_keys; assumption]. destruct E as [E6 E]. apply entry_str in E6.
  apply entry_inj in E; [|other_keys; assumption|other_keys; assumption]. destruct E as [E7 E]. apply entry_hash in E7.
  apply entry_inj in E; [|other_keys; assumption|other_keys; assumption]. destruct E as [E8 E]. apply entry_hash in E8.
  apply entry_inj in E; [|other_keys; assumption|other_keys; assumption]. destruct E as [E9 E]. apply entry_hash in E9.
  apply entry_inj in E; [|assumption|assumption]. destruct E as [E10 E]. apply entry_bin in E10.
  split; [|exact E]. destruct h, h'. cbn in *. congruence.
Qed.

Lemma map_inj {A B} (f : A -> B) : (forall a b, f a = f b -> a = b) -> forall l l', map f l = map f l' -> l = l'.
Proof.
  intros Hf. induction l as [|a l IH]; intros [|b l'] E; try discriminate; [reflexivity|]. cbn in E.
  assert (E1 : f a = f b) by congruence. assert (E2 : map f l = map f l') by congruence. f_equal; auto.
Qed.
Lemma VBin_inj a b : VBin a = VBin b -> a = b. Proof. congruence. Qed.
Lemma VStr_inj a b : VStr a = VStr b -> a = b. Proof. congruence. Qed.
Lemma VArr_inj a b : VArr a = VArr b -> a = b. Proof. congruence. Qed.
Lemma VBool_inj a b : VBool a = VBool b -> a = b. Proof. congruence. Qed.
Lemma schema_value_inj a b : schema_value a = schema_value b -> a = b.
Proof.
  unfold schema_value. intros E. destruct a as [u s], b as [u' s']. cbn [num_uint num_byte_slice] in E.
  assert (E1 : VNum u = VNum u') by congruence. assert (E2 : VNum s = VNum s') by congruence.
  apply VNum_inj in E1, E2. congruence.
Qed.
Lemma completion_inj a b : completion_name a = completion_name b -> a = b.
Proof. destruct a, b; intros E; try reflexivity; vm_compute in E; discriminate. Qed.
Lemma asset_params_inj a b : asset_params_value a = asset_params_value b -> a = b.
Proof.
  unfold asset_params_value. intros E. destruct a, b. cbn in E. apply VArr_inj in E.
  repeat match goal with E : _ :: _ = _ :: _ |- _ => injection E; clear E; intros end.
  repeat match goal with
   | E : Z.of_N ?x = Z.of_N ?y |- _ => apply N2Z.inj in E
   end.
  match goal with E : map _ ?x = map _ ?y |- _ => assert (VBytes x = VBytes y) as E' by (unfold VBytes; rewrite E; reflexivity); apply VBytes_inj in E' end.
  congruence.
Qed.

Lemma cons_inj {A} (a b : A) l l' : a :: l = b :: l' -> a = b /\ l = l'.
Proof. intros E. split; congruence. Qed.
Lemma required_inj name v v' : required name v = required name v' -> v = v'.
Proof. unfold required. congruence. Qed.
Ltac peel :=
  repeat match goal with
  | E : required ?n _ :: _ = required ?n _ :: _ |- _ => apply cons_inj in E; let E1 := fresh "P" in destruct E as [E1 E]; apply required_inj in E1
  end.
Ltac unvalue :=
  repeat match goal with
  | E : VNum _ = VNum _ |- _ => apply VNum_inj in E
  | E : VBin _ = VBin _ |- _ => apply VBin_inj in E
  | E : VStr _ = VStr _ |- _ => apply VStr_inj in E
  | E : VBool _ = VBool _ |- _ => apply VBool_inj in E
  | E : VBytes _ = VBytes _ |- _ => apply VBytes_inj in E
  | E : VArr (map VBytes _) = _ |- _ => apply VArr_inj in E; apply (map_inj VBytes VBytes_inj) in E
  | E : VArr (map VBin _) = _ |- _ => apply VArr_inj in E; apply (map_inj VBin VBin_inj) in E
  | E : VArr (map VNum _) = _ |- _ => apply VArr_inj in E; apply (map_inj VNum VNum_inj) in E
  | E : schema_value _ = schema_value _ |- _ => apply schema_value_inj in E
  | E : completion_name _ = completion_name _ |- _ => apply completion_inj in E
  | E : asset_params_value _ = asset_params_value _ |- _ => apply asset_params_inj in E
  end.
Lemma field_entries_inj f f' : type_name f = type_name f' -> field_entries f = field_entries f' -> f = f'.
Proof.
  destruct f as [f|f|f|f|f|f|f], f' as [g|g|g|g|g|g|g]; intros T E; try (vm_compute in T; discriminate); clear T; unfold field_entries in E; f_equal.
  2:{ apply entry_inj in E; [|other_keys|other_keys]. destruct E as [E1 E]. apply entry_bin in E1.
      apply entry_inj in E; [|other_keys|other_keys]. destruct E as [E2 E]. apply entry_num in E2.
      destruct f as [r a c], g as [r' a' c']. cbn [receiver amount close_remainder_to] in *. f_equal; try assumption.
      destruct c as [c|], c' as [c'|]; unfold entry, is_none in E; congruence. }
  all: peel; unvalue; destruct f, g; cbn in *; congruence.
Qed.
Lemma tx_value_inj t t' : tx_value t = tx_value t' -> t = t'.
Proof.
  unfold tx_value. intros E. assert (E' := f_equal (fun v => match v with VMap l => l | _ => [] end) E). clear E. cbn beta iota in E'.
  apply header_entries_inj in E'.
  - destruct E' as [Eh E]. apply cons_inj in E. destruct E as [Et Ef]. apply required_inj in Et.
    apply VStr_inj in Et. destruct t as [h f], t' as [h' f']. cbn [tx_head fields] in *. rewrite Eh. f_equal. apply field_entries_inj; assumption.
  - constructor.
    + intros name Hn. unfold not_key, required. cbn [fst]. intros E. injection E as E. rewrite <- E in Hn. revert Hn. vm_compute.
      intros Hx. repeat (destruct Hx as [Hx|Hx]; [discriminate|]). exact Hx.
    + apply Forall_forall. intros e He name Hn.
      assert (Hf : Forall (not_key name) (field_entries (fields t))) by (apply fields_keys; unfold all_keys; apply in_or_app; left; exact Hn).
      rewrite Forall_forall in Hf. exact (Hf e He).
  - constructor.
    + intros name Hn. unfold not_key, required. cbn [fst]. intros E. injection E as E. rewrite <- E in Hn. revert Hn. vm_compute.
      intros Hx. repeat (destruct Hx as [Hx|Hx]; [discriminate|]). exact Hx.
    + apply Forall_forall. intros e He name Hn.
      assert (Hf : Forall (not_key name) (field_entries (fields t'))) by (apply fields_keys; unfold all_keys; apply in_or_app; left; exact Hn).
      rewrite Forall_forall in Hf. exact (Hf e He).
Qed.

(** ** Encodable *)
Definition wf_entry (e : value * value) : Prop := wf (fst e) /\ wf (snd e).
Lemma wf_VMap l : N.of_nat (length l) < 2 ^ 32 -> Forall wf_entry l -> wf (VMap l).
Proof.
  intros Hl Hf. cbn [wf]. split; [exact Hl|]. clear Hl. induction Hf as [|[k x] l [H1 H2] Hf IH]; cbn [fold_right]; auto.
Qed.
Lemma wf_VArr l : N.of_nat (length l) < 2 ^ 32 -> Forall wf l -> wf (VArr l).
Proof. intros Hl Hf. cbn [wf]. split; [exact Hl|]. clear Hl. induction Hf as [|x l Hx Hf IH]; cbn [fold_right]; auto. Qed.
Lemma wf_entry_entry name d v : (d = false -> wf v) -> len (str name) < 2 ^ 32 -> Forall wf_entry (entry name d v).
Proof. intros Hv Hn. unfold entry. destruct d; constructor; [|constructor]. split; [exact Hn|]. exact (Hv eq_refl). Qed.
Lemma wf_map_arr {A} (f : A -> value) (P : A -> Prop) l : (forall a, P a -> wf (f a)) -> short l -> Forall P l -> wf (VArr (map f l)).
Proof.
  intros Hf Hs Hl. apply wf_VArr; [rewrite map_length; exact Hs|]. apply Forall_map. revert Hl. apply Forall_impl. exact Hf.
Qed.
Lemma entry_length name d v : (length (entry name d v) <= 1)%nat.
Proof. unfold entry. destruct d; cbn; lia. Qed.
Lemma header_entries_length h : (length (header_entries h) <= 10)%nat.
Proof.
  unfold header_entries. rewrite !app_length.
  repeat match goal with |- context [length (entry ?n ?d ?v)] => let H := fresh in pose proof (entry_length n d v) as H; revert H; generalize (length (entry n d v)); intros ? H end. lia.
Qed.
Lemma field_entries_length f : (length (field_entries f) <= 11)%nat.
Proof.
  unfold field_entries. destruct f; try (cbn [length]; lia). rewrite !app_length.
  repeat match goal with |- context [length (entry ?n ?d ?v)] => let H := fresh in pose proof (entry_length n d v) as H; revert H; generalize (length (entry n d v)); intros ? H end. lia.
Qed.
Lemma wf_asset_params p : n64 (total p) /\ n64 (decimals p) /\ short (unit_name p) /\ short (asset_name p) /\ short (url p) /\
      short (metadata_hash p) /\ short (manager p) /\ short (reserve p) /\ short (freeze p) /\ short (clawback p) -> wf (asset_params_value p).
Proof.
  intros H. apply wf_VArr; [cbn; lia|]. repeat constructor; try (apply wf_VNum; apply H); try apply H; try (apply wf_VBytes; apply H); try exact I.
Qed.
Lemma wf_schema s : schema_fits s -> wf (schema_value s).
Proof. intros [H1 H2]. apply wf_VArr; [cbn; lia|]. repeat constructor; apply wf_VNum; assumption. Qed.
Lemma wf_tx_value t : tx_fits t -> wf (tx_value t).
Proof.
  intros [Hh Hf]. unfold tx_value. apply wf_VMap.
  - rewrite app_length. cbn [length]. pose proof (header_entries_length (tx_head t)). pose proof (field_entries_length (fields t)). lia.
  - apply Forall_app. split; [|constructor].
    + destruct Hh as (H1 & H2 & H3 & H4 & H5 & H6 & H7 & H8 & H9 & H10). unfold header_entries.
      repeat (apply Forall_app; split); (apply wf_entry_entry; [intros _; solve [assumption | apply wf_VNum; assumption | apply wf_VBytes; assumption]|vm_compute; reflexivity]).
    + split; [vm_compute; reflexivity|]. destruct (fields t); vm_compute; reflexivity.
    + destruct (fields t) as [f|f|f|f|f|f|f]; unfold field_entries; cbn [fields_fit] in Hf.
      2:{ destruct Hf as (F1 & F2 & F3). repeat (apply Forall_app; split); (apply wf_entry_entry; [|vm_compute; reflexivity]).
          - intros _; exact F1.
          - intros _; apply wf_VNum; exact F2.
          - destruct (close_remainder_to f); [intros _; exact F3|intros _; exact I]. }
      all: repeat match goal with H : _ /\ _ |- _ => destruct H end;
        repeat (apply Forall_cons; [split; [vm_compute; reflexivity|cbn [snd required]]|]); try apply Forall_nil;
        try solve [assumption | apply wf_VNum; assumption | apply wf_VBytes; assumption | exact I | apply wf_schema; assumption].
      * apply wf_asset_params. tauto.
      * destruct (on_completion f); vm_compute; reflexivity.
      * apply (wf_map_arr VBytes short); try assumption. intros a Ha. apply wf_VBytes. exact Ha.
      * apply (wf_map_arr VBin short); try assumption. intros a Ha. exact Ha.
      * apply (wf_map_arr VNum n64); try assumption. intros a Ha. apply wf_VNum. exact Ha.
      * apply (wf_map_arr VNum n64); try assumption. intros a Ha. apply wf_VNum. exact Ha.
      * vm_compute. reflexivity.
Qed.
Lemma tx_encode_inj t t' : tx_fits t -> tx_fits t' -> encode (tx_value t) = encode (tx_value t') -> t = t'.
Proof. intros H1 H2 E. apply tx_value_inj. apply encode_inj; [apply wf_tx_value; exact H1|apply wf_tx_value; exact H2|exact E]. Qed.
Lemma tx_hash_rep_inj t t' : tx_fits t -> tx_fits t' -> tx_hash_rep t = tx_hash_rep t' -> t = t'.
Proof. intros H1 H2 E. apply tx_encode_inj; try assumption. exact (app_inv_head _ _ _ E). Qed.

(** ** Signed transactions *)
Lemma subsig_value_inj a b : subsig_value a = subsig_value b -> a = b.
Proof.
  unfold subsig_value. destruct a as [k s], b as [k' s']. cbn [MultisigModel.key MultisigModel.sig]. intros E. apply VArr_inj in E.
  apply cons_inj in E. destruct E as [E1 E]. apply cons_inj in E. destruct E as [E2 _]. apply VBin_inj in E1. subst k'. f_equal.
  destruct s, s'; try (unfold VBytes in E2; congruence). apply VBytes_inj in E2. congruence.
Qed.
Lemma multisig_value_inj a b : multisig_value a = multisig_value b -> a = b.
Proof.
  unfold multisig_value. destruct a as [v t l], b as [v' t' l']. cbn [MultisigModel.version MultisigModel.threshold MultisigModel.subsigs].
  intros E. apply VArr_inj in E. apply cons_inj in E. destruct E as [E1 E]. apply cons_inj in E. destruct E as [E2 E]. apply cons_inj in E. destruct E as [E3 _].
  apply VNum_inj in E1, E2. apply VArr_inj in E3. apply (map_inj _ subsig_value_inj) in E3. congruence.
Qed.
Lemma lsig_value_inj a b : lsig_value a = lsig_value b -> a = b.
Proof.
  unfold lsig_value. destruct a as [v t l r], b as [v' t' l' r']. cbn [logic lsig_sig lsig_msig args].
  intros E. apply VArr_inj in E. apply cons_inj in E. destruct E as [E1 E]. apply cons_inj in E. destruct E as [E2 E].
  apply cons_inj in E. destruct E as [E3 E]. apply cons_inj in E. destruct E as [E4 _].
  apply VBytes_inj in E1, E2. apply multisig_value_inj in E3. apply VArr_inj in E4. apply (map_inj _ VBytes_inj) in E4. congruence.
Qed.
(** The elements of a signed transaction tell what they are. *)
Definition shape (v : value) : nat := match v with VArr l => length l | VMap _ => 1000 | VBin _ => 1001 | _ => 1002 end.
Lemma element_olist d v : element d v = olist (if d then None else Some v).
Proof. destruct d; reflexivity. Qed.
Lemma signed_tx_value_inj s s' : signed_shape s -> signed_shape s' -> signed_tx_value s = signed_tx_value s' -> s = s'.
Proof.
  unfold signed_shape. intros Hs Hs' E. apply VArr_inj in E.
  assert (M : forall o : option MultisigModel.multisig, match o with Some m => [multisig_value m] | None => [] end = olist (option_map multisig_value o)) by (intros [?|]; reflexivity).
  assert (L : forall o : option logic_sig, match o with Some m => [lsig_value m] | None => [] end = olist (option_map lsig_value o)) by (intros [?|]; reflexivity).
  rewrite !M, !L, !element_olist in E. clear M L.
  assert (S64 : forall g, length g = 64%nat -> shape (VBytes g) = 64%nat) by (intros g Hg; unfold shape, VBytes; rewrite map_length; exact Hg).
  assert (FM : forall k o, k <> 3%nat -> Forall (fun v => shape v <> k) (olist (option_map multisig_value o))).
  { intros k [x|] Hk; cbn [option_map olist]; constructor; [|constructor]. cbn. intros Ek. apply Hk. symmetry. exact Ek. }
  assert (FL : forall k o, k <> 4%nat -> Forall (fun v => shape v <> k) (olist (option_map lsig_value o))).
  { intros k [x|] Hk; cbn [option_map olist]; constructor; [|constructor]. cbn. intros Ek. apply Hk. symmetry. exact Ek. }
  assert (FT : forall k t a, (k < 1000)%nat -> Forall (fun v => shape v <> k) ([tx_value t] ++ olist (if is_zero a then None else Some (VBin a)))).
  { intros k t a Hk. apply Forall_app. split; [constructor; [|constructor]|destruct (is_zero a); cbn [olist]; constructor; [|constructor]]; cbn [shape tx_value]; intros Ek; rewrite <- Ek in Hk; apply (Nat.lt_irrefl 1000); try exact Hk; apply (Nat.lt_trans _ 1001); [apply Nat.lt_succ_diag_r|exact Hk]. }
  apply (olist_inj shape 64%nat) in E.
  2:{ intros x. destruct (sig_is_empty (stx_sig s)); [discriminate|]. intros [= <-]. apply S64. exact Hs. }
  2:{ intros x. destruct (sig_is_empty (stx_sig s')); [discriminate|]. intros [= <-]. apply S64. exact Hs'. }
  2,3: (apply Forall_app; split; [apply FM; discriminate|]; apply Forall_app; split; [apply FL; discriminate|apply FT; lia]).
  destruct E as [E1 E]. apply (olist_inj shape 3%nat) in E.
  2,3: (intros x; match goal with |- option_map _ ?o = _ -> _ => destruct o end; [intros [= <-]; reflexivity|discriminate]).
  2,3: (apply Forall_app; split; [apply FL; discriminate|apply FT; lia]).
  destruct E as [E2 E]. apply (olist_inj shape 4%nat) in E.
  2,3: (intros x; match goal with |- option_map _ ?o = _ -> _ => destruct o end; [intros [= <-]; reflexivity|discriminate]).
  2,3: (apply FT; lia).
  destruct E as [E3 E]. cbn [app] in E. apply cons_inj in E. destruct E as [E4 E5]. apply tx_value_inj in E4.
  destruct s as [g m l t a], s' as [g' m' l' t' a']. cbn [stx_sig stx_msig stx_lsig stx_tx stx_auth] in *. subst t'. f_equal.
  - unfold sig_is_empty in E1. destruct (bytes_eqb_reflect g null_sig), (bytes_eqb_reflect g' null_sig); try discriminate; [congruence|]. apply VBytes_inj. congruence.
  - destruct m, m'; try discriminate; [|reflexivity]. f_equal. apply multisig_value_inj. cbn in E2. congruence.
  - destruct l, l'; try discriminate; [|reflexivity]. f_equal. apply lsig_value_inj. cbn in E3. congruence.
  - destruct (is_zero a) eqn:Ea, (is_zero a') eqn:Ea'; cbn [olist] in E5; try discriminate; [|congruence]. apply is_zero_true in Ea, Ea'. unfold TxSpec.unset in *. congruence.
Qed.

(** ** Apply data *)
Lemma ad_is_default_true a : ad_is_default a = true <-> a = no_apply_data.
Proof.
  destruct a as [a b c d e [g l o i] x y]. cbn [ad_is_default]. rewrite !andb_true_iff, !N.eqb_eq.
  rewrite (is_empty_true g), (is_empty_true l), (is_empty_true o), (is_empty_true i). unfold no_apply_data, no_delta. split.
  - intros H. repeat match goal with H : _ /\ _ |- _ => destruct H end. subst. reflexivity.
  - intros [= -> -> -> -> -> -> -> -> -> -> ->]. tauto.
Qed.
Lemma delta_value_inj a b : delta_value a = delta_value b -> a = b.
Proof.
  unfold delta_value. destruct a as [a s n], b as [a' s' n']. cbn [action delta_bytes delta_uint]. intros E. apply VArr_inj in E.
  apply cons_inj in E. destruct E as [E1 E]. apply cons_inj in E. destruct E as [E2 E]. apply cons_inj in E. destruct E as [E3 _].
  apply VBytes_inj in E2. apply VNum_inj in E3. apply VStr_inj in E1. subst. f_equal. destruct a, a'; try reflexivity; vm_compute in E1; discriminate.
Qed.
Lemma VMap_inj a b : VMap a = VMap b -> a = b. Proof. congruence. Qed.
Lemma state_delta_value_inj a b : state_delta_value a = state_delta_value b -> a = b.
Proof.
  unfold state_delta_value. intros E. apply VMap_inj in E. revert E. apply map_inj. intros [k d] [k' d'] E. cbn [fst snd] in E.
  assert (E1 : VStr k = VStr k') by congruence. assert (E2 : delta_value d = delta_value d') by congruence.
  apply VStr_inj in E1. apply delta_value_inj in E2. congruence.
Qed.
Lemma stad_list_inj s d v s' d' v' : VArr (s :: element d v) = VArr (s' :: element d' v') -> s = s' /\ d = d' /\ (d = false -> v = v').
Proof.
  intros E. apply VArr_inj, cons_inj in E. destruct E as [E1 E2]. split; [exact E1|].
  destruct d, d'; cbn [element] in E2; try discriminate; [split; [reflexivity|discriminate]|]. split; [reflexivity|]. intros _. congruence.
Qed.
Lemma ad_value_inj : forall a b, ad_shape a -> ad_shape b -> ad_value a = ad_value b -> a = b
with ed_value_inj : forall a b, ed_shape a -> ed_shape b -> eval_delta_value a = eval_delta_value b -> a = b.
Proof.
  - intros [a1 a2 a3 a4 a5 ad a6 a7] [b1 b2 b3 b4 b5 bd b6 b7] Ha Hb E. cbn [ad_shape] in Ha, Hb.
    specialize (ed_value_inj ad bd Ha Hb). clear ad_value_inj.
    cbn [ad_value] in E. apply VArr_inj in E.
    apply cons_inj in E. destruct E as [E1 E]. apply cons_inj in E. destruct E as [E2 E]. apply cons_inj in E. destruct E as [E3 E].
    apply cons_inj in E. destruct E as [E4 E]. apply cons_inj in E. destruct E as [E5 E]. apply cons_inj in E. destruct E as [E6 E].
    apply cons_inj in E. destruct E as [E7 E]. apply cons_inj in E. destruct E as [E8 _].
    apply VNum_inj in E1, E2, E3, E4, E5, E7, E8. apply ed_value_inj in E6. congruence.
  - intros [g l o i] [g' l' o' i'] Ha Hb E. cbn [ed_shape] in Ha, Hb. clear ed_value_inj. cbn [eval_delta_value] in E. apply VArr_inj in E.
    apply cons_inj in E. destruct E as [E1 E]. apply cons_inj in E. destruct E as [E2 E]. apply cons_inj in E. destruct E as [E3 E].
    apply cons_inj in E. destruct E as [E4 _]. apply state_delta_value_inj in E1. apply VArr_inj in E3. apply (map_inj _ VStr_inj) in E3.
    assert (E2' : l = l').
    { apply VMap_inj in E2. revert E2. apply map_inj. intros [k d] [k' d'] E. cbn [fst snd] in E.
      assert (F1 : VNum k = VNum k') by congruence. assert (F2 : state_delta_value d = state_delta_value d') by congruence.
      apply VNum_inj in F1. apply state_delta_value_inj in F2. congruence. }
    assert (E4' : i = i').
    { apply VArr_inj in E4. revert i' Hb E4. clear E1 E2 E2' E3. induction i as [|[s a] i IH]; intros [|[s' a'] i'] Hb E4; try discriminate; [reflexivity|].
      cbn [map fst snd fold_right] in *. apply cons_inj in E4. destruct E4 as [F1 F2]. destruct Ha as [[Ha1 Ha2] Ha3], Hb as [[Hb1 Hb2] Hb3].
      rewrite (IH Ha3 i' Hb3 F2). f_equal. apply stad_list_inj in F1. destruct F1 as (G1 & G2 & G3). apply signed_tx_value_inj in G1; [|assumption|assumption]. subst s'. f_equal.
      destruct (ad_is_default a) eqn:D.
      - symmetry in G2. apply ad_is_default_true in D, G2. congruence.
      - exact (ad_value_inj a a' Ha2 Hb2 (G3 eq_refl)). }
    congruence.
Qed.
Lemma stad_value_inj s s' : stad_shape s -> stad_shape s' -> stad_value s = stad_value s' -> s = s'.
Proof.
  destruct s as [s a], s' as [s' a']. intros [H1 H2] [H1' H2'] E. unfold stad_value in E. cbn [fst snd] in *.
  apply stad_list_inj in E. destruct E as (G1 & G2 & G3). apply signed_tx_value_inj in G1; [|assumption|assumption]. subst s'. f_equal.
  destruct (ad_is_default a) eqn:D.
  - symmetry in G2. apply ad_is_default_true in D, G2. congruence.
  - exact (ad_value_inj a a' H2 H2' (G3 eq_refl)).
Qed.
Lemma stib_value_inj s s' : stad_shape (stib_tx s) -> stad_shape (stib_tx s') -> stib_value s = stib_value s' ->
  s = s' \/ (stib_tx s = stib_tx s' /\ has_genesis_id s <> has_genesis_hash s /\ has_genesis_id s' = has_genesis_hash s /\ has_genesis_hash s' = has_genesis_id s).
Proof.
  intros H H' E. apply VArr_inj, cons_inj in E. destruct E as [E1 E2]. apply stad_value_inj in E1; [|assumption|assumption].
  destruct s as [t i h], s' as [t' i' h']. cbn [stib_tx has_genesis_id has_genesis_hash] in *. subst t'.
  destruct i, h, i', h'; cbn in E2; try discriminate; auto; right; (split; [reflexivity|split; [discriminate|split; reflexivity]]).
Qed.
Lemma stib_encode_inj s s' : stib_fits s -> stib_fits s' -> encode (stib_value s) = encode (stib_value s') ->
  s = s' \/ (stib_tx s = stib_tx s' /\ has_genesis_id s <> has_genesis_hash s /\ has_genesis_id s' = has_genesis_hash s /\ has_genesis_hash s' = has_genesis_id s).
Proof. intros [H1 H2] [H1' H2'] E. apply stib_value_inj; try assumption. apply encode_inj; assumption. Qed.

(** ** Map order *)
Lemma small_same {A} (l l' : list A) : (length l <= 1)%nat -> Permutation l l' -> l = l'.
Proof.
  intros Hl P. destruct l as [|x [|y l]]; [symmetry; apply Permutation_nil; exact P|symmetry; apply Permutation_length_1_inv; exact P|cbn in Hl; lia].
Qed.
Lemma small_maps_entries {K L V} (l l' : list (K * list (L * V))) : (length l <= 1)%nat ->
  Forall (fun e => (length (snd e) <= 1)%nat) l -> same_maps l l' -> l = l'.
Proof.
  intros Hl Hs (m & P & F). rewrite <- (small_same _ _ Hl P) in F. clear P Hl m. induction F as [|[k x] [k' x'] l l' [E P] _ IH]; [reflexivity|].
  inversion Hs as [|? ? H1 H2]; subst. cbn in *. subst k'. rewrite (small_same _ _ H1 P), (IH H2). reflexivity.
Qed.
Scheme same_ad_ind' := Induction for same_ad Sort Prop
with same_ed_ind' := Induction for same_ed Sort Prop
with same_txs_ind' := Induction for same_txs Sort Prop.
Lemma small_maps_same a a' : same_ad a a' -> small_maps a -> a = a'.
Proof.
  intros S. induction S using same_ad_ind' with
   (P0 := fun e e' _ => small_maps_ed e -> e = e') (P1 := fun i i' _ => fold_right (fun x p => small_maps (snd x) /\ p) True i -> i = i').
  - intros Hs. cbn in Hs. rewrite (IHS Hs). reflexivity.
  - intros (H1 & H2 & H3 & H4). rewrite (small_same _ _ H1 s), (small_maps_entries _ _ H2 H3 s0), (IHS H4). reflexivity.
  - reflexivity.
  - cbn. intros [H1 H2]. rewrite (IHS H1), (IHS0 H2). reflexivity.
Qed.
Lemma same_stib_small s s' : same_stib s s' -> small_maps (snd (stib_tx s)) -> s = s'.
Proof.
  destruct s as [[t a] i h], s' as [[t' a'] i' h']. unfold same_stib. cbn. intros (-> & S & -> & ->) Hs. rewrite (small_maps_same _ _ S Hs). reflexivity.
Qed.
Lemma same_stib_order s s' : stib_fits s -> stib_fits s' -> same_stib s s' -> encode (stib_value s) = encode (stib_value s') <-> s = s'.
Proof.
  intros F F' (_ & _ & I & G). split; [|intros ->; reflexivity]. intros E.
  destruct (stib_encode_inj s s' F F' E) as [X|(_ & N & X & Y)]; [exact X|]. exfalso. apply N. congruence.
Qed.
