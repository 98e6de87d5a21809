From Verif Require Import Base BaseFacts AddressModel TxModel TxSpec BasicsProofs.
Local Open Scope N_scope.

Lemma if_ok (b : bool) (e : invalid_tx) (k : result) : (if b then Err e else k) = Ok tt <-> b = false /\ k = Ok tt.
Proof. destruct b; split; [discriminate|intros [H _]; discriminate|auto|intros [_ H]; exact H]. Qed.
Lemma if_panic (b : bool) (e : invalid_tx) (k : result) : (if b then Err e else k) = Panic <-> b = false /\ k = Panic.
Proof. destruct b; split; [discriminate|intros [H _]; discriminate|auto|intros [_ H]; exact H]. Qed.
Lemma ok_ok : (Ok tt : result) = Ok tt <-> True.
Proof. split; [exact (fun _ => I)|reflexivity]. Qed.
Lemma ok_panic : (Ok tt : result) = Panic <-> False.
Proof. split; [discriminate|intros []]. Qed.
Lemma bind_ok (o k : result) : bind o (fun _ => k) = Ok tt <-> o = Ok tt /\ k = Ok tt.
Proof. destruct o as [[]| |]; cbn; split; try discriminate; try (intros [H _]; discriminate); [auto|intros [_ H]; exact H]. Qed.
Lemma bind_panic (o k : result) : bind o (fun _ => k) = Panic <-> o = Panic \/ (o = Ok tt /\ k = Panic).
Proof. destruct o as [[]| |]; cbn; split; try discriminate; auto; intros [H|[H H']]; congruence. Qed.

Lemma bytes_eqb_true a b : bytes_eqb a b = true <-> a = b.
Proof. destruct (bytes_eqb_reflect a b); split; congruence. Qed.
Lemma bytes_eqb_false a b : bytes_eqb a b = false <-> a <> b.
Proof. destruct (bytes_eqb_reflect a b); split; congruence. Qed.
Lemma is_empty_true {A} (l : list A) : is_empty l = true <-> l = [].
Proof. destruct l; cbn; split; congruence. Qed.
Lemma is_empty_false {A} (l : list A) : is_empty l = false <-> l <> [].
Proof. destruct l; cbn; split; congruence. Qed.
Lemma is_none_true {A} (o : option A) : is_none o = true <-> o = None.
Proof. destruct o; cbn; split; congruence. Qed.
Lemma is_none_false {A} (o : option A) : is_none o = false <-> o <> None.
Proof. destruct o; cbn; split; congruence. Qed.
Lemma schema_is_default_true s : schema_is_default s = true <-> s = mkSchema 0 0.
Proof.
  unfold schema_is_default. destruct s as [u b]. cbn. rewrite andb_true_iff, !N.eqb_eq. split; [intros [-> ->]; reflexivity|intros [= -> ->]; auto].
Qed.
Lemma schema_is_default_false s : schema_is_default s = false <-> s <> mkSchema 0 0.
Proof. rewrite <- schema_is_default_true. destruct (schema_is_default s); split; congruence. Qed.
Lemma is_zero_true a : is_zero a = true <-> unset a.
Proof. apply bytes_eqb_true. Qed.
Lemma is_zero_false a : is_zero a = false <-> set a.
Proof. apply bytes_eqb_false. Qed.

#[global] Hint Rewrite if_ok if_panic ok_ok ok_panic negb_false_iff negb_true_iff andb_true_iff andb_false_iff orb_true_iff orb_false_iff
  @is_empty_true @is_empty_false @is_none_true @is_none_false is_zero_true is_zero_false bytes_eqb_true bytes_eqb_false
  schema_is_default_true schema_is_default_false
  N.ltb_lt N.ltb_ge N.leb_le N.leb_gt N.eqb_eq N.eqb_neq : checks.

Lemma dec_eq (a b : bytes) : {a = b} + {a <> b}.
Proof. exact (bytes_eq_dec a b). Qed.

Lemma alive_lemma h c : alive h c = Ok tt <-> lives h c.
Proof.
  unfold alive, lives. destruct (support_genesis_hash (ctx_proto c)); autorewrite with checks; unfold unset, set.
  - destruct (dec_eq (tx_genesis_hash h) zero32) as [E|E], (require_genesis_hash (ctx_proto c)), (dec_eq (tx_genesis_hash h) (ctx_genesis_hash c)); intuition (congruence || lia).
  - intuition (congruence || lia).
Qed.
Lemma alive_never_panics h c : alive h c <> Panic.
Proof. unfold alive. destruct (support_genesis_hash (ctx_proto c)); autorewrite with checks; tauto. Qed.

Lemma check_spender_ok f h spec : check_spender f h spec = Ok tt <-> payment_ok spec h f.
Proof.
  unfold check_spender, payment_ok. rewrite if_ok.
  assert (E : match close_remainder_to f with Some c => bytes_eqb (sender h) c | None => false end = false <-> close_remainder_to f <> Some (sender h)).
  { destruct (close_remainder_to f) as [c|]; [|split; congruence]. rewrite bytes_eqb_false. split; congruence. }
  rewrite E. destruct (bytes_eqb_reflect (sender h) (fee_sink spec)) as [Hs|Hs]; autorewrite with checks; tauto.
Qed.
Lemma check_spender_panic f h spec : check_spender f h spec <> Panic.
Proof.
  unfold check_spender. rewrite if_panic. destruct (bytes_eqb (sender h) (fee_sink spec)); autorewrite with checks; tauto.
Qed.

Lemma coherency_ok m f h : last_valid h < max64 -> check_coherency m f h = Ok tt <-> goes_offline f \/ goes_online h f.
Proof.
  intros Hl. unfold check_coherency, goes_offline, goes_online, sets_keys, add64.
  destruct (N.ltb_spec (last_valid h + 1) two64); [|unfold max64, two64 in *; lia].
  destruct (N.eqb_spec (kr_key_dilution f) 0); autorewrite with checks; unfold unset, set in *; destruct (dec_eq (vote_pk f) default_key), (dec_eq (selection_pk f) zero32); intuition (congruence || lia).
Qed.
Lemma coherency_panic m f h : last_valid h < two64 -> check_coherency m f h = Panic <-> m = Debug /\ sets_keys f /\ last_valid h = max64.
Proof.
  intros Hl. unfold check_coherency, sets_keys, add64.
  destruct (N.eqb_spec (kr_key_dilution f) 0).
  - autorewrite with checks. tauto.
  - destruct (N.ltb_spec (last_valid h + 1) two64).
    + autorewrite with checks. unfold max64, two64 in *. intuition (congruence || lia).
    + destruct m; autorewrite with checks; unfold unset, set in *; unfold max64, two64 in *;
      destruct (dec_eq (vote_pk f) default_key), (dec_eq (selection_pk f) zero32); intuition (congruence || lia).
Qed.

Lemma sum_fold l : forall s, fold_left (fun s a => sat_add s (len a)) l (N.min s max64) = N.min (s + total_length l) max64.
Proof.
  induction l as [|a l IH]; intros s; cbn [fold_left total_length fold_right]; [rewrite N.add_0_r; reflexivity|].
  replace (sat_add (N.min s max64) (len a)) with (N.min (s + len a) max64) by (unfold sat_add; lia).
  rewrite IH. rewrite N.add_assoc. reflexivity.
Qed.
Lemma arg_sum l limit : limit < max64 -> fold_left (fun s a => sat_add s (len a)) l 0 <= limit <-> total_length l <= limit.
Proof.
  intros Hl. change 0 with (N.min 0 max64) at 1. rewrite sum_fold, N.add_0_l. lia.
Qed.
Lemma entries_le s limit : limit < max64 -> num_entries s <= limit <-> num_uint s + num_byte_slice s <= limit.
Proof. intros Hl. unfold num_entries, sat_add. lia. Qed.

Lemma app_call_lemma m proto f : limits_fit proto -> (check_app_call m proto f = Ok tt <-> app_call_ok proto f) /\ check_app_call m proto f <> Panic.
Proof.
  intros (H1 & H2 & H3 & H4 & H5 & H6). unfold check_app_call. cbv zeta.
  set (epp := if negb (called_app f =? 0) && enable_extra_pages_on_app_update proto then max_extra_app_program_pages proto else extra_program_pages f).
  assert (G : extra_program_pages f <= max_extra_app_program_pages proto ->
     (check_programs m proto f epp = Ok tt <->
      len (approval_program f) <= pages proto f * max_app_program_len proto /\
      len (clear_state_program f) <= pages proto f * max_app_program_len proto /\
      len (approval_program f) + len (clear_state_program f) <= pages proto f * max_app_total_program_len proto /\
      num_uint (local_state_schema f) + num_byte_slice (local_state_schema f) <= max_local_schema_entries proto /\
      num_uint (global_state_schema f) + num_byte_slice (global_state_schema f) <= max_global_schema_entries proto) /\
     check_programs m proto f epp <> Panic).
  { intros He. change (pages proto f) with (1 + epp). unfold check_programs.
    assert (Hep : epp <= max_extra_app_program_pages proto) by (subst epp; destruct (_ && _); lia).
    clearbody epp. unfold add32. destruct (N.ltb_spec (1 + epp) (2 ^ 32)); [|lia]. unfold mul32.
    assert ((1 + epp) * max_app_program_len proto <= (1 + max_extra_app_program_pages proto) * max_app_program_len proto) by (apply N.mul_le_mono_r; lia).
    assert ((1 + epp) * max_app_total_program_len proto <= (1 + max_extra_app_program_pages proto) * max_app_total_program_len proto) by (apply N.mul_le_mono_r; lia).
    destruct (N.ltb_spec ((1 + epp) * max_app_program_len proto) (2 ^ 32)); [|lia].
    destruct (N.ltb_spec ((1 + epp) * max_app_total_program_len proto) (2 ^ 32)); [|lia].
    autorewrite with checks. rewrite !entries_le by assumption. tauto. }
  unfold app_call_ok. split.
  - rewrite !if_ok. rewrite (N.ltb_ge _ (fold_left _ _ _)), arg_sum by (unfold max64; lia). autorewrite with checks.
    destruct (N.eq_dec (called_app f) 0) as [Ez|Ez]; destruct (on_completion f) eqn:Ec;
    split; intros Hx; repeat match goal with H : _ /\ _ |- _ => destruct H end;
    match goal with H : extra_program_pages f <= max_extra_app_program_pages proto |- _ => destruct (G H) as [G1 _] end;
    rewrite ?G1 in *; intuition congruence.
  - rewrite !if_panic. intros Hx. repeat match goal with H : _ /\ _ |- _ => destruct H end.
    rewrite N.ltb_ge in *. tauto.
Qed.

Lemma cert_lemma reserved proto h :
  (if compact_cert_rounds proto =? 0 then Err CompactcertTxsNotSupported
   else if negb (bytes_eqb (sender h) reserved) then Err CCInvalidSender
   else if negb (fee h =? 0) then Err CCNonZeroFee
   else if negb (is_empty (note h)) then Err CCNonEmptyNote
   else if negb (is_zero (group h)) then Err CCNonZeroGroup
   else if negb (is_zero (rekey_to h)) then Err CCNonZeroRekey
   else if negb (is_zero (lease h)) then Err CCNonZeroLease
   else Ok tt) = Ok tt <-> cert_ok reserved proto h.
Proof. autorewrite with checks. unfold cert_ok, unset. tauto. Qed.

Section Hash.
Variable H : bytes -> bytes.
Notation reserved := (COMPACT_CERT_SENDER H).

(** Fields and asset parameters together. *)
Lemma fields_lemma m spec proto t : limits_fit proto -> last_valid (tx_head t) < max64 ->
  (check_fields H m spec proto t = Ok tt /\ check_asset_params proto t = Ok tt <-> fields_ok reserved spec proto t).
Proof.
  intros Hf Hl. unfold check_fields, check_asset_params, fields_ok. cbv zeta. destruct (fields t) as [f|f|f|f|f|f|f].
  - rewrite bind_ok, ok_ok. unfold keyreg_ok.
    assert (E : (if enable_keyreg_coherency_check proto then check_coherency m f (tx_head t) else Ok tt) = Ok tt <->
            (enable_keyreg_coherency_check proto = true -> goes_offline f \/ goes_online (tx_head t) f)).
    { destruct (enable_keyreg_coherency_check proto); [rewrite coherency_ok by exact Hl; tauto|split; [discriminate|reflexivity]]. }
    rewrite E. destruct (nonparticipation f); autorewrite with checks; unfold unset; intuition congruence.
  - rewrite check_spender_ok. autorewrite with checks. tauto.
  - unfold asset_config_ok. autorewrite with checks. tauto.
  - autorewrite with checks. tauto.
  - autorewrite with checks. tauto.
  - rewrite (proj1 (app_call_lemma m proto f Hf)). autorewrite with checks. tauto.
  - rewrite cert_lemma. autorewrite with checks. tauto.
Qed.
Lemma fields_panic m spec proto t : limits_fit proto -> last_valid (tx_head t) < two64 ->
  check_fields H m spec proto t = Panic <-> m = Debug /\ keyreg_at_the_end proto t.
Proof.
  intros Hf Hl. unfold check_fields, keyreg_at_the_end. cbv zeta.
  destruct (fields t) as [f|f|f|f|f|f|f].
  2:{ split; [intros Hp; destruct (check_spender_panic _ _ _ Hp)|intros (_ & f' & E & _); discriminate]. }
  2-4: (autorewrite with checks; split; [tauto|intros (_ & f' & E & _); discriminate]).
  2:{ split; [intros Hp; destruct (proj2 (app_call_lemma m proto f Hf) Hp)|intros (_ & f' & E & _); discriminate]. }
  2: (autorewrite with checks; split; [tauto|intros (_ & f' & E & _); discriminate]).
  rewrite bind_panic.
  assert (N : forall k, (if nonparticipation f then
         if negb (support_become_non_participating_transactions proto) then Err KeyregUnsupportedSwitchToNonParticipating
         else if negb (bytes_eqb (vote_pk f) default_key || bytes_eqb (selection_pk f) zero32) then Err KeyregGoingOnlineWithNonParticipating
         else Ok tt else Ok tt) = k -> k <> @Panic invalid_tx unit).
  { intros k <-. destruct (nonparticipation f); autorewrite with checks; tauto. }
  specialize (N _ eq_refl). split.
  - intros [Hp|[_ Hp]]; [|contradiction]. destruct (enable_keyreg_coherency_check proto) eqn:Ec; [|discriminate].
    apply coherency_panic in Hp; [|exact Hl]. destruct Hp as (-> & Hs & Hv). split; [reflexivity|]. exists f. auto.
  - intros (-> & f' & [= <-] & Ec & Hs & Hv). left. rewrite Ec. apply coherency_panic; [exact Hl|auto].
Qed.
Lemma fee_lemma proto t : check_fee proto t = Ok tt <-> fee_ok proto t.
Proof.
  unfold check_fee, fee_ok, is_compact_cert. autorewrite with checks. destruct (fields t) as [f|f|f|f|f|f|f].
  7:{ split; [intros _; right; left; exists f; reflexivity|intros _; split; [right; reflexivity|exact I]]. }
  all: split; [intros [[[Hx|Hx]|Hx] _]; [auto|auto|discriminate]|intros [Hx|[[c Hx]|Hx]]; [auto|discriminate|auto]].
Qed.
Lemma validity_lemma proto h : check_validity proto h = Ok tt <-> validity_ok proto h.
Proof. unfold check_validity, validity_ok. autorewrite with checks. lia. Qed.
Lemma header_lemma spec proto h : check_header spec proto h = Ok tt <-> sender h <> rewards_pool spec /\ set (sender h) /\ features_ok proto h.
Proof.
  unfold check_header, features_ok. destruct (bytes_eqb_reflect (sender h) (rewards_pool spec)); [split; [discriminate|tauto]|].
  autorewrite with checks. unfold set, unset.
  destruct (support_transaction_leases proto), (support_tx_groups proto), (support_rekeying proto), (dec_eq (lease h) zero32),
    (dec_eq (group h) zero32), (dec_eq (rekey_to h) zero32); intuition congruence.
Qed.
Lemma header_panic spec proto h : check_header spec proto h = Panic <-> sender h = rewards_pool spec.
Proof.
  unfold check_header. destruct (bytes_eqb_reflect (sender h) (rewards_pool spec)); [split; auto|].
  autorewrite with checks. tauto.
Qed.
Lemma well_formed_lemma m spec proto t : limits_fit proto -> last_valid (tx_head t) < max64 ->
  is_well_formed H m spec proto t = Ok tt <-> well_formed reserved spec proto t.
Proof.
  intros Hf Hl. unfold is_well_formed. rewrite !bind_ok, fee_lemma, validity_lemma, header_lemma.
  unfold well_formed, sound_body. pose proof (fields_lemma m spec proto t Hf Hl). tauto.
Qed.
Lemma checks_no_panic proto t : check_fee proto t <> Panic /\ check_validity proto (tx_head t) <> Panic /\ check_asset_params proto t <> Panic.
Proof.
  unfold check_fee, check_validity, check_asset_params. split; [|split]; [| |destruct (fields t)]; autorewrite with checks; tauto.
Qed.
Lemma well_formed_panic m spec proto t : limits_fit proto -> last_valid (tx_head t) < max64 ->
  is_well_formed H m spec proto t = Panic <-> sound_body reserved spec proto t /\ sender (tx_head t) = rewards_pool spec.
Proof.
  intros Hf Hl. unfold is_well_formed. rewrite !bind_panic, fee_lemma, validity_lemma, header_panic.
  rewrite fields_panic by (assumption || (unfold max64, two64 in *; lia)).
  pose proof (checks_no_panic proto t) as (N1 & N2 & N3).
  assert (N4 : ~ keyreg_at_the_end proto t) by (intros (f & _ & _ & _ & E); unfold max64 in *; lia).
  unfold sound_body. pose proof (fields_lemma m spec proto t Hf Hl). tauto.
Qed.
Lemma keyreg_end_lemma spec proto t : limits_fit proto -> last_valid (tx_head t) < two64 -> keyreg_at_the_end proto t ->
  is_well_formed H Debug spec proto t = Panic.
Proof. intros Hf Hl Hk. unfold is_well_formed. rewrite bind_panic. left. apply fields_panic; auto. Qed.

(** ** Fee *)
Lemma if_err (b : bool) (e e' : invalid_tx) (k : result) : e <> e' -> (if b then Err e else k) = Err e' -> k = Err e'.
Proof. intros Hn. destruct b; [congruence|auto]. Qed.
Lemma fee_error_only spec proto t m : is_well_formed H m spec proto t = Err FeeLessThanMin ->
  check_fee proto t = Err FeeLessThanMin.
Proof.
  unfold is_well_formed. unfold bind at 1. destruct (check_fields H m spec proto t) as [[]|e|] eqn:Ef; [| |discriminate].
  - unfold bind at 1. destruct (check_fee proto t) as [[]|e|] eqn:Ee; [| |discriminate].
    + intros E. exfalso. unfold bind at 1 in E.
      assert (check_validity proto (tx_head t) <> Err FeeLessThanMin).
      { unfold check_validity. intros E'. repeat (apply if_err in E'; [|discriminate]). discriminate. }
      destruct (check_validity proto (tx_head t)) as [[]|e|]; [| |discriminate]; [|congruence]. unfold bind at 1 in E.
      assert (check_asset_params proto t <> Err FeeLessThanMin).
      { unfold check_asset_params. intros E'. destruct (fields t); repeat (apply if_err in E'; [|discriminate]); discriminate. }
      destruct (check_asset_params proto t) as [[]|e|]; [| |discriminate]; [|congruence].
      unfold check_header in E. destruct (bytes_eqb _ _); [discriminate|]. repeat (apply if_err in E; [|discriminate]). discriminate.
    + auto.
  - intros E. exfalso. assert (e = FeeLessThanMin) as -> by congruence. clear E. unfold check_fields in Ef. cbv zeta in Ef.
    destruct (fields t) as [f|f|f|f|f|f|f].
    + destruct (enable_keyreg_coherency_check proto); unfold bind in Ef.
      * destruct (check_coherency m f (tx_head t)) as [[]|e|] eqn:Ec; [| |discriminate].
        -- destruct (nonparticipation f); [|discriminate]. repeat (apply if_err in Ef; [|discriminate]). discriminate.
        -- assert (e = FeeLessThanMin) as -> by congruence. unfold check_coherency in Ec.
           do 2 (apply if_err in Ec; [|discriminate]). destruct (kr_key_dilution f =? 0).
           ++ repeat (apply if_err in Ec; [|discriminate]). discriminate.
           ++ apply if_err in Ec; [|discriminate]. destruct (add64 m (last_valid (tx_head t)) 1); [|discriminate].
              repeat (apply if_err in Ec; [|discriminate]). discriminate.
      * destruct (nonparticipation f); [|discriminate]. repeat (apply if_err in Ef; [|discriminate]). discriminate.
    + unfold check_spender in Ef. apply if_err in Ef; [|discriminate]. destruct (bytes_eqb (sender (tx_head t)) (fee_sink spec)); [|discriminate].
      repeat (apply if_err in Ef; [|discriminate]). discriminate.
    + repeat (apply if_err in Ef; [|discriminate]). discriminate.
    + repeat (apply if_err in Ef; [|discriminate]). discriminate.
    + repeat (apply if_err in Ef; [|discriminate]). discriminate.
    + unfold check_app_call in Ef. cbv zeta in Ef. do 11 (apply if_err in Ef; [|discriminate]).
      unfold check_programs in Ef. destruct (add32 _ _ _); [|discriminate]. destruct (mul32 _ _ (max_app_program_len proto)); [|discriminate].
      do 2 (apply if_err in Ef; [|discriminate]). destruct (mul32 _ _ (max_app_total_program_len proto)); [|discriminate].
      repeat (apply if_err in Ef; [|discriminate]). discriminate.
    + repeat (apply if_err in Ef; [|discriminate]). discriminate.
Qed.
Lemma enough_fee m spec proto t : min_tx_fee proto < fee (tx_head t) -> is_well_formed H m spec proto t <> Err FeeLessThanMin.
Proof.
  intros Hf E. apply fee_error_only in E. unfold check_fee in E.
  assert (E' : fee (tx_head t) <=? min_tx_fee proto = false) by (apply N.leb_gt; exact Hf).
  rewrite E', andb_false_r in E. discriminate.
Qed.
Lemma too_small_fee m spec proto t : enable_fee_pooling proto = false -> (forall c, fields t <> CompactCert c) ->
  fee (tx_head t) < min_tx_fee proto -> is_well_formed H m spec proto t <> Ok tt.
Proof.
  intros Hp Hc Hf E. unfold is_well_formed in E. rewrite !bind_ok in E. destruct E as (_ & E & _). apply fee_lemma in E.
  destruct E as [E|[[c E]|E]]; [congruence|exact (Hc c E)|lia].
Qed.
Lemma minimum_fee_rejected m spec proto t : limits_fit proto -> last_valid (tx_head t) < max64 ->
  enable_fee_pooling proto = false -> (forall c, fields t <> CompactCert c) ->
  fee (tx_head t) <= min_tx_fee proto -> fields_ok reserved spec proto t -> is_well_formed H m spec proto t = Err FeeLessThanMin.
Proof.
  intros Lf Ll Hp Hc Hf Hk. apply (fields_lemma m spec proto t Lf Ll) in Hk. destruct Hk as [Hk _].
  unfold is_well_formed. rewrite Hk. cbn [bind]. unfold check_fee, is_compact_cert. rewrite Hp. apply N.leb_le in Hf. rewrite Hf.
  destruct (fields t) eqn:E; try reflexivity. destruct (Hc f eq_refl).
Qed.

(** ** Signing *)
Lemma sign_lemma (sc : scheme) sk t : scheme_correct sc -> public sc sk <> zero32 ->
  let s := sign sc sk t in
  authorizer s = public sc sk /\ stx_tx s = t /\ (stx_auth s = zero32 <-> public sc sk = sender (tx_head t)) /\
  check sc (public sc sk) (id_bytes TRANSACTION ++ encode (tx_value t)) (stx_sig s) = true /\ stx_msig s = None /\ stx_lsig s = None.
Proof.
  intros Hc Hz. cbv zeta. unfold sign, authorizer. cbn [stx_auth stx_tx stx_sig stx_msig stx_lsig].
  destruct (bytes_eqb_reflect (public sc sk) (sender (tx_head t))) as [E|E].
  - split; [unfold is_zero; rewrite bytes_eqb_refl; auto|]. split; [reflexivity|]. split; [tauto|]. split; [apply Hc|auto].
  - split.
    + destruct (is_zero (public sc sk)) eqn:Ez; [apply is_zero_true in Ez; contradiction|reflexivity].
    + split; [reflexivity|]. split; [tauto|]. split; [apply Hc|auto].
Qed.
End Hash.

Lemma authorizer_lemma s : authorizer s = if is_zero (stx_auth s) then sender (tx_head (stx_tx s)) else stx_auth s.
Proof. reflexivity. Qed.

(** ** Relevant addresses *)
Lemma relevant_lemma t spec a : In a (relevant_addrs t spec) <-> touches t a \/ a = fee_sink spec.
Proof.
  unfold relevant_addrs, touches. rewrite in_app_iff. cbn [In]. destruct (fields t) as [f|f|f|f|f|f|f]; cbn [In]; try (intuition congruence).
  - destruct (close_remainder_to f) as [c|]; cbn [In]; intuition congruence.
  - rewrite in_app_iff. destruct (is_zero (asset_close_to f)) eqn:E1, (is_zero (asset_sender f)) eqn:E2; cbn [negb In];
    rewrite ?is_zero_true, ?is_zero_false in *; unfold set, unset in *; intuition congruence.
Qed.
Lemma match_address_lemma t spec a : match_address t a spec = true <-> touches t a \/ a = fee_sink spec.
Proof.
  unfold match_address. rewrite existsb_exists, <- relevant_lemma. split.
  - intros (x & Hi & E). apply bytes_eqb_true in E. subst. exact Hi.
  - intros Hi. exists a. split; [exact Hi|apply bytes_eqb_refl].
Qed.

(** ** Fee credit *)
Definition is_cert (s : signed_tx) : bool := match fields (stx_tx s) with CompactCert _ => true | _ => false end.
Lemma fee_credit_fold g : forall c p,
  fold_left (fun '(count, paid) (s : signed_tx) =>
      (match fields (stx_tx s) with CompactCert _ => count + 1 | _ => count end,
       sat_add paid (fee (tx_head (stx_tx s))))) g (c, N.min p max64) = (c + len (filter is_cert g), N.min (p + fees g) max64).
Proof.
  unfold len. induction g as [|s g IH]; intros c p; cbn [fold_left filter fees fold_right length]; [rewrite !N.add_0_r; reflexivity|].
  replace (sat_add (N.min p max64) (fee (tx_head (stx_tx s)))) with (N.min (p + fee (tx_head (stx_tx s))) max64) by (unfold sat_add; lia).
  rewrite IH. unfold is_cert at 2. fold (fees g). f_equal; [|rewrite N.add_assoc; reflexivity]. destruct (fields (stx_tx s)); cbn [length]; lia.
Qed.
(** What the code computes: certificates are counted instead of the others. *)
Lemma fee_credit_lemma g min_fee : fees g < two64 ->
  fee_credit g min_fee = let needed := min_fee * len (filter is_cert g) in if fees g <? needed then None else Some (fees g - needed).
Proof.
  intros Hf. unfold fee_credit. change (0, 0) with (0, N.min 0 max64). rewrite fee_credit_fold, !N.add_0_l. cbv zeta.
  rewrite N.min_l by (unfold max64, two64 in *; lia). set (needed := min_fee * len (filter is_cert g)).
  destruct (N.ltb_spec needed two64); [reflexivity|]. destruct (N.ltb_spec (fees g) needed); [reflexivity|lia].
Qed.
Lemma fee_credit_partial g min_fee : fees g < two64 ->
  length (filter is_cert g) = length (filter fee_bearing g) -> fee_credit g min_fee = credit g min_fee.
Proof. intros Hf E. rewrite fee_credit_lemma by exact Hf. unfold credit, len. rewrite E. reflexivity. Qed.
