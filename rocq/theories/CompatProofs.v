From Coq Require Import Relations.
From Verif Require Import Base ConsensusModel ConfigModel ConfigSpec ConfigProofs BasicsModel BasicsSpec BasicsProofs TxModel TxSpec TxProofs IdsModel AccountSizeModel AccountSizeSpec AccountSizeProofs AccountPaidProofs.
Local Open Scope N_scope.

(** Along upgrades these never become smaller. *)
Definition b (f : params -> bool) (p : params) : N := N.b2n (f p).
Definition growing : list (params -> N) :=
  [b application; b asset; b enable_extra_pages_on_app_update; b support_become_non_participating_transactions; b support_transaction_leases;
   b support_tx_groups; b support_rekeying; b enable_fee_pooling; b support_genesis_hash; b require_genesis_hash; b enable_keyreg_coherency_check;
   max_extra_app_program_pages; max_app_program_len; max_app_total_program_len; max_local_schema_entries; max_global_schema_entries;
   max_app_args; max_app_total_arg_len; max_app_tx_accounts; max_app_tx_foreign_apps; max_app_tx_foreign_assets; max_app_total_tx_references;
   max_tx_life; max_tx_note_bytes; max_asset_name_bytes; max_asset_unit_name_bytes; max_asset_url_bytes; max_asset_decimals;
   (fun p => 1000000 - min_tx_fee p); (fun p => N.min 1 (compact_cert_rounds p));
   max_assets_per_account; max_apps_opted_in; max_apps_created; max_app_key_len; max_app_bytes_value_len; max_app_sum_key_value_lens].
Definition grows (p q : params) : Prop := Forall (fun f : params -> N => f p <= f q) growing.
Lemma grows_refl p : grows p p.
Proof. apply Forall_forall. intros f _. apply N.le_refl. Qed.
Lemma grows_trans p q r : grows p q -> grows q r -> grows p r.
Proof. unfold grows. rewrite !Forall_forall. intros A B f Hf. exact (N.le_trans _ _ _ (A f Hf) (B f Hf)). Qed.

(** The costs, and what is known of the limit on minimum balances. *)
Definition no_apps (p : params) : bool := (max_apps_opted_in p =? 0) && (max_apps_created p =? 0).
Definition costs (p : params) : list N :=
  [app_flat_params_min_balance p; app_flat_opt_in_min_balance p; schema_min_balance_per_entry p; schema_uint_min_balance p; schema_bytes_min_balance p].
Definition same_costs (p q : params) : bool :=
  (ConsensusModel.min_balance p =? ConsensusModel.min_balance q) && (no_apps p || forallb (fun e => fst e =? snd e) (combine (costs p) (costs q))).
Definition limit_kept (p q : params) : bool :=
  (maximum_minimum_balance q =? 0) || (negb (maximum_minimum_balance p =? 0) && (maximum_minimum_balance p <=? maximum_minimum_balance q)) ||
  (no_apps p && ((1 + max_assets_per_account p) * ConsensusModel.min_balance p <=? maximum_minimum_balance q)).
Definition early (v : version) : bool := match v with V7 | V8 => true | _ => false end.
Definition params_ok (p : params) : bool :=
  ((1 + max_extra_app_program_pages p) * max_app_program_len p <? 2 ^ 32) &&
  ((1 + max_extra_app_program_pages p) * max_app_total_program_len p <? 2 ^ 32) &&
  (1 + max_extra_app_program_pages p <? 2 ^ 32) && (max_app_total_arg_len p <? 2 ^ 32) &&
  (max_local_schema_entries p <? 2 ^ 64 - 1) && (max_global_schema_entries p <? 2 ^ 64 - 1) && (ConsensusModel.min_balance p <? two64) &&
  (min_tx_fee p <? 1000000) && implb (require_genesis_hash p) (support_genesis_hash p).

Lemma edges_built_in : forallb (fun e => params_ok (snd e) && forallb (fun u =>
    match lookup (fst u) built_in with
    | None => false
    | Some q => forallb (fun f : params -> N => f (snd e) <=? f q) growing && (early (fst e) || (negb (early (fst u)) && same_costs (snd e) q && limit_kept (snd e) q))
    end) (approved_upgrades (snd e))) built_in = true.
Proof. vm_compute. reflexivity. Qed.
Lemma ok_built_in v p : lookup v built_in = Some p -> params_ok p = true.
Proof.
  intros L%lookup_In. pose proof edges_built_in as E. rewrite forallb_forall in E. specialize (E _ L). apply andb_true_iff in E. exact (proj1 E).
Qed.
Lemma fit_built_in v p : lookup v built_in = Some p -> limits_fit p.
Proof. intros L%ok_built_in. unfold params_ok in L. rewrite !andb_true_iff, !N.ltb_lt in L. unfold limits_fit. tauto. Qed.
Lemma edge v w p : ConfigSpec.upgrade built_in v w -> lookup v built_in = Some p ->
  exists q, lookup w built_in = Some q /\ grows p q /\ (early v = false -> early w = false /\ same_costs p q = true /\ limit_kept p q = true).
Proof.
  intros (p' & delay & L & U) L'. assert (p' = p) by congruence. subst p'. pose proof edges_built_in as E. rewrite forallb_forall in E.
  specialize (E _ (lookup_In _ _ _ L)). apply andb_true_iff in E. destruct E as [_ E]. cbn [snd] in E. rewrite forallb_forall in E.
  specialize (E _ (lookup_In _ _ _ U)). cbn [fst] in E. destruct (lookup w built_in) as [q|]; [|discriminate E]. exists q. split; [reflexivity|].
  apply andb_true_iff in E. destruct E as [G C]. split.
  - unfold grows. apply Forall_forall. intros f Hf. rewrite forallb_forall in G. apply N.leb_le. exact (G f Hf).
  - intros Ev. rewrite Ev in C. cbn [orb] in C. rewrite !andb_true_iff, negb_true_iff in C. tauto.
Qed.
Lemma path v w p : ConfigSpec.upgrades built_in v w -> lookup v built_in = Some p -> exists q, lookup w built_in = Some q /\ grows p q.
Proof.
  intros U. revert p. induction U as [v w U|v|v w u U1 IH1 U2 IH2]; intros p L.
  - destruct (edge v w p U L) as (q & Lq & G & _). eauto.
  - exists p. split; [exact L|apply grows_refl].
  - destruct (IH1 p L) as (q & Lq & G1). destruct (IH2 q Lq) as (r & Lr & G2). exists r. split; [exact Lr|]. exact (grows_trans _ _ _ G1 G2).
Qed.

(** ** Transactions *)
Ltac grown G := unfold grows, growing, b in G; repeat match type of G with Forall _ (_ :: _) => let h := fresh "G" in pose proof (Forall_inv G) as h; cbv beta in h; apply Forall_inv_tail in G end.
Lemma flag x y : N.b2n x <= N.b2n y -> x = true -> y = true.
Proof. destruct x, y; cbn; intros; (reflexivity || lia || discriminate). Qed.
Lemma form_grows reserved spec p q t : grows p q -> min_tx_fee p < 1000000 -> well_formed reserved spec p t ->
  (well_formed reserved spec q t <->
   forall f, fields t = Keyreg f -> enable_keyreg_coherency_check q = true -> goes_offline f \/ goes_online (tx_head t) f).
Proof.
  intros G Hfee ((Hf & Hfe & Hv) & Hp & Hs & Hft). split.
  - intros ((Hf' & _) & _) f Ef. unfold fields_ok in Hf'. rewrite Ef in Hf'. destruct Hf' as [A _]. exact A.
  - intros Hk. grown G. split; [split; [|split]|split; [exact Hp|split; [exact Hs|]]].
    + unfold fields_ok in *. destruct (fields t) as [f|f|f|f|f|f|f] eqn:Ef.
      * destruct Hf as [_ Hn]. split; [exact (Hk f eq_refl)|]. intros N1. destruct (Hn N1) as [S1 S2]. split; [|exact S2]. eapply flag; eassumption.
      * exact Hf.
      * destruct Hf as [A1 A2]. split; [eapply flag; eassumption|]. unfold asset_config_ok in *. lia.
      * eapply flag; eassumption.
      * eapply flag; eassumption.
      * destruct Hf as (A1 & A2 & A3). split; [eapply flag; eassumption|]. split; [exact A2|].
        assert (P : pages p f <= pages q f).
        { unfold pages. destruct (called_app f =? 0) eqn:Ec; cbn [negb andb]; [lia|]. apply N.eqb_neq in Ec. destruct (A2 Ec) as (_ & _ & _ & E0).
          destruct (enable_extra_pages_on_app_update p) eqn:Ep; [rewrite (flag true _ ltac:(eassumption) eq_refl); lia|]. rewrite E0. lia. }
        assert (P1 : pages p f * max_app_program_len p <= pages q f * max_app_program_len q) by (apply N.mul_le_mono; assumption).
        assert (P2 : pages p f * max_app_total_program_len p <= pages q f * max_app_total_program_len q) by (apply N.mul_le_mono; assumption).
        clear Hk Hfe Hv Hft A2. lia.
      * unfold cert_ok in *. destruct Hf as (A1 & A2). split; [|exact A2]. lia.
    + destruct Hfe as [A|[A|A]]; [left; eapply flag; eassumption|right; left; exact A|right; right]. lia.
    + unfold validity_ok in *. lia.
    + destruct Hft as (A1 & A2 & A3). split; [|split]; intros Q; [specialize (A1 Q)|specialize (A2 Q)|specialize (A3 Q)]; eapply flag; eassumption.
Qed.
Lemma form_lemma H m spec v w p q t : ConfigSpec.upgrades built_in v w -> lookup v built_in = Some p -> lookup w built_in = Some q ->
  last_valid (tx_head t) < 2 ^ 64 - 1 -> is_well_formed H m spec p t = Ok tt ->
  (is_well_formed H m spec q t = Ok tt <->
   forall f, fields t = Keyreg f -> enable_keyreg_coherency_check q = true -> goes_offline f \/ goes_online (tx_head t) f).
Proof.
  intros U Lp Lq Hl Hw. destruct (path v w p U Lp) as (q' & Lq' & G). assert (q' = q) by congruence. subst q'.
  rewrite (well_formed_lemma H m spec q t (fit_built_in w q Lq) Hl). apply form_grows with (p := p); [exact G| |].
  - pose proof (ok_built_in v p Lp) as R. unfold params_ok in R. rewrite !andb_true_iff, !N.ltb_lt in R. tauto.
  - apply (well_formed_lemma H m spec p t (fit_built_in v p Lp) Hl). exact Hw.
Qed.
Lemma alive_grows h r id gh p q : grows p q -> (require_genesis_hash q = true -> support_genesis_hash q = true) -> alive h (mkContext r p id gh) = Ok tt ->
  (alive h (mkContext r q id gh) = Ok tt <-> require_genesis_hash q = false \/ set (tx_genesis_hash h)).
Proof.
  intros G Rq. rewrite !alive_lemma. unfold lives. cbn [ctx_round ctx_proto ctx_genesis_id ctx_genesis_hash]. grown G. intros (A1 & A2 & A3).
  assert (S : support_genesis_hash p = true -> support_genesis_hash q = true) by (intros; eapply flag; eassumption).
  destruct (support_genesis_hash p) eqn:Ep.
  - rewrite (S eq_refl). unfold set, unset in *. destruct A3 as [[B1 B2]|[B1 B2]].
    + split; [intros _; right; exact B1|]. intros _. tauto.
    + split; [intros (_ & _ & [C|C]); [right; tauto|left; tauto]|]. intros [C|C]; [|contradiction]. tauto.
  - unfold set, unset in *. destruct (support_genesis_hash q) eqn:Eq.
    + split; [intros (_ & _ & [C|C]); [right; tauto|left; tauto]|]. intros [C|C]; [|contradiction]. tauto.
    + split; [|tauto]. intros _. left. destruct (require_genesis_hash q) eqn:Er; [|reflexivity]. discriminate (Rq eq_refl).
Qed.
Lemma alive_upgrade h r id gh v w p q : ConfigSpec.upgrades built_in v w -> lookup v built_in = Some p -> lookup w built_in = Some q ->
  alive h (mkContext r p id gh) = Ok tt ->
  (alive h (mkContext r q id gh) = Ok tt <-> require_genesis_hash q = false \/ set (tx_genesis_hash h)).
Proof.
  intros U Lp Lq. destruct (path v w p U Lp) as (q' & Lq' & G). assert (q' = q) by congruence. subst q'. apply (alive_grows h r id gh p q G).
  pose proof (ok_built_in w q Lq) as R. unfold params_ok in R. apply andb_true_iff in R. destruct R as [_ R]. destruct (require_genesis_hash q); [intros _; exact R|discriminate].
Qed.

(** ** Accounts *)
Lemma upto_le {A} n n' (l : list A) : n <= n' -> upto n l -> upto n' l.
Proof. unfold upto. lia. Qed.
Lemma within_grows p q a : grows p q -> account_within p a -> account_within q a.
Proof.
  intros G (A1 & A2 & A3 & A4 & A5 & A6 & A7). grown G.
  assert (E : forall e, entry_within p e -> entry_within q e).
  { intros e [B1 B2]. split; [eapply upto_le; eassumption|]. destruct (ttype (snd e)); [|exact B2]. destruct B2 as (C1 & C2 & C3). split; [eapply upto_le; eassumption|]. split; [eapply upto_le; eassumption|exact C3]. }
  assert (S : forall n n' l, n <= n' -> state_within p n l -> state_within q n' l).
  { intros n n' l Hn [B1 B2]. split; [eapply upto_le; eassumption|]. eapply Forall_impl; [|exact B2]. exact E. }
  unfold account_within. repeat match goal with |- _ /\ _ => split end; try (eapply upto_le; eassumption).
  - eapply Forall_impl; [|exact A5]. intros e (B1 & B2 & B3 & B4). unfold asset_within. split; [lia|]. split; [eapply upto_le; eassumption|]. split; eapply upto_le; eassumption.
  - eapply Forall_impl; [|exact A6]. intros e. apply S. assumption.
  - eapply Forall_impl; [|exact A7]. intros e (B1 & B2 & B3 & B4 & B5). split; [lia|].
    split; [eapply upto_le; [|exact B2]; apply N.mul_le_mono_l; assumption|]. split; [eapply upto_le; [|exact B3]; apply N.mul_le_mono_l; assumption|].
    split; [eapply upto_le; [|exact B4]; apply N.mul_le_mono_l; assumption|]. eapply S; eassumption.
Qed.
Lemma no_apps_empty p a : no_apps p = true -> account_within p a -> books_kept a ->
  count (ad_apps a) = 0 /\ ad_pages a = 0 /\ count (ad_locals a) = 0 /\ num_uint (ad_schema a) = 0 /\ num_byte_slice (ad_schema a) = 0.
Proof.
  unfold no_apps. rewrite andb_true_iff, !N.eqb_eq. intros [E1 E2] (_ & _ & Wl & Wc & _) (_ & _ & _ & Su & Sb & Sg).
  rewrite Su, Sb, Sg, (no_entries _ _ Wl E1), (no_entries _ _ Wc E2). repeat split; reflexivity.
Qed.
Lemma charges_same p q a : same_costs p q = true -> account_within p a -> books_kept a -> charges q (as_account a) = charges p (as_account a).
Proof.
  unfold same_costs. rewrite andb_true_iff, orb_true_iff, N.eqb_eq. intros [E0 E] W B. rewrite !charges_account. destruct E as [E|E].
  - destruct (no_apps_empty p a E W B) as (-> & -> & -> & -> & ->). rewrite E0. lia.
  - unfold costs in E. cbn [combine forallb fst snd] in E. rewrite !andb_true_iff, !N.eqb_eq in E. destruct E as (F1 & F2 & F3 & F4 & F5 & _).
    rewrite E0, F1, F2, F3, F4, F5. reflexivity.
Qed.
Lemma edge_account v w p q a : ConfigSpec.upgrade built_in v w -> lookup v built_in = Some p -> lookup w built_in = Some q -> early v = false ->
  account_within p a -> books_kept a ->
  early w = false /\ account_within q a /\ account_min_balance q (as_account a) = account_min_balance p (as_account a) /\ (affordable p a -> affordable q a).
Proof.
  intros U Lp Lq Ev W B. destruct (edge v w p U Lp) as (q' & Lq' & G & C). assert (q' = q) by congruence. subst q'. destruct (C Ev) as (Ew & Cs & Cl).
  assert (Mb : forall v p, lookup v built_in = Some p -> ConsensusModel.min_balance p < two64).
  { intros v' p' L. apply ok_built_in in L. unfold params_ok in L. rewrite !andb_true_iff, !N.ltb_lt in L. tauto. }
  assert (Q : account_min_balance q (as_account a) = account_min_balance p (as_account a)).
  { rewrite (min_balance_lemma p _ (Mb v p Lp)), (min_balance_lemma q _ (Mb w q Lq)), (charges_same p q a Cs W B). reflexivity. }
  split; [exact Ew|]. split; [exact (within_grows p q a G W)|]. split; [exact Q|]. unfold affordable. rewrite Q. intros Hp.
  unfold limit_kept in Cl. rewrite !orb_true_iff, !andb_true_iff, negb_true_iff, !N.eqb_eq, N.eqb_neq, !N.leb_le in Cl. destruct Cl as [[Cl|[C1 C2]]|[C1 C2]].
  - left. exact Cl.
  - right. destruct Hp as [Hp|Hp]; [contradiction|]. lia.
  - right. rewrite (min_balance_lemma p _ (Mb v p Lp)). etransitivity; [apply N.le_min_l|]. etransitivity; [|exact C2].
    rewrite charges_account. destruct (no_apps_empty p a C1 W B) as (-> & -> & -> & -> & ->). destruct W as (_ & W & _). unfold upto in W. fold (count (ad_assets a)) in W.
    pose proof (N.mul_le_mono_r _ _ (ConsensusModel.min_balance p) W). lia.
Qed.
Lemma path_account v w p q a : ConfigSpec.upgrades built_in v w -> lookup v built_in = Some p -> lookup w built_in = Some q -> v <> V7 -> v <> V8 ->
  account_within p a -> books_kept a ->
  account_within q a /\ account_min_balance q (as_account a) = account_min_balance p (as_account a) /\ (affordable p a -> affordable q a).
Proof.
  intros U Lp Lq N7 N8. assert (Ev : early v = false) by (destruct v; (reflexivity || contradiction)). clear N7 N8.
  apply clos_rt_rt1n in U. revert p Lp Ev. induction U as [v|v u w U1 U2 IH]; intros p Lp Ev W B.
  - assert (p = q) by congruence. subst. tauto.
  - destruct (edge v u p U1 Lp) as (r & Lr & _). destruct (edge_account v u p r a U1 Lp Lr Ev W B) as (Eu & Wr & Q & A).
    destruct (IH Lq r Lr Eu Wr B) as (Wq & Q' & A'). split; [exact Wq|]. split; [congruence|auto].
Qed.
