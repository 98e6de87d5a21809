(** Properties C62 to C64: the protocol table, configured protocols and key file names. *)
From Coq Require Import Permutation.
From Verif Require Import Base ConfigModel ConfigSpec ConfigProofs KeyfileModel KeyfileSpec KeyfileProofs.
Local Open Scope N_scope.

(** C62.  The table that the initialisation builds. *)
Theorem c62_table_computed : init_consensus_protocols = built_in.
Proof. exact built_in_lemma. Qed.
Print Assumptions c62_table_computed.

Theorem c62_closed :
  forall v p w delay, lookup v built_in = Some p -> lookup w (approved_upgrades p) = Some delay ->
  exists q, lookup w built_in = Some q.
Proof. exact closed_lemma. Qed.
Print Assumptions c62_closed.

Theorem c62_leads_to_current :
  forall v p, lookup v built_in = Some p -> v <> Future ->
  upgrades built_in v CURRENT_CONSENSUS_VERSION.
Proof. exact leads_lemma. Qed.
Print Assumptions c62_leads_to_current.

Theorem c62_every_path_ends_in_current :
  forall v w p, lookup v built_in = Some p -> v <> Future -> upgrades built_in v w ->
  (forall u, ~ upgrade built_in w u) -> w = CURRENT_CONSENSUS_VERSION.
Proof. exact ends_lemma. Qed.
Print Assumptions c62_every_path_ends_in_current.

Theorem c62_no_cycle : forall v, ~ clos_trans _ (upgrade built_in) v v.
Proof. exact acyclic_lemma. Qed.
Print Assumptions c62_no_cycle.

Theorem c62_parameters : forall v p, lookup v built_in = Some p -> sane p /\ delays_fit p /\ fits p.
Proof. exact sane_lemma. Qed.
Print Assumptions c62_parameters.

(** C63, full statement: for all tables with distinct keys, [merge self conf] succeeds with a
    table that is [merged self conf], whatever the order of the entries.  Two ways it fails. *)

(** Deleting a protocol and one of its upgrades panics in one of the two orders. *)
Theorem c63_never_fails_refuted :
  exists conf conf', NoDup (map fst conf) /\ Permutation conf conf' /\
  merge built_in conf = None /\ merge built_in conf' <> None.
Proof.
  exists [(V16, v7_base); (V17, v7_base)], [(V17, v7_base); (V16, v7_base)]. split; [|split; [|split]].
  - repeat constructor; cbn; intuition discriminate.
  - apply perm_swap.
  - vm_compute. reflexivity.
  - vm_compute. discriminate.
Qed.
Print Assumptions c63_never_fails_refuted.

(** Overriding a protocol and deleting its old upgrade gives a different table in each order. *)
Definition v16_to_17 : params := set_approved_upgrades [(V17, 5)] v7_base.
Theorem c63_order_refuted :
  exists conf conf' t t', NoDup (map fst conf) /\ Permutation conf conf' /\
  merge built_in conf = Some t /\ merge built_in conf' = Some t' /\
  option_map approved_upgrades (lookup V16 t) <> option_map approved_upgrades (lookup V16 t').
Proof.
  exists [(V16, v16_to_17); (V17, v7_base)], [(V17, v7_base); (V16, v16_to_17)]. eexists. eexists.
  split; [repeat constructor; cbn; intuition discriminate|]. split; [apply perm_swap|].
  split; [vm_compute; reflexivity|]. split; [vm_compute; reflexivity|]. vm_compute. discriminate.
Qed.
Print Assumptions c63_order_refuted.

(** It holds when no configured protocol had an upgrade to a deleted one. *)
Theorem c63_merge_partial :
  forall self conf, NoDup (map fst self) -> NoDup (map fst conf) -> independent self conf ->
  exists t, merge self conf = Some t /\ merged self conf t.
Proof. exact merge_lemma. Qed.
Print Assumptions c63_merge_partial.

(** Exactly when it holds in every order. *)
Theorem c63_every_order_partial :
  forall self conf, NoDup (map fst self) -> NoDup (map fst conf) ->
  (forall conf', Permutation conf conf' -> exists t, merge self conf' = Some t /\ merged self conf' t) <-> untangled self conf.
Proof. exact every_order. Qed.
Print Assumptions c63_every_order_partial.

(** Exactly when it fails: a version is deleted before another one it had an upgrade to. *)
Theorem c63_fails :
  forall self conf, NoDup (map fst self) -> NoDup (map fst conf) ->
  merge self conf = None <->
  exists a b p, comes_before conf a b /\ deleted conf a /\ deleted conf b /\
    lookup a self = Some p /\ lookup b (approved_upgrades p) <> None.
Proof. exact fails_lemma. Qed.
Print Assumptions c63_fails.

(** C64.  Names have the announced shape and determine account and interval. *)
Theorem c64_part_name_shape :
  forall account first last name, first < two64 -> last < two64 ->
  is_part_name account first last name <-> name = part_key_filename account first last.
Proof. exact part_name_iff. Qed.
Print Assumptions c64_part_name_shape.

Theorem c64_part_names_differ :
  forall a f l a' f' l', f < two64 -> l < two64 -> f' < two64 -> l' < two64 ->
  part_key_filename a f l = part_key_filename a' f' l' -> a = a' /\ f = f' /\ l = l'.
Proof. exact part_name_inj. Qed.
Print Assumptions c64_part_names_differ.

Theorem c64_root_and_part_differ :
  forall a b f l, root_key_filename a <> part_key_filename b f l.
Proof. exact root_not_part. Qed.
Print Assumptions c64_root_and_part_differ.

Theorem c64_matching_part_names :
  forall a name, matches_part_key_filename a name = true <->
  exists f l, f < two64 /\ l < two64 /\ f <= l /\ name = part_key_filename a f l.
Proof. exact matches_part_lemma. Qed.
Print Assumptions c64_matching_part_names.

Theorem c64_matching_root_names :
  forall a name, matches_root_key_filename a name = true <-> name = a ++ str ".rootkey".
Proof. exact matches_root_lemma. Qed.
Print Assumptions c64_matching_root_names.

(** Recovering the account: true unless the account name itself ends like such a file name. *)
Theorem c64_part_recognised_partial :
  forall a f l, f < two64 -> l < two64 -> f <= l ->
  ends_with (str "." ++ dec f ++ str "." ++ dec l ++ str ".partkey") a = false ->
  account_name_from_part_key_filename (part_key_filename a f l) = a /\
  is_part_key_filename (part_key_filename a f l) = true /\
  extract_part_valid_interval (part_key_filename a f l) = Some (f, l).
Proof. exact part_recognised. Qed.
Print Assumptions c64_part_recognised_partial.

Theorem c64_part_recognised_refuted :
  exists a, is_part_key_filename (part_key_filename a 1 2) = false /\
  account_name_from_part_key_filename (part_key_filename a 1 2) <> a.
Proof.
  exists (str "x.1.2.partkey"). split; vm_compute; [reflexivity|discriminate].
Qed.
Print Assumptions c64_part_recognised_refuted.

(** Root key file names are never recognised. *)
Theorem c64_root_recognised_refuted : forall name, is_root_key_filename name = false.
Proof. exact is_root_false. Qed.
Print Assumptions c64_root_recognised_refuted.

Theorem c64_root_account_partial :
  forall a, ends_with (str ".rootkey") a = false ->
  account_name_from_root_key_filename (root_key_filename a) = a.
Proof. exact root_account. Qed.
Print Assumptions c64_root_account_partial.

(** ** Concrete cases *)
Example c62_case :
  option_map approved_upgrades (lookup V24 built_in) = Some [(V26, 140000)] /\
  (forall u, ~ upgrade built_in V30 u) /\ length built_in = 25%nat.
Proof.
  split; [reflexivity|]. split; [|reflexivity]. intros u (p & d & E & Ed).
  assert (Ep : Some (approved_upgrades p) = Some []).
  { change (Some (approved_upgrades p)) with (option_map approved_upgrades (Some p)). rewrite <- E. vm_compute. reflexivity. }
  injection Ep as Ep. rewrite Ep in Ed. discriminate.
Qed.

(** Deleting V20 and overriding V30. *)
Definition conf_ok : table := [(V20, v7_base); (V30, v16_to_17)].
(** Overriding V16 without its old upgrade to V17, and deleting V17, is merged in both orders; with
    the upgrade it is not; deleting V16 before V17 fails. *)
Definition v16_to_18 : params := set_approved_upgrades [(V18, 5)] v7_base.
Definition conf_apart : table := [(V16, v16_to_18); (V17, v7_base)].
Definition merged_upgrades (conf : table) : option (option (list (version * N)) * bool) :=
  option_map (fun t => (option_map approved_upgrades (lookup V16 t), contains V17 t)) (merge built_in conf).
Example c63_orders_case :
  (option_map (fun p => contains V17 (approved_upgrades p)) (lookup V16 built_in),
   merged_upgrades conf_apart, merged_upgrades (rev conf_apart),
   merged_upgrades [(V16, v7_base); (V17, v7_base)], merged_upgrades [(V17, v7_base); (V16, v7_base)]) =
  (Some true, Some (Some [(V18, 5)], false), Some (Some [(V18, 5)], false), None, Some (None, false)) /\
  untangled built_in conf_apart.
Proof.
  split; [vm_compute; reflexivity|]. intros v d p c Ev Ec (q & Eq & Hq) Hne Hp. unfold conf_apart in *. cbn [lookup] in Ec, Eq.
  assert (d = V17) as ->.
  { destruct (version_eqb_reflect d V16) as [Hd|]; [|destruct (version_eqb_reflect d V17); [assumption|discriminate]].
    exfalso. injection Eq as <-. discriminate. }
  destruct (version_eqb_reflect v V16) as [Hv|]; [|destruct (version_eqb_reflect v V17); congruence].
  injection Ec as <-. split; [discriminate|]. vm_compute. reflexivity.
Qed.
Example c63_case :
  NoDup (map fst built_in) /\ NoDup (map fst conf_ok) /\ independent built_in conf_ok /\
  match merge built_in conf_ok with
  | Some t => (option_map approved_upgrades (lookup V19 t), option_map approved_upgrades (lookup V30 t),
               option_map approved_upgrades (lookup V20 t))
  | None => (None, None, None)
  end = (Some [], Some [(V17, 5)], None).
Proof.
  split; [|split; [|split]].
  - assert (C : NoDup (map version_num (map fst built_in))); [|apply NoDup_map_inv in C; exact C].
    change (map version_num (map fst built_in)) with (map N.of_nat (seq 7 25)).
    apply FinFun.Injective_map_NoDup; [intros x y; apply Nat2N.inj|apply seq_NoDup].
  - repeat constructor; cbn; intuition discriminate.
  - intros v d p Ev Hc (q & Eq & Hq) Hne. unfold conf_ok in *. cbn [lookup] in Hc, Eq.
    assert (d = V20) as ->.
    { destruct (version_eqb_reflect d V20) as [Hd|]; [exact Hd|]. destruct (version_eqb_reflect d V30) as [Hd|]; [|discriminate].
      exfalso. injection Eq as <-. discriminate. }
    destruct (version_eqb_reflect v V20) as [Hv|]; [congruence|]. destruct (version_eqb_reflect v V30) as [Hv|]; [|congruence].
    subst v. assert (Ep : Some (approved_upgrades p) = Some []).
    { change (Some (approved_upgrades p)) with (option_map approved_upgrades (Some p)). rewrite <- Ev. vm_compute. reflexivity. }
    injection Ep as Ep. rewrite Ep. reflexivity.
  - vm_compute. reflexivity.
Qed.

Example c64_case :
  part_key_filename (str "my.wallet") 7 123456 = str "my.wallet.7.123456.partkey" /\
  account_name_from_part_key_filename (str "my.wallet.7.123456.partkey") = str "my.wallet" /\
  is_part_key_filename (str "my.wallet.07.123456.partkey") = false /\
  is_part_key_filename (str "my.wallet.8.7.partkey") = false.
Proof. repeat split; vm_compute; reflexivity. Qed.
