From Coq Require Import Permutation.
From Verif Require Import Base ConfigModel ConfigSpec.
Local Open Scope N_scope.

(** ** Versions and maps *)
Lemma version_num_inj a b : version_num a = version_num b -> a = b.
Proof. destruct a, b; intros E; try discriminate E; reflexivity. Qed.
Lemma version_eqb_reflect a b : reflect (a = b) (version_eqb a b).
Proof.
  unfold version_eqb. destruct (N.eqb_spec (version_num a) (version_num b)) as [E|E]; constructor.
  - apply version_num_inj. exact E.
  - congruence.
Qed.
Lemma version_eqb_refl a : version_eqb a a = true.
Proof. destruct (version_eqb_reflect a a); congruence. Qed.

Section Maps.
Context {A : Type}.
Implicit Types m : list (version * A).

Lemma lookup_insert k a m v : lookup v (insert k a m) = if version_eqb v k then Some a else lookup v m.
Proof.
  induction m as [|[k' a'] m IH]; cbn [insert lookup]; [reflexivity|].
  destruct (version_eqb_reflect k k') as [<-|Hk]; cbn [lookup].
  - destruct (version_eqb v k); reflexivity.
  - rewrite IH. destruct (version_eqb_reflect v k') as [->|]; [|reflexivity].
    destruct (version_eqb_reflect k' k); [congruence|reflexivity].
Qed.
Lemma lookup_remove k m v : lookup v (remove k m) = if version_eqb v k then None else lookup v m.
Proof.
  induction m as [|[k' a'] m IH]; cbn [remove filter lookup fst]; [destruct (version_eqb v k); reflexivity|].
  unfold remove in IH. destruct (version_eqb_reflect k k') as [<-|Hk]; cbn [negb lookup].
  - rewrite IH. destruct (version_eqb v k); reflexivity.
  - rewrite IH. destruct (version_eqb_reflect v k') as [->|]; [|reflexivity].
    destruct (version_eqb_reflect k' k); [congruence|reflexivity].
Qed.
Lemma lookup_app v m m' : lookup v (m ++ m') = match lookup v m with Some a => Some a | None => lookup v m' end.
Proof. induction m as [|[k a] m IH]; cbn [app lookup]; [reflexivity|]. destruct (version_eqb v k); auto. Qed.
Lemma lookup_In v m a : lookup v m = Some a -> In (v, a) m.
Proof.
  induction m as [|[k b] m IH]; cbn [lookup]; [discriminate|]. destruct (version_eqb_reflect v k) as [->|].
  - intros [= ->]. left. reflexivity.
  - right. auto.
Qed.
Lemma lookup_None v m : ~ In v (map fst m) -> lookup v m = None.
Proof.
  intros Hn. destruct (lookup v m) as [a|] eqn:E; [|reflexivity]. exfalso. apply Hn.
  apply lookup_In in E. apply (in_map fst) in E. exact E.
Qed.
Lemma In_lookup v m a : NoDup (map fst m) -> In (v, a) m -> lookup v m = Some a.
Proof.
  induction m as [|[k b] m IH]; intros Hn Hi; [contradiction|]. cbn [map] in Hn. inversion Hn as [|x l Hx Hl]; subst.
  cbn [lookup]. destruct Hi as [E|Hi].
  - injection E as -> ->. rewrite version_eqb_refl. reflexivity.
  - destruct (version_eqb_reflect v k) as [->|]; [|auto]. exfalso. apply Hx. apply (in_map fst) in Hi. exact Hi.
Qed.
End Maps.

(** ** The built-in table *)

(** Checks over the finite table, decided by computation. *)
Definition check_closed : bool :=
  forallb (fun e => forallb (fun u => contains (fst u) built_in && (version_num (fst e) <? version_num (fst u)))
                            (approved_upgrades (snd e))) built_in.
Lemma check_closed_true : check_closed = true.
Proof. vm_compute. reflexivity. Qed.

Lemma upgrade_facts v w : upgrade built_in v w -> version_num v < version_num w /\ exists q, lookup w built_in = Some q.
Proof.
  intros (p & d & Ev & Ew). pose proof check_closed_true as C. unfold check_closed in C. rewrite forallb_forall in C.
  specialize (C _ (lookup_In _ _ _ Ev)). rewrite forallb_forall in C. specialize (C _ (lookup_In _ _ _ Ew)).
  cbn [fst snd] in C. apply andb_true_iff in C as [C1 C2]. split; [lia|].
  unfold contains in C1. destruct (lookup w built_in) as [q|]; [exists q; reflexivity|discriminate].
Qed.

Lemma closed_lemma v p w delay : lookup v built_in = Some p -> lookup w (approved_upgrades p) = Some delay ->
  exists q, lookup w built_in = Some q.
Proof. intros Ev Ew. apply (upgrade_facts v w). exists p, delay. auto. Qed.

Lemma acyclic_lemma v : ~ clos_trans _ (upgrade built_in) v v.
Proof.
  assert (G : forall a b, clos_trans _ (upgrade built_in) a b -> version_num a < version_num b).
  { induction 1 as [a b Hs|a b c _ IH1 _ IH2]; [apply upgrade_facts in Hs as [Hs _]; exact Hs|lia]. }
  intros Hv. apply G in Hv. lia.
Qed.

(** One upgrade of a version, if it has any. *)
Definition next (v : version) : option version :=
  match lookup v built_in with
  | Some p => match approved_upgrades p with (w, _) :: _ => Some w | [] => None end
  | None => None
  end.
Lemma next_upgrade v w : next v = Some w -> upgrade built_in v w.
Proof.
  unfold next. destruct (lookup v built_in) as [p|] eqn:E; [|discriminate].
  destruct (approved_upgrades p) as [|[u d] r] eqn:Ea; [discriminate|]. intros [= ->]. exists p, d. split; [exact E|].
  rewrite Ea. cbn [lookup]. rewrite version_eqb_refl. reflexivity.
Qed.
Fixpoint reaches (n : nat) (v : version) : bool :=
  version_eqb v CURRENT_CONSENSUS_VERSION ||
  match n with O => false | S n' => match next v with Some w => reaches n' w | None => false end end.
Lemma reaches_sound n : forall v, reaches n v = true -> upgrades built_in v CURRENT_CONSENSUS_VERSION.
Proof.
  assert (Here : forall v, version_eqb v CURRENT_CONSENSUS_VERSION = true -> upgrades built_in v CURRENT_CONSENSUS_VERSION).
  { intros v E. destruct (version_eqb_reflect v CURRENT_CONSENSUS_VERSION) as [Hv|]; [rewrite Hv; apply rt_refl|discriminate]. }
  induction n as [|n IH]; intros v E; cbn [reaches] in E; apply orb_true_iff in E as [E|E]; auto; [discriminate|].
  destruct (next v) as [w|] eqn:En; [|discriminate]. eapply rt_trans; [apply rt_step, next_upgrade; exact En|apply IH; exact E].
Qed.
Lemma all_reach : forallb (fun e => version_eqb (fst e) Future || reaches 25 (fst e)) built_in = true.
Proof. vm_compute. reflexivity. Qed.
Lemma no_future : forallb (fun e => forallb (fun u => negb (version_eqb (fst u) Future)) (approved_upgrades (snd e))) built_in = true.
Proof. vm_compute. reflexivity. Qed.

Lemma leads_lemma v p : lookup v built_in = Some p -> v <> Future -> upgrades built_in v CURRENT_CONSENSUS_VERSION.
Proof.
  intros Ev Hf. pose proof all_reach as C. rewrite forallb_forall in C. specialize (C _ (lookup_In _ _ _ Ev)). cbn [fst] in C.
  apply orb_true_iff in C as [C|C]; [destruct (version_eqb_reflect v Future); congruence|].
  exact (reaches_sound 25 v C).
Qed.
Lemma stays_released v w : upgrades built_in v w -> v <> Future -> w <> Future.
Proof.
  induction 1 as [a b Hs|a|a b c _ IH1 _ IH2]; intros Hf; auto.
  destruct Hs as (p & d & Ev & Ew). pose proof no_future as C. rewrite forallb_forall in C.
  specialize (C _ (lookup_In _ _ _ Ev)). rewrite forallb_forall in C. specialize (C _ (lookup_In _ _ _ Ew)). cbn [fst] in C.
  intros ->. rewrite version_eqb_refl in C. discriminate.
Qed.
Lemma ends_lemma v w p : lookup v built_in = Some p -> v <> Future -> upgrades built_in v w ->
  (forall u, ~ upgrade built_in w u) -> w = CURRENT_CONSENSUS_VERSION.
Proof.
  intros Ev Hf Hu Hend. pose proof (stays_released v w Hu Hf) as Hw.
  assert (exists q, lookup w built_in = Some q) as [q Eq].
  { apply clos_rt_rtn1 in Hu. destruct Hu as [|b c Hs _]; [exists p; exact Ev|]. apply upgrade_facts in Hs as [_ Hs]. exact Hs. }
  pose proof (leads_lemma w q Eq Hw) as Hl. apply clos_rt_rt1n in Hl. inversion Hl as [|x y Hs _ Hx]; [reflexivity|].
  exfalso. exact (Hend _ Hs).
Qed.

Definition sane_b (p : params) : bool :=
  (0 <? reward_unit p) && (0 <? rewards_rate_refresh_interval p) && (0 <? default_key_dilution p) &&
  (0 <? upgrade_vote_rounds p) && (0 <? upgrade_threshold p) && (upgrade_threshold p <=? upgrade_vote_rounds p) &&
  (0 <? max_tx_group_size p) && (0 <? max_timestamp_increment p) &&
  (0 <? soft_committee_threshold p) && (soft_committee_threshold p <=? soft_committee_size p) &&
  (0 <? cert_committee_threshold p) && (cert_committee_threshold p <=? cert_committee_size p) &&
  (0 <? next_committee_threshold p) && (next_committee_threshold p <=? next_committee_size p) &&
  (0 <? late_committee_threshold p) && (late_committee_threshold p <=? late_committee_size p) &&
  (0 <? redo_committee_threshold p) && (redo_committee_threshold p <=? redo_committee_size p) &&
  (0 <? down_committee_threshold p) && (down_committee_threshold p <=? down_committee_size p) &&
  (negb (apply_data p || support_signed_tx_in_block p) ||
     match payset_commit p with Unsupported => false | _ => true end) &&
  (negb (require_genesis_hash p) || support_genesis_hash p).
Lemma sane_b_sound p : sane_b p = true -> sane p.
Proof.
  unfold sane_b. rewrite !andb_true_iff, !N.ltb_lt, !N.leb_le.
  intros H. repeat match goal with H : _ /\ _ |- _ => destruct H end.
  constructor; try (split; assumption); try assumption.
  - intros Hc. destruct (payset_commit p); try discriminate. exfalso.
    destruct Hc as [Hc|Hc]; rewrite Hc in *; rewrite ?orb_true_r in *; discriminate.
  - intros Hc. rewrite Hc in *. assumption.
Qed.
Definition delays_b (p : params) : bool :=
  (min_upgrade_wait_rounds p <=? max_upgrade_wait_rounds p) &&
  forallb (fun e => if (min_upgrade_wait_rounds p =? 0) && (max_upgrade_wait_rounds p =? 0) then snd e =? 0
    else negb (snd e =? 0) && (min_upgrade_wait_rounds p <=? snd e) && (snd e <=? max_upgrade_wait_rounds p))
    (approved_upgrades p).
Lemma delays_b_sound p : delays_b p = true -> delays_fit p.
Proof.
  unfold delays_b, delays_fit. rewrite andb_true_iff, N.leb_le, forallb_forall. intros [H1 H2]. split; [exact H1|].
  intros w d Hi. specialize (H2 _ Hi). cbn [snd] in H2. destruct (_ && _); [lia|].
  rewrite !andb_true_iff, negb_true_iff, N.eqb_neq, !N.leb_le in H2. tauto.
Qed.
Definition fits_b (p : params) : bool :=
  forallb (fun n => n <? 2 ^ 64) (fields64 p) && forallb (fun n => n <? 2 ^ 32) (fields32 p).
Lemma fits_b_sound p : fits_b p = true -> fits p.
Proof.
  unfold fits_b, fits. rewrite andb_true_iff, !forallb_forall. intros [H1 H2].
  split; intros n Hn; [specialize (H1 n Hn)|specialize (H2 n Hn)]; lia.
Qed.
Lemma all_sane : forallb (fun e => sane_b (snd e) && delays_b (snd e) && fits_b (snd e)) built_in = true.
Proof. vm_compute. reflexivity. Qed.
Lemma sane_lemma v p : lookup v built_in = Some p -> sane p /\ delays_fit p /\ fits p.
Proof.
  intros E. pose proof all_sane as C. rewrite forallb_forall in C. specialize (C _ (lookup_In _ _ _ E)). cbn [snd] in C.
  rewrite !andb_true_iff in C. destruct C as [[C1 C2] C3].
  split; [apply sane_b_sound; exact C1|split; [apply delays_b_sound; exact C2|apply fits_b_sound; exact C3]].
Qed.
Lemma built_in_lemma : init_consensus_protocols = built_in.
Proof. vm_compute. reflexivity. Qed.

(** ** Merging *)
Definition strip (d : version) (p : params) : params := set_approved_upgrades (remove d (approved_upgrades p)) p.

Lemma set_set a b p : set_approved_upgrades a (set_approved_upgrades b p) = set_approved_upgrades a p.
Proof. destruct p; reflexivity. Qed.
Lemma get_set a p : approved_upgrades (set_approved_upgrades a p) = a.
Proof. destruct p; reflexivity. Qed.
Lemma set_get p : set_approved_upgrades (approved_upgrades p) p = p.
Proof. destruct p; reflexivity. Qed.

Lemma delete_loop_spec d : forall entries static, NoDup (map fst entries) ->
  (forall v p, lookup v entries = Some p -> v <> d -> contains d (approved_upgrades p) = true -> lookup v static <> None) ->
  exists t, delete_loop d entries static = Some t /\
  forall v, lookup v t =
    match lookup v entries with
    | None => lookup v static
    | Some par => if version_eqb v d then None
                  else if contains d (approved_upgrades par) then option_map (strip d) (lookup v static)
                  else lookup v static
    end.
Proof.
  induction entries as [|[ver par] entries IH]; intros static Hn Hs.
  - exists static. split; reflexivity.
  - cbn [map fst] in Hn. inversion Hn as [|x l Hx Hl]; subst. cbn [delete_loop].
    assert (Hnot : lookup ver entries = None) by (apply lookup_None; exact Hx).
    assert (Hs' : forall static', (forall v, v <> ver -> lookup v static' = lookup v static) ->
      exists t, delete_loop d entries static' = Some t /\
      forall v, lookup v t = match lookup v entries with
        | None => lookup v static'
        | Some par => if version_eqb v d then None else if contains d (approved_upgrades par) then option_map (strip d) (lookup v static') else lookup v static' end).
    { intros static' Hsame. apply IH; [exact Hl|]. intros v p Ev Hv Hc. rewrite Hsame.
      - apply (Hs v p); [|exact Hv|exact Hc]. cbn [lookup]. destruct (version_eqb_reflect v ver) as [->|]; [congruence|exact Ev].
      - intros ->. congruence. }
    assert (Fin : forall static', (forall v, v <> ver -> lookup v static' = lookup v static) ->
      lookup ver static' = (if version_eqb ver d then None else if contains d (approved_upgrades par) then option_map (strip d) (lookup ver static) else lookup ver static) ->
      exists t, delete_loop d entries static' = Some t /\
      forall v, lookup v t = match lookup v ((ver, par) :: entries) with
        | None => lookup v static
        | Some par => if version_eqb v d then None else if contains d (approved_upgrades par) then option_map (strip d) (lookup v static) else lookup v static end).
    { intros static' Hsame Hver. destruct (Hs' static' Hsame) as (t & Et & Ht). exists t. split; [exact Et|]. intros v. rewrite Ht. cbn [lookup].
      destruct (version_eqb_reflect v ver) as [->|Hne]; [rewrite Hnot; exact Hver|]. rewrite Hsame by exact Hne. reflexivity. }
    destruct (version_eqb_reflect ver d) as [->|Hd].
    + apply Fin.
      * intros v Hv. rewrite lookup_remove. destruct (version_eqb_reflect v d); congruence.
      * rewrite lookup_remove, version_eqb_refl. reflexivity.
    + destruct (contains d (approved_upgrades par)) eqn:Ec.
      * destruct (lookup ver static) as [p|] eqn:Ep.
        -- apply Fin.
           ++ intros v Hv. rewrite lookup_insert. destruct (version_eqb_reflect v ver); congruence.
           ++ rewrite lookup_insert, version_eqb_refl. reflexivity.
        -- exfalso. apply (Hs ver par); [|exact Hd|exact Ec|exact Ep]. cbn [lookup]. rewrite version_eqb_refl. reflexivity.
      * apply Fin; [reflexivity|reflexivity].
Qed.

Lemma remove_absent {A} d (m : list (version * A)) : lookup d m = None -> remove d m = m.
Proof.
  induction m as [|[k a] m IH]; [reflexivity|]. cbn [lookup remove filter fst].
  destruct (version_eqb_reflect d k) as [->|Hk]; [discriminate|]. intros E. unfold remove in IH. rewrite IH by exact E. reflexivity.
Qed.
Lemma strip_absent d p : lookup d (approved_upgrades p) = None -> strip d p = p.
Proof. intros E. unfold strip. rewrite remove_absent by exact E. apply set_get. Qed.

Lemma independent_untangled self conf : independent self conf -> untangled self conf.
Proof.
  intros H v d p c Ev Ec Hd Hne Hp. exfalso. apply Hp. apply (H v d p Ev); [rewrite Ec; discriminate|exact Hd|exact Hne].
Qed.

Lemma merge_loop_spec self conf : NoDup (map fst self) -> NoDup (map fst conf) -> untangled self conf ->
  forall rest pre static, conf = pre ++ rest -> merged self pre static ->
  exists t, merge_loop self rest static = Some t /\ merged self conf t.
Proof.
  intros Hns Hnc Hind. induction rest as [|[d c] rest IH]; intros pre static Hconf Hinv.
  - exists static. rewrite app_nil_r in Hconf. subst pre. split; [reflexivity|exact Hinv].
  - assert (Hd : lookup d pre = None).
    { apply lookup_None. subst conf. rewrite map_app in Hnc. cbn [map fst] in Hnc. apply NoDup_remove_2 in Hnc.
      intros Hi. apply Hnc. apply in_or_app. left. exact Hi. }
    assert (Hdc : lookup d conf = Some c).
    { subst conf. rewrite lookup_app, Hd. cbn [lookup]. rewrite version_eqb_refl. reflexivity. }
    assert (Hpre : forall v a, lookup v pre = Some a -> lookup v conf = Some a).
    { intros v a E. subst conf. rewrite lookup_app, E. reflexivity. }
    assert (Hconf' : conf = (pre ++ [(d, c)]) ++ rest) by (rewrite <- app_assoc; exact Hconf).
    cbn [merge_loop]. destruct (approved_upgrades c) as [|u us] eqn:Eu; cbn [is_empty].
    + assert (Hgone : deleted conf d) by (exists c; auto).
      assert (Hun : forall v p a, lookup v self = Some p -> lookup v pre = Some a -> v <> d ->
        contains d (approved_upgrades p) = true -> approved_upgrades a <> [] /\ lookup d (approved_upgrades a) = None).
      { intros v p a Ev Ea Hne Hc. apply (Hind v d p a Ev (Hpre v a Ea) Hgone Hne).
        unfold contains in Hc. destruct (lookup d (approved_upgrades p)); [discriminate|discriminate Hc]. }
      destruct (delete_loop_spec d self static Hns) as (t & Et & Ht).
      { intros v p Ev Hv Hc Habs. specialize (Hinv v). destruct (lookup v pre) as [a|] eqn:Ea.
        - destruct (Hun v p a Ev Ea Hv Hc) as [Hu _]. destruct (approved_upgrades a); [congruence|congruence].
        - rewrite Ev in Hinv. destruct Hinv as (q & Eq & _). congruence. }
      rewrite Et. apply (IH (pre ++ [(d, c)])); [exact Hconf'|]. intros v. rewrite lookup_app. pose proof (Hinv v) as Hv.
      cbn [lookup]. destruct (version_eqb_reflect v d) as [->|Hne].
      * rewrite Hd in *. rewrite Eu, Ht, version_eqb_refl. destruct (lookup d self); [reflexivity|exact Hv].
      * destruct (version_eqb_reflect v d); [congruence|].
        destruct (lookup v pre) as [a|] eqn:Ea.
        -- assert (Es : lookup v t = lookup v static).
           { rewrite Ht. destruct (lookup v self) as [p|] eqn:Ep; [|reflexivity]. destruct (version_eqb_reflect v d); [congruence|].
             destruct (contains d (approved_upgrades p)) eqn:Ec; [|reflexivity].
             destruct (Hun v p a Ep Ea Hne Ec) as [Hu Hl]. destruct (approved_upgrades a) eqn:Eaa; [congruence|].
             rewrite Hv. cbn [option_map]. rewrite strip_absent; [reflexivity|]. rewrite Eaa. exact Hl. }
           rewrite Es. exact Hv.
        -- rewrite Ht. destruct (lookup v self) as [p|] eqn:Ep; [|exact Hv]. destruct (version_eqb_reflect v d); [congruence|].
           destruct Hv as (q & Eq & Hq & Hw). rewrite Eq.
           destruct (contains d (approved_upgrades p)) eqn:Ec; cbn [option_map].
           ++ exists (strip d q). split; [reflexivity|]. unfold strip. rewrite set_set. split; [exact Hq|].
              intros w. rewrite get_set, lookup_remove, lookup_app. destruct (version_eqb_reflect w d) as [->|Hwd].
              ** rewrite Hd. cbn [lookup]. rewrite version_eqb_refl, Eu. reflexivity.
              ** rewrite Hw. cbn [lookup]. destruct (version_eqb_reflect w d); [congruence|]. destruct (lookup w pre); reflexivity.
           ++ exists q. split; [reflexivity|]. split; [exact Hq|]. intros w. rewrite Hw, lookup_app. cbn [lookup].
              destruct (lookup w pre) as [cw|] eqn:Ew; [reflexivity|]. destruct (version_eqb_reflect w d) as [->|]; [|reflexivity].
              rewrite Eu. unfold contains in Ec. destruct (lookup d (approved_upgrades p)); [discriminate|reflexivity].
    + apply (IH (pre ++ [(d, c)])); [exact Hconf'|]. intros v. rewrite lookup_app. pose proof (Hinv v) as Hv. rewrite lookup_insert. cbn [lookup].
      destruct (version_eqb_reflect v d) as [->|Hne].
      * rewrite Hd. rewrite Eu. reflexivity.
      * destruct (lookup v pre) as [a|]; [exact Hv|]. destruct (lookup v self) as [p|]; [|exact Hv].
        destruct Hv as (q & Eq & Hq & Hw). exists q. split; [exact Eq|]. split; [exact Hq|]. intros w. rewrite Hw, lookup_app. cbn [lookup].
        destruct (lookup w pre) as [cw|] eqn:Ew; [reflexivity|]. destruct (version_eqb_reflect w d) as [->|]; [rewrite Eu; reflexivity|reflexivity].
Qed.

Lemma merge_untangled self conf : NoDup (map fst self) -> NoDup (map fst conf) -> untangled self conf ->
  exists t, merge self conf = Some t /\ merged self conf t.
Proof.
  intros Hns Hnc Hind. apply (merge_loop_spec self conf Hns Hnc Hind conf []); [reflexivity|].
  intros v. cbn [lookup]. destruct (lookup v self) as [p|]; [|reflexivity].
  exists p. split; [reflexivity|]. split; [apply set_get|]. reflexivity.
Qed.
Lemma merge_lemma self conf : NoDup (map fst self) -> NoDup (map fst conf) -> independent self conf ->
  exists t, merge self conf = Some t /\ merged self conf t.
Proof. intros Hns Hnc Hind. apply merge_untangled; auto using independent_untangled. Qed.

(** *** The converse, and when merging fails *)

Lemma delete_loop_needs d : forall entries static t, delete_loop d entries static = Some t ->
  forall v p, In (v, p) entries -> v <> d -> contains d (approved_upgrades p) = true -> lookup v static <> None.
Proof.
  induction entries as [|[ver par] entries IH]; intros static t E v p Hin Hne Hc; [contradiction|].
  cbn [delete_loop] in E. destruct (version_eqb_reflect ver d) as [->|Hd].
  - destruct Hin as [Hin|Hin]; [congruence|]. specialize (IH _ _ E v p Hin Hne Hc). rewrite lookup_remove in IH.
    destruct (version_eqb v d); [congruence|exact IH].
  - destruct (contains d (approved_upgrades par)) eqn:Ec.
    + destruct (lookup ver static) as [q|] eqn:Eq; [|discriminate E]. destruct Hin as [Hin|Hin]; [congruence|].
      specialize (IH _ _ E v p Hin Hne Hc). rewrite lookup_insert in IH.
      destruct (version_eqb_reflect v ver) as [Hvv|]; [rewrite Hvv, Eq; discriminate|exact IH].
    + destruct Hin as [Hin|Hin]; [congruence|]. exact (IH _ _ E v p Hin Hne Hc).
Qed.

(** Nothing that is not inserted gets an upgrade it did not have. *)
Lemma delete_loop_lacks v x d : forall entries static t, delete_loop d entries static = Some t ->
  (forall q, lookup v static = Some q -> lookup x (approved_upgrades q) = None) ->
  forall q, lookup v t = Some q -> lookup x (approved_upgrades q) = None.
Proof.
  induction entries as [|[ver par] entries IH]; intros static t E H; cbn [delete_loop] in E.
  - injection E as <-. exact H.
  - destruct (version_eqb ver d).
    + refine (IH _ _ E _). intros q Hq. rewrite lookup_remove in Hq. destruct (version_eqb v ver); [discriminate Hq|apply H; exact Hq].
    + destruct (contains d (approved_upgrades par)); [|exact (IH _ _ E H)].
      destruct (lookup ver static) as [p|] eqn:Ep; [|discriminate E]. refine (IH _ _ E _). intros q. rewrite lookup_insert.
      destruct (version_eqb_reflect v ver) as [->|]; [|apply H]. intros [= <-]. rewrite get_set, lookup_remove.
      destruct (version_eqb x d); [reflexivity|]. apply H. exact Ep.
Qed.
Lemma merge_loop_lacks v x self : forall rest static t, merge_loop self rest static = Some t -> ~ In v (map fst rest) ->
  (forall q, lookup v static = Some q -> lookup x (approved_upgrades q) = None) ->
  forall q, lookup v t = Some q -> lookup x (approved_upgrades q) = None.
Proof.
  induction rest as [|[d c] rest IH]; intros static t E Hv H; cbn [merge_loop] in E; [injection E as <-; exact H|].
  cbn [map fst] in Hv. destruct (is_empty (approved_upgrades c)).
  - destruct (delete_loop d self static) as [s|] eqn:Es; [|discriminate E]. refine (IH _ _ E _ _); [intros Hi; apply Hv; right; exact Hi|].
    exact (delete_loop_lacks v x d _ _ _ Es H).
  - refine (IH _ _ E _ _); [intros Hi; apply Hv; right; exact Hi|]. intros q. rewrite lookup_insert.
    destruct (version_eqb_reflect v d) as [->|]; [exfalso; apply Hv; left; reflexivity|apply H].
Qed.

Lemma lookup_permutation {A} v (m m' : list (version * A)) : NoDup (map fst m) -> Permutation m m' -> lookup v m = lookup v m'.
Proof.
  intros Hn Hp. assert (Hn' : NoDup (map fst m')) by (rewrite <- Hp; exact Hn).
  destruct (lookup v m) as [a|] eqn:E.
  - symmetry. apply In_lookup; [exact Hn'|]. rewrite <- Hp. apply lookup_In. exact E.
  - destruct (lookup v m') as [a|] eqn:E'; [|reflexivity]. apply lookup_In in E'. rewrite <- Hp in E'.
    rewrite (In_lookup v m a Hn E') in E. discriminate.
Qed.
Lemma untangled_permutation self conf conf' : NoDup (map fst conf) -> Permutation conf conf' -> untangled self conf -> untangled self conf'.
Proof.
  intros Hn Hp H v d p c Ev Ec (q & Eq & Hq) Hne Hd. apply (H v d p c Ev); [rewrite (lookup_permutation v conf conf'); assumption| |exact Hne|exact Hd].
  exists q. split; [|exact Hq]. rewrite (lookup_permutation d conf conf'); assumption.
Qed.

Lemma front_two {A} v a d b (m : list (version * A)) : lookup v m = Some a -> lookup d m = Some b -> v <> d ->
  exists r, Permutation m ((v, a) :: (d, b) :: r).
Proof.
  intros Ev Ed Hne. apply lookup_In, in_split in Ev as (l1 & l2 & ->).
  assert (Hi : In (d, b) (l1 ++ l2)).
  { apply lookup_In in Ed. apply in_app_or in Ed as [Hi|[Hi|Hi]]; [apply in_or_app; auto|congruence|apply in_or_app; auto]. }
  apply in_split in Hi as (k1 & k2 & Hk). exists (k1 ++ k2).
  etransitivity; [symmetry; apply Permutation_middle|]. apply perm_skip. rewrite Hk. symmetry. apply Permutation_middle.
Qed.

Lemma every_order self conf : NoDup (map fst self) -> NoDup (map fst conf) ->
  (forall conf', Permutation conf conf' -> exists t, merge self conf' = Some t /\ merged self conf' t) <-> untangled self conf.
Proof.
  intros Hns Hnc. split.
  - intros H v d p c Ev Ec (b & Eb & Hb) Hne Hp. destruct (front_two v c d b conf Ec Eb Hne) as (r & Hr).
    destruct (H _ Hr) as (t & Et & Ht). assert (Hn' : NoDup (map fst ((v, c) :: (d, b) :: r))) by (rewrite <- Hr; exact Hnc).
    cbn [map fst] in Hn'. inversion Hn' as [|? ? Hv Hn2]; subst. inversion Hn2 as [|? ? Hd Hn3]; subst.
    unfold merge in Et. cbn [merge_loop] in Et. rewrite Hb in Et. cbn [is_empty] in Et.
    assert (Hc : contains d (approved_upgrades p) = true).
    { unfold contains. destruct (lookup d (approved_upgrades p)); [reflexivity|congruence]. }
    assert (Hvr : ~ In v (map fst r)) by (intros Hi; apply Hv; right; exact Hi).
    specialize (Ht v). cbn [lookup] in Ht. rewrite version_eqb_refl in Ht.
    destruct (approved_upgrades c) as [|u us] eqn:Eu; cbn [is_empty] in Et.
    + exfalso. destruct (delete_loop v self self) as [s|] eqn:Es; [|discriminate Et].
      destruct (delete_loop d self s) as [s'|] eqn:Es'; [|discriminate Et].
      apply (delete_loop_needs _ _ _ _ Es' v p (lookup_In _ _ _ Ev) Hne Hc).
      destruct (delete_loop_spec v self self Hns) as (s2 & Es2 & Hs2).
      { intros w q Ew _ _. congruence. }
      replace s with s2 by congruence. rewrite Hs2, Ev, version_eqb_refl. reflexivity.
    + split; [discriminate|]. destruct (delete_loop d self (insert v c self)) as [s|] eqn:Es; [|discriminate Et].
      rewrite <- Eu. apply (merge_loop_lacks v d self _ _ _ Et Hvr); [|exact Ht].
      destruct (delete_loop_spec d self (insert v c self) Hns) as (s2 & Es2 & Hs2).
      { intros w q Ew _ _. rewrite lookup_insert. destruct (version_eqb w v); congruence. }
      replace s with s2 by congruence. intros q. rewrite Hs2, Ev, lookup_insert, version_eqb_refl, Hc.
      destruct (version_eqb_reflect v d); [congruence|]. cbn [option_map]. intros [= <-]. unfold strip.
      rewrite get_set, lookup_remove, version_eqb_refl. reflexivity.
  - intros Hu conf' Hp. apply merge_untangled; [exact Hns|rewrite <- Hp; exact Hnc|].
    exact (untangled_permutation self conf conf' Hnc Hp Hu).
Qed.

Lemma delete_loop_stops d : forall entries static, NoDup (map fst entries) -> delete_loop d entries static = None ->
  exists v p, lookup v entries = Some p /\ v <> d /\ contains d (approved_upgrades p) = true /\ lookup v static = None.
Proof.
  induction entries as [|[ver par] entries IH]; intros static Hn E; cbn [delete_loop] in E; [discriminate E|].
  cbn [map fst] in Hn. inversion Hn as [|x l Hx Hl]; subst.
  assert (Next : forall static', (forall v, v <> ver -> lookup v static' = lookup v static) -> delete_loop d entries static' = None ->
    exists v p, lookup v ((ver, par) :: entries) = Some p /\ v <> d /\ contains d (approved_upgrades p) = true /\ lookup v static = None).
  { intros static' Hs E'. destruct (IH static' Hl E') as (v & p & Ev & Hv & Hc & El). exists v, p.
    assert (Hne : v <> ver). { intros ->. rewrite (lookup_None _ _ Hx) in Ev. discriminate. }
    cbn [lookup]. destruct (version_eqb_reflect v ver); [congruence|]. rewrite <- Hs by exact Hne. auto. }
  destruct (version_eqb_reflect ver d) as [->|Hd].
  - apply (Next (remove d static)); [|exact E]. intros v Hv. rewrite lookup_remove. destruct (version_eqb_reflect v d); congruence.
  - destruct (contains d (approved_upgrades par)) eqn:Ec.
    + destruct (lookup ver static) as [q|] eqn:Eq.
      * refine (Next _ _ E). intros v Hv. rewrite lookup_insert. destruct (version_eqb_reflect v ver); congruence.
      * exists ver, par. cbn [lookup]. rewrite version_eqb_refl. auto.
    + exact (Next static (fun _ _ => eq_refl) E).
Qed.

Lemma fails_loop self conf : NoDup (map fst self) -> NoDup (map fst conf) ->
  forall rest pre static, conf = pre ++ rest ->
  (forall v p, lookup v self = Some p -> (lookup v static = None <-> deleted pre v)) ->
  merge_loop self rest static = None <->
  exists a b p l1 q l2, rest = l1 ++ (b, q) :: l2 /\ approved_upgrades q = [] /\ deleted (pre ++ l1) a /\
    lookup a self = Some p /\ lookup b (approved_upgrades p) <> None.
Proof.
  intros Hns Hnc. induction rest as [|[d c] rest IH]; intros pre static Hconf Hinv.
  - cbn [merge_loop]. split; [discriminate|]. intros (a & b & p & l1 & q & l2 & E & _). destruct l1; discriminate E.
  - assert (Hd : lookup d pre = None).
    { apply lookup_None. subst conf. rewrite map_app in Hnc. cbn [map fst] in Hnc. apply NoDup_remove_2 in Hnc.
      intros Hi. apply Hnc. apply in_or_app. left. exact Hi. }
    assert (Hconf' : conf = (pre ++ [(d, c)]) ++ rest) by (rewrite <- app_assoc; exact Hconf).
    assert (Hlater : forall (Q : Prop), Q ->
      ((exists a b p l1 q l2, rest = l1 ++ (b, q) :: l2 /\ approved_upgrades q = [] /\ deleted ((pre ++ [(d, c)]) ++ l1) a /\
         lookup a self = Some p /\ lookup b (approved_upgrades p) <> None) \/
       (approved_upgrades c = [] /\ exists a p, deleted pre a /\ lookup a self = Some p /\ lookup d (approved_upgrades p) <> None) <->
      exists a b p l1 q l2, (d, c) :: rest = l1 ++ (b, q) :: l2 /\ approved_upgrades q = [] /\ deleted (pre ++ l1) a /\
         lookup a self = Some p /\ lookup b (approved_upgrades p) <> None)).
    { intros _ _. split.
      - intros [(a & b & p & l1 & q & l2 & E & Hq & Ha & Hp & Hb)|(Hc & a & p & Ha & Hp & Hb)].
        + exists a, b, p, ((d, c) :: l1), q, l2. rewrite E. split; [reflexivity|]. split; [exact Hq|]. split; [|auto].
          rewrite <- app_assoc in Ha. exact Ha.
        + exists a, d, p, [], c, rest. rewrite app_nil_r. auto.
      - intros (a & b & p & l1 & q & l2 & E & Hq & Ha & Hp & Hb). destruct l1 as [|e l1].
        + right. rewrite app_nil_r in Ha. injection E as -> -> _. split; [exact Hq|]. exists a, p. auto.
        + left. injection E as <- E. exists a, b, p, l1, q, l2. split; [exact E|]. split; [exact Hq|].
          rewrite <- app_assoc. auto. }
    rewrite <- (Hlater True Logic.I). clear Hlater.
    assert (Hdel : forall v, deleted (pre ++ [(d, c)]) v <-> deleted pre v \/ (v = d /\ approved_upgrades c = [])).
    { intros v. unfold deleted. setoid_rewrite lookup_app. cbn [lookup]. destruct (version_eqb_reflect v d) as [->|Hne].
      - rewrite Hd. split; [intros (p & [= <-] & Hp); auto|]. intros [(p & E & _)|[_ Hc]]; [discriminate|]. exists c. auto.
      - split; [|intros [(p & E & Hp)|[? _]]; [exists p; rewrite E; auto|congruence]].
        intros (p & E & Hp). left. exists p. destruct (lookup v pre); [auto|discriminate]. }
    cbn [merge_loop]. destruct (approved_upgrades c) as [|u us] eqn:Eu; cbn [is_empty].
    + destruct (delete_loop d self static) as [s|] eqn:Es.
      * rewrite (IH (pre ++ [(d, c)]) s Hconf').
        -- split; [auto|]. intros [H|(_ & a & p & Ha & Hp & Hb)]; [exact H|]. exfalso.
           apply (delete_loop_needs _ _ _ _ Es a p (lookup_In _ _ _ Hp)).
           ++ intros ->. destruct Ha as (x & Ex & _). congruence.
           ++ unfold contains. destruct (lookup d (approved_upgrades p)); [reflexivity|congruence].
           ++ apply (Hinv a p Hp). exact Ha.
        -- intros v p Ev. rewrite Hdel, <- (Hinv v p Ev).
           destruct (delete_loop_spec d self static Hns) as (s2 & Es2 & Hs2).
           { intros w q Ew Hw Hc. exact (delete_loop_needs _ _ _ _ Es w q (lookup_In _ _ _ Ew) Hw Hc). }
           replace s with s2 by congruence. rewrite Hs2, Ev.
           destruct (version_eqb_reflect v d) as [->|Hne]; [tauto|].
           destruct (contains d (approved_upgrades p)); destruct (lookup v static); cbn [option_map]; intuition congruence.
      * split; [intros _|reflexivity]. right. split; [reflexivity|].
        destruct (delete_loop_stops d self static Hns Es) as (v & p & Ev & Hv & Hc & El). exists v, p.
        split; [apply (Hinv v p Ev); exact El|]. split; [exact Ev|]. unfold contains in Hc.
        destruct (lookup d (approved_upgrades p)); discriminate.
    + rewrite (IH (pre ++ [(d, c)]) _ Hconf').
      * split; [auto|]. intros [H|(Hx & _)]; [exact H|discriminate Hx].
      * intros v p Ev. rewrite Hdel, lookup_insert. destruct (version_eqb_reflect v d) as [->|Hne].
        -- split; [discriminate|]. intros [(x & Ex & _)|[_ Hx]]; [congruence|discriminate].
        -- rewrite (Hinv v p Ev). intuition congruence.
Qed.

Lemma NoDup_front {A} (l l' : list A) : NoDup (l ++ l') -> NoDup l.
Proof.
  induction l as [|a l IH]; [constructor|]. cbn [app]. intros Hn. inversion Hn as [|x k Hx Hk]; subst. constructor; [|auto].
  intros Hi. apply Hx. apply in_or_app. left. exact Hi.
Qed.
Lemma fails_lemma self conf : NoDup (map fst self) -> NoDup (map fst conf) ->
  merge self conf = None <->
  exists a b p, comes_before conf a b /\ deleted conf a /\ deleted conf b /\
    lookup a self = Some p /\ lookup b (approved_upgrades p) <> None.
Proof.
  intros Hns Hnc. unfold merge. rewrite (fails_loop self conf Hns Hnc conf [] self eq_refl).
  - split.
    + intros (a & b & p & l1 & q & l2 & E & Hq & (c & Ec & Hc) & Hp & Hb). exists a, b, p. cbn [app] in Ec.
      pose proof (lookup_In _ _ _ Ec) as Hi. apply in_split in Hi as (k1 & k2 & Hk).
      split; [exists k1, c, k2, q, l2; rewrite E, Hk, <- app_assoc; reflexivity|].
      split; [exists c; split; [rewrite E, lookup_app, Ec; reflexivity|exact Hc]|].
      split; [|auto]. exists q. split; [|exact Hq]. apply In_lookup; [exact Hnc|]. rewrite E. apply in_elt.
    + intros (a & b & p & (l1 & c & l2 & q & l3 & E) & (c' & Ec & Hc) & (q' & Eq & Hq) & Hp & Hb).
      assert (c' = c) as ->.
      { assert (H : lookup a conf = Some c); [|congruence]. apply In_lookup; [exact Hnc|]. rewrite E. apply in_elt. }
      assert (q' = q) as ->.
      { assert (H : lookup b conf = Some q); [|congruence]. apply In_lookup; [exact Hnc|]. rewrite E.
        apply in_or_app. right. right. apply in_elt. }
      exists a, b, p, (l1 ++ (a, c) :: l2), q, l3. split; [rewrite E, <- app_assoc; reflexivity|]. split; [exact Hq|].
      split; [|auto]. exists c. split; [|exact Hc]. cbn [app]. apply In_lookup; [|apply in_elt].
      rewrite E in Hnc. change (l1 ++ (a, c) :: l2 ++ (b, q) :: l3) with (l1 ++ ((a, c) :: l2) ++ (b, q) :: l3) in Hnc.
      rewrite app_assoc, map_app in Hnc. exact (NoDup_front _ _ Hnc).
  - intros v p Ev. rewrite Ev. split; [discriminate|]. intros (x & Ex & _). discriminate Ex.
Qed.
