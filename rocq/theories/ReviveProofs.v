(** Proofs for ReviveProps. *)
From Verif Require Import Base BaseFacts MsgpackModel Scheme ConsensusModel BasicsModel OtsModel OtsSpec OtsProofs AccountModel AccountSpec AccountProofs ManagerProofs ReviveSpec.
From Verif Require VrfModel.
Local Open Scope N_scope.

Lemma age_snoc sc md proto : forall cs c rng p st, age sc md proto (cs ++ [(c, rng)]) p st =
  match age sc md proto cs p st with Some (p1, st1) => match delete_old_keys sc md st1 p1 c proto rng None with (p', st', Ok _) => Some (p', st') | _ => None end | None => None end.
Proof.
  induction cs as [|[c0 r0] cs IH]; intros c rng p st; cbn [age app]; [reflexivity|].
  destruct (delete_old_keys sc md st p c0 proto r0 None) as [[p1 st1] [[]| |]]; [apply IH|reflexivity..].
Qed.
Section Revive.
Variables (sc : scheme) (is_point : bytes -> bool).
Hypothesis sizes : scheme_sizes sc is_point.
Variables (md : mode) (proto : params).
Variables (st0 : store) (par : bytes) (f l d : N) (master : bytes) (rng0 : N -> bytes) (vk : VrfModel.keypair) (st1 : store) (p0 : participation).
Hypothesis Hl : u64 l.
Hypothesis Hu : u64 d.
Hypothesis Hd2 : d < 2 ^ 32.
Hypothesis Hn : ~ (l = max64 /\ d = 1).
Hypothesis Hb : l / d - f / d + 1 < 2 ^ 32.
Hypothesis Lp : length par = 32%nat.
Hypothesis L1 : length (VrfModel.private vk) = 32%nat.
Hypothesis L2 : length (VrfModel.public_key vk) = 32%nat.
Hypothesis Lm : length master = 32%nat.
Hypothesis Lr : forall i, length (rng0 i) = 32%nat.
Hypothesis E0 : fill_db sc md st0 par f l d master rng0 vk None = (st1, Ok p0).

(** [p] is what the deletions [cs] make of the fresh participation. *)
Definition at_ (cs : list (N * (N -> bytes))) (p : participation) : Prop :=
  Forall (fun c => round_ok (fst c) d) cs /\ part_ok sc is_point p /\ exists st, age sc md proto cs p0 st1 = Some (p, st).
Lemma at_fields cs p : at_ cs p -> parent p = par /\ vrf p = vk /\ part_first p = f /\ part_last p = l /\ part_dilution p = d /\ verifier (voting p) = verifier (voting p0) /\
  forall r, f <= r <= l -> (Forall (fun c => fst c <= r) cs -> signs sc md p r) /\ (Exists (fun c => r < fst c) cs -> cannot_sign sc md p r).
Proof.
  intros [F [_ [st A]]]. destruct (coverage_any sc md st0 par f l d master rng0 vk None st1 p0 proto cs Hl Hu Hn E0 F) as (p' & st' & A' & R).
  assert (p' = p) as -> by congruence. exact R.
Qed.
Lemma d_nz : d <> 0.
Proof. destruct (fill_ok sc md _ _ _ _ _ _ _ _ _ _ _ Hl E0 Hn) as [s [eks [_ [_ [_ [Hd _]]]]]]. exact Hd. Qed.
Lemma at_del cs p c rng : at_ cs p -> round_ok c d -> (forall o, length (rng o) = 32%nat) ->
  exists s, at_ (cs ++ [(c, rng)]) (mkPart par vk s f l d) /\ secrets_ok sc is_point s /\
    forall st fault, delete_old_keys sc md st p c proto rng fault =
      (mkPart par vk s f l d, fst (write_all st [(str "part-voting", encode (secrets_value sc (snapshot s)))] fault),
       if snd (write_all st [(str "part-voting", encode (secrets_value sc (snapshot s)))] fault) then Ok tt else Err StorageError).
Proof.
  intros A Hc Hr. pose proof (at_fields _ _ A) as (P1 & P2 & P3 & P4 & P5 & _). destruct A as [F [OK [st A]]].
  assert (F' : Forall (fun c => round_ok (fst c) d) (cs ++ [(c, rng)])) by (apply Forall_app; split; [exact F|constructor; [exact Hc|constructor]]).
  destruct (coverage_any sc md st0 par f l d master rng0 vk None st1 p0 proto _ Hl Hu Hn E0 F') as (p' & st' & A' & _).
  pose proof A' as D. rewrite age_snoc, A in D.
  assert (G : forall st fault, delete_old_keys sc md st p c proto rng fault = match delete_before sc md (voting p) (mkId (c / d) (c mod d)) d rng with
    | None => (p, st, Panic)
    | Some s => (mkPart par vk s f l d, fst (write_all st [(str "part-voting", encode (secrets_value sc (snapshot s)))] fault),
       if snd (write_all st [(str "part-voting", encode (secrets_value sc (snapshot s)))] fault) then Ok tt else Err StorageError) end).
  { intros s0 fault. unfold delete_old_keys. cbv zeta. rewrite P5. destruct (N.eqb_spec d 0) as [X|_]; [exfalso; exact (d_nz X)|]. rewrite ots_id_ok by exact d_nz.
    destruct (delete_before _ _ _ _ _ _) as [s|]; [|reflexivity]. rewrite P1, P2, P3, P4. destruct (write_all _ _ _) as [w b]. reflexivity. }
  rewrite G in D. destruct (delete_before sc md (voting p) (mkId (c / d) (c mod d)) d rng) as [s|] eqn:DB; [|discriminate].
  cbn [write_all fst snd] in D. assert (p' = mkPart par vk s f l d) as -> by congruence.
  assert (S : secrets_ok sc is_point s).
  { destruct OK as (_ & _ & _ & O4 & _). eapply (delete_ok sc is_point sizes); [exact O4| | |exact Hd2|exact Hr|exact DB]; cbn; unfold u64 in *.
    - eapply N.le_lt_trans; [apply div_le_self; exact d_nz|apply Hc].
    - eapply N.lt_trans; [apply N.mod_lt; exact d_nz|exact Hu]. }
  exists s. split; [|split; [exact S|exact G]]. split; [exact F'|]. split; [|exists st'; exact A'].
  destruct OK as (O1 & O2 & O3 & O4 & O5 & O6 & O7). rewrite P1 in O1. rewrite P2 in O2, O3. rewrite P3 in O5. rewrite P4 in O6. rewrite P5 in O7.
  unfold part_ok. cbn [parent vrf voting part_first part_last part_dilution]. repeat (split; [assumption|]). assumption.
Qed.
Definition inv (all kept : list N) (p : participation) (st : store) : Prop :=
  exists cm cs q, at_ cm p /\ at_ cs q /\ restore sc is_point st = Ok q /\
    incl kept (map fst cm) /\ incl kept (map fst cs) /\ incl (map fst cm) all /\ incl (map fst cs) all.
Lemma incl_snoc {A} (k m : list A) x : incl k m -> incl (k ++ [x]) (m ++ [x]).
Proof. intros L. apply incl_app; [apply incl_appl; exact L|apply incl_appr, incl_refl]. Qed.
Lemma inv_live : forall evs all kept p st, Forall (event_ok d) evs -> inv all kept p st ->
  exists p' st', live sc is_point md proto evs p st = Some (p', st') /\ inv (all ++ deleted evs) (kept ++ stored_deleted evs) p' st'.
Proof.
  induction evs as [|e evs IH]; intros all kept p st F V; [exists p, st; cbn; rewrite !app_nil_r; auto|].
  inversion F as [|? ? Fe Fr]. subst. destruct V as (cm & cs & q & M & Q & R & K1 & K2 & I1 & I2).
  destruct e as [c rng fault|].
  - destruct Fe as (Fc & Fn & Fl). destruct (at_del cm p c rng M (conj Fc Fn) Fl) as (s & M' & So & D). cbn [live]. rewrite D.
    set (ws := [(str "part-voting", encode (secrets_value sc (snapshot s)))]) in *.
    assert (W : restore sc is_point (apply_writes st ws) = Ok (mkPart par vk s f l d)).
    { pose proof (voting_crash sc is_point st q s 1 So R) as X. destruct (at_fields _ _ Q) as (P1 & P2 & P3 & P4 & P5 & _).
      rewrite P1, P2, P3, P4, P5 in X. exact X. }
    assert (N : inv (all ++ [c]) (kept ++ if succeeded fault then [c] else []) (mkPart par vk s f l d) (fst (write_all st ws fault))).
    { assert (S1 : incl (map fst (cm ++ [(c, rng)])) (all ++ [c])) by (rewrite map_app; apply incl_snoc; exact I1).
      assert (S2 : incl (kept ++ [c]) (map fst (cm ++ [(c, rng)]))) by (rewrite map_app; apply incl_snoc; exact K1).
      assert (S3 : incl (kept ++ []) (map fst (cm ++ [(c, rng)]))) by (rewrite app_nil_r, map_app; apply incl_appl; exact K1).
      assert (S4 : incl (map fst cs) (all ++ [c])) by (apply incl_appl; exact I2).
      destruct fault as [[|[|i]]|]; cbn [write_all succeeded length Nat.leb firstn fst].
      - exists (cm ++ [(c, rng)]), cs, q. repeat (split; [first [assumption|exact R]|]). split; [rewrite app_nil_r; exact K2|]. split; assumption.
      - exists (cm ++ [(c, rng)]), (cm ++ [(c, rng)]), (mkPart par vk s f l d). repeat (split; [first [assumption|exact W]|]). assumption.
      - exists (cm ++ [(c, rng)]), (cm ++ [(c, rng)]), (mkPart par vk s f l d). repeat (split; [first [assumption|exact W]|]). assumption.
      - exists (cm ++ [(c, rng)]), (cm ++ [(c, rng)]), (mkPart par vk s f l d). repeat (split; [first [assumption|exact W]|]). assumption. }
    destruct (IH _ _ _ _ Fr N) as (p' & st' & L & V). exists p', st'.
    split; [destruct (snd (write_all st ws fault)); exact L|].
    cbn [deleted stored_deleted flat_map]. rewrite !app_assoc. exact V.
  - cbn [live deleted stored_deleted flat_map app]. rewrite R. apply IH; [exact Fr|].
    exists cs, cs, q. repeat (split; [assumption|]). assumption.
Qed.
Lemma inv_start : inv [] [] p0 st1.
Proof.
  destruct (filled_ok sc is_point sizes md st0 par f l d master rng0 vk st1 p0 Hl Hu Hn Hb Lp L1 L2 Lm Lr E0) as [OK R].
  assert (A : at_ [] p0) by (split; [constructor|split; [exact OK|exists st1; reflexivity]]).
  exists [], [], p0. repeat (split; [first [assumption|apply incl_refl]|]). apply incl_refl.
Qed.
Lemma revive_lemma evs : Forall (event_ok d) evs -> exists p st, live sc is_point md proto evs p0 st1 = Some (p, st) /\
  parent p = par /\ vrf p = vk /\ part_first p = f /\ part_last p = l /\ part_dilution p = d /\ verifier (voting p) = verifier (voting p0) /\
  forall r, f <= r <= l -> (Exists (fun c => r < c) (stored_deleted evs) -> cannot_sign sc md p r) /\
    (Forall (fun c => c <= r) (deleted evs) -> signs sc md p r).
Proof.
  intros F. destruct (inv_live evs [] [] p0 st1 F inv_start) as (p & st & L & (cm & cs & q & M & _ & _ & K & _ & I1 & _)). cbn [app] in *.
  exists p, st. split; [exact L|]. destruct (at_fields _ _ M) as (P1 & P2 & P3 & P4 & P5 & P6 & C). repeat (split; [assumption|]).
  intros r Hr. destruct (C r Hr) as [C1 C2]. split; intros X.
  - apply C2. apply Exists_exists in X. destruct X as (c & Hc & Lc). apply K in Hc. apply in_map_iff in Hc. destruct Hc as (y & <- & Hy). apply Exists_exists. exists y. auto.
  - apply C1. apply Forall_forall. intros y Hy. rewrite Forall_forall in X. apply X, I1, in_map, Hy.
Qed.
Lemma revive_failed c rng : round_ok c d -> (forall o, length (rng o) = 32%nat) ->
  live sc is_point md proto [Deleted c rng (Some 0%nat); Restarted] p0 st1 = Some (p0, st1) /\ forall r, f <= r <= l -> signs sc md p0 r.
Proof.
  intros Hc Hr. destruct (filled_ok sc is_point sizes md st0 par f l d master rng0 vk st1 p0 Hl Hu Hn Hb Lp L1 L2 Lm Lr E0) as [OK R].
  assert (A : at_ [] p0) by (split; [constructor|split; [exact OK|exists st1; reflexivity]]).
  destruct (at_del [] p0 c rng A Hc Hr) as (s & _ & _ & D). split.
  - cbn [live]. rewrite D. cbn [write_all Nat.leb length firstn fst snd]. unfold apply_writes. cbn [fold_left]. rewrite R. reflexivity.
  - intros r Hf. destruct (at_fields _ _ A) as (_ & _ & _ & _ & _ & _ & C). apply (C r Hf). constructor.
Qed.
End Revive.
