(** Failures of the key store are reported. *)
From Verif Require Import Base BaseFacts MsgpackModel Scheme ConsensusModel BasicsModel OtsModel AccountModel AccountSpec AccountProofs FaultSpec.
Local Open Scope N_scope.

Lemma write_all_ok st ws fault : snd (write_all st ws fault) = true <-> ~ one_fails fault (S (length ws)).
Proof.
  unfold write_all, one_fails. destruct fault as [i|]; [|split; [intros _ (i & E & _); discriminate|reflexivity]].
  destruct (i <=? length ws)%nat eqn:E; cbn [snd].
  - split; [discriminate|]. intros N. exfalso. apply N. exists i. split; [reflexivity|]. apply Nat.leb_le in E. lia.
  - split; [|reflexivity]. intros _ (j & [= <-] & L). apply Nat.leb_gt in E. lia.
Qed.
Lemma write_all_done st ws fault : snd (write_all st ws fault) = true -> fst (write_all st ws fault) = fst (write_all st ws None).
Proof. unfold write_all. destruct fault as [i|]; [|reflexivity]. destruct (i <=? length ws)%nat; [discriminate|reflexivity]. Qed.

Lemma persist_reports sc st p fault :
  (~ one_fails fault 7 -> persist sc st p fault = (fst (persist sc st p None), Ok tt)) /\
  (one_fails fault 7 -> snd (persist sc st p fault) = Err StorageError).
Proof.
  pose proof (write_all_ok st (writes sc p) fault) as W. pose proof (write_all_done st (writes sc p) fault) as D. change (S (length (writes sc p))) with 7%nat in W.
  unfold persist. destruct (write_all st (writes sc p) fault) as [st' [|]] eqn:E; cbn [snd fst] in *.
  - split; [|intros F; exfalso; apply (proj1 W eq_refl F)]. intros _. rewrite (D eq_refl). reflexivity.
  - split; [|reflexivity]. intros N. apply W in N. discriminate.
Qed.
Lemma persist_reports_back sc is_point st p fault st' : part_ok sc is_point p -> persist sc st p fault = (st', Ok tt) -> restore sc is_point st' = Ok p.
Proof.
  intros K E. assert (N : ~ one_fails fault 7). { intros F. apply (proj2 (persist_reports sc st p fault)) in F. rewrite E in F. discriminate. }
  apply (proj1 (persist_reports sc st p fault)) in N. rewrite E in N. assert (st' = fst (persist sc st p None)) as -> by congruence.
  exact (proj1 (persist_lemma sc is_point st p K)).
Qed.
Lemma parent_reports st p fault :
  (~ one_fails fault 2 -> persist_new_parent st p fault = (fst (persist_new_parent st p None), Ok tt)) /\
  (one_fails fault 2 -> snd (persist_new_parent st p fault) = Err StorageError).
Proof.
  pose proof (write_all_ok st [(str "part-parent", parent p)] fault) as W. pose proof (write_all_done st [(str "part-parent", parent p)] fault) as D. cbn [length] in W.
  unfold persist_new_parent. destruct (write_all st [(str "part-parent", parent p)] fault) as [st' [|]] eqn:E; cbn [snd fst] in *.
  - split; [|intros F; exfalso; apply (proj1 W eq_refl F)]. intros _. rewrite (D eq_refl). reflexivity.
  - split; [|reflexivity]. intros N. apply W in N. discriminate.
Qed.
Lemma delete_reports sc md st p current proto rng fault p0 st0 r0 : delete_old_keys sc md st p current proto rng None = (p0, st0, r0) -> r0 <> Panic ->
  (~ one_fails fault 2 -> delete_old_keys sc md st p current proto rng fault = (p0, st0, Ok tt)) /\
  (one_fails fault 2 -> exists st', delete_old_keys sc md st p current proto rng fault = (p0, st', Err StorageError)).
Proof.
  unfold delete_old_keys. destruct (ots_id current _) as [[b o]|]; [|intros [= <- <- <-] N; contradiction].
  destruct (delete_before _ _ _ _ _ _) as [s|]; [|intros [= <- <- <-] N; contradiction].
  set (ws := [(str "part-voting", encode (secrets_value sc (snapshot s)))]).
  pose proof (write_all_ok st ws fault) as W. pose proof (write_all_done st ws fault) as D. cbn [length ws] in W. fold ws in W.
  destruct (write_all st ws None) as [stN okN] eqn:EN. assert (okN = true) as -> by (unfold write_all in EN; congruence).
  intros E _. assert (Ep : mkPart (parent p) (vrf p) s (part_first p) (part_last p) (part_dilution p) = p0) by congruence. assert (Es : stN = st0) by congruence. rewrite Ep. subst stN.
  destruct (write_all st ws fault) as [st' [|]] eqn:Ef; cbn [snd fst] in *.
  - split; [|intros F; exfalso; apply (proj1 W eq_refl F)]. intros _. rewrite (D eq_refl). reflexivity.
  - split; [|intros _; exists st'; reflexivity]. intros N. apply W in N. discriminate.
Qed.
Lemma generate_panics sc md st par first last dilution master rng vrf_key fault p0 st0 :
  fill_db sc md st par first last dilution master rng vrf_key None = (st0, Ok p0) ->
  (~ one_fails fault 7 -> fill_db sc md st par first last dilution master rng vrf_key fault = (st0, Ok p0)) /\
  (one_fails fault 7 -> snd (fill_db sc md st par first last dilution master rng vrf_key fault) = Panic).
Proof.
  unfold fill_db. destruct (last <? first); [discriminate|]. destruct (ots_id first dilution) as [[b1 o1]|]; [|discriminate].
  destruct (ots_id last dilution) as [[b2 o2]|]; [|discriminate]. destruct (sub64 md b2 b1) as [d|]; [|discriminate].
  destruct (add64 md d 1) as [num|]; [|discriminate]. destruct (generate sc md master b1 (map rng (range 0 num))) as [s|]; [|discriminate].
  set (p := mkPart par vrf_key s first last dilution). intros E. destruct (persist_reports sc st p fault) as [A B]. split; intros F.
  - rewrite (A F). destruct (persist sc st p None) as [st' [[]| |]]; cbn [fst]; congruence.
  - specialize (B F). destruct (persist sc st p fault) as [st' r]. cbn [snd] in B. subst r. reflexivity.
Qed.
