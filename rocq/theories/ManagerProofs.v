From Verif Require Import Base BaseFacts MsgpackModel Scheme ConsensusModel BasicsModel OtsModel OtsSpec OtsProofs AccountModel AccountSpec AccountProofs.
From Verif Require AddressModel TxModel VrfModel UpgradeModel BlockModel.
Local Open Scope N_scope.

(** ** The set of participations *)
Lemma identity_eqb_iff a b : identity_eqb a b = true <-> a = b.
Proof.
  unfold identity_eqb. rewrite !andb_true_iff, !N.eqb_eq. destruct a, b; cbn. split.
  - intros [[[[A B] D] E] F]. destruct (bytes_eqb_reflect id_address id_address0), (bytes_eqb_reflect id_vote id_vote0), (bytes_eqb_reflect id_selection id_selection0); try discriminate. congruence.
  - intros E. injection E as -> -> -> -> ->. rewrite !bytes_eqb_refl. auto.
Qed.
Lemma identity_same p q : identity_of p = identity_of q <-> same_keys p q.
Proof. unfold identity_of, same_keys. split; [intros E; injection E; auto|intros [-> [-> [-> [-> ->]]]]; reflexivity]. Qed.

Section Manager.
Variables (H : bytes -> bytes) (sc : scheme) (table : list (version * params)).
Definition entries_ok (es : list (identity * participation)) : Prop := NoDup (map fst es) /\ forall id p, In (id, p) es -> id = identity_of p.

Lemma delete_verifier md st p c proto rng fault p' st' o : delete_old_keys sc md st p c proto rng fault = (p', st', o) ->
  parent p' = parent p /\ vrf p' = vrf p /\ part_first p' = part_first p /\ part_last p' = part_last p /\ part_dilution p' = part_dilution p /\ verifier (voting p') = verifier (voting p).
Proof.
  unfold delete_old_keys. cbv zeta. destruct (ots_id c _) as [[b off]|]; [|intros E; injection E as <- _ _; auto 8].
  destruct (delete_before sc md (voting p) _ _ rng) as [s|] eqn:D; [|intros E; injection E as <- _ _; auto 8].
  destruct (write_all _ _ _). intros E. injection E as <- _ _. cbn. repeat (split; [reflexivity|]).
  unfold delete_before in D. destruct (add64 md _ 1) as [nx|]; [|discriminate]. destruct (nx =? first_batch (voting p)).
  - destruct (_ <? _); [|congruence]. destruct (add64 md _ _); [|discriminate]. injection D as <-. reflexivity.
  - destruct (nx <? _); [congruence|]. destruct (sub64 md _ _) as [j|]; [|discriminate]. destruct (_ <? j).
    + destruct (batches (voting p)); injection D as <-; reflexivity.
    + destruct (add64 md (first_batch (voting p)) j) as [fb|]; [|discriminate]. destruct (skipn _ _); [injection D as <-; reflexivity|]. destruct (add64 md fb 1); [|discriminate]. injection D as <-. reflexivity.
Qed.
Lemma delete_identity md st p c proto rng fault p' st' o : delete_old_keys sc md st p c proto rng fault = (p', st', o) -> identity_of p' = identity_of p.
Proof. intros E. apply delete_verifier in E. apply identity_same. destruct E as [A [B [D [E [F G]]]]]. unfold same_keys. rewrite B. auto. Qed.
(** What aging does to each entry. *)
Lemma age_all_spec md h sigs cr proto : forall es st rngs faults st' es', age_all sc md st es h sigs cr proto rngs faults = Some (st', es') ->
  Forall2 (fun e e' => fst e = fst e' /\ exists c rng fault st1 st2 o, next_round md h sigs cr (parent (snd e)) = Some c /\
    delete_old_keys sc md st1 (snd e) c proto rng fault = (snd e', st2, o) /\ o <> Panic) es es'.
Proof.
  induction es as [|[id p] es IH]; intros st rngs faults st' es' E; cbn [age_all] in E.
  - injection E as _ <-. constructor.
  - destruct (next_round md h sigs cr (parent p)) as [c|] eqn:N; [|discriminate].
    destruct (delete_old_keys sc md st p c proto (rngs O) (faults O)) as [[p' st1] o] eqn:D. 
    assert (O : o <> Panic) by (destruct o; [discriminate..|discriminate E]).
    assert (E' : match age_all sc md st1 es h sigs cr proto (fun i => rngs (S i)) (fun i => faults (S i)) with None => None | Some (st'', r') => Some (st'', (id, p') :: r') end = Some (st', es')) by (destruct o; [exact E|exact E|congruence]).
    destruct (age_all sc md st1 es h sigs cr proto _ _) as [[st2 r']|] eqn:A; [|discriminate]. injection E' as _ <-. constructor; [|eapply IH; exact A].
    split; [reflexivity|]. exists c, (rngs 0%nat), (faults 0%nat), st, st1, o. auto.
Qed.
Lemma age_all_ids md h sigs cr proto es st rngs faults st' es' : age_all sc md st es h sigs cr proto rngs faults = Some (st', es') -> entries_ok es -> map fst es' = map fst es /\ entries_ok es'.
Proof.
  intros E [ND ID]. apply age_all_spec in E.
  assert (M : map fst es' = map fst es) by (clear ND ID; induction E as [|e e' l l' [R _] _ IH]; cbn [map]; [reflexivity|]; rewrite R, IH; reflexivity).
  split; [exact M|]. split; [rewrite M; exact ND|]. clear M ND. induction E as [|[i p] [i' p'] l l' [R [c [rng [fault [st1 [st2 [o [_ [D _]]]]]]]]] _ IH]; [intros ? ? []|].
  cbn [fst snd] in R, D. subst i'. intros id q [E|E].
  - injection E as <- <-. rewrite (ID i p) by (left; reflexivity). symmetry. eapply delete_identity. exact D.
  - apply IH; [|exact E]. intros id' q' Hq. apply ID. right. exact Hq.
Qed.
Lemma add_shape m p : 
  (exists q, In q (part_keys m) /\ fst q = identity_of p) /\ add_participation H m p = (m, false) \/
  ~ (exists q, In q (part_keys m) /\ fst q = identity_of p) /\ snd (add_participation H m p) = true /\ part_keys (fst (add_participation H m p)) = (identity_of p, p) :: part_keys m.
Proof.
  unfold add_participation. destruct (existsb _ (part_keys m)) eqn:E.
  - left. split; [|reflexivity]. apply existsb_exists in E. destruct E as [q [Hq Eq]]. apply identity_eqb_iff in Eq. eauto.
  - right. split; [|split; reflexivity]. intros [q [Hq Eq]]. assert (existsb (fun e => identity_eqb (fst e) (identity_of p)) (part_keys m) = true) by (apply existsb_exists; exists q; split; [exact Hq|apply identity_eqb_iff; exact Eq]). congruence.
Qed.
Lemma reachable_ok m : reachable H sc table m -> entries_ok (part_keys m).
Proof.
  induction 1 as [|m p R IH|m md st h sigs proto rngs faults st' m' R IH E].
  - split; [constructor|intros ? ? []].
  - destruct (add_shape m p) as [[_ ->]|[N [_ ->]]]; [exact IH|]. destruct IH as [ND ID]. split.
    + cbn [map fst]. constructor; [|exact ND]. intros I. apply in_map_iff in I. destruct I as [q [E I]]. apply N. exists q. auto.
    + intros id q [E|E]; [congruence|apply ID; exact E].
  - unfold delete_all_old_keys in E. destruct (lookup _ table) as [latest|]; [|discriminate]. destruct (age_all sc md st (part_keys m) _ _ _ _ _ _) as [[s es]|] eqn:A; [|discriminate].
    assert (part_keys m' = es) as -> by (injection E as _ <-; reflexivity). apply age_all_ids in A; [apply A|exact IH].
Qed.
Lemma add_lemma m p : reachable H sc table m ->
  let r := add_participation H m p in
  (snd r = true <-> ~ exists q, In q (held_parts m) /\ same_keys q p) /\
  (snd r = true -> held_parts (fst r) = p :: held_parts m) /\ (snd r = false -> fst r = m).
Proof.
  intros R. pose proof (reachable_ok m R) as [_ ID]. cbv zeta.
  assert (X : (exists q, In q (part_keys m) /\ fst q = identity_of p) <-> (exists q, In q (held_parts m) /\ same_keys q p)).
  { unfold held_parts. split.
    - intros [[id q] [I E]]. exists q. split; [apply in_map_iff; exists (id, q); auto|]. apply identity_same. cbn in E. rewrite <- E. symmetry. apply ID. exact I.
    - intros [q [I E]]. apply in_map_iff in I. destruct I as [[id q'] [Eq I]]. cbn in Eq. subst q'. exists (id, q). split; [exact I|]. cbn. rewrite (ID _ _ I). apply identity_same. exact E. }
  destruct (add_shape m p) as [[A ->]|[N [S K]]].
  - cbn [snd fst]. split; [|split; [discriminate|reflexivity]]. split; [discriminate|]. intros N. exfalso. apply N, X, A.
  - rewrite S. split; [|split; [|discriminate]]. { split; [|reflexivity]. intros _ E. apply N, X, E. } intros _. unfold held_parts. rewrite K. reflexivity.
Qed.
Lemma never_lost_add m p q : In q (held_parts m) -> In q (held_parts (fst (add_participation H m p))).
Proof. intros I. destruct (add_shape m p) as [[_ ->]|[_ [_ K]]]; [exact I|]. unfold held_parts in *. rewrite K. right. exact I. Qed.
Lemma distinct_lemma m : reachable H sc table m -> forall i j p q, nth_error (held_parts m) i = Some p -> nth_error (held_parts m) j = Some q -> same_keys p q -> i = j.
Proof.
  intros R i j p q Hi Hj S. destruct (reachable_ok m R) as [ND ID]. unfold held_parts in *. rewrite nth_error_map in Hi, Hj.
  destruct (nth_error (part_keys m) i) as [[a p']|] eqn:Ei; [|discriminate]. destruct (nth_error (part_keys m) j) as [[b q']|] eqn:Ej; [|discriminate].
  cbn in Hi, Hj. assert (p' = p) by congruence. assert (q' = q) by congruence. subst p' q'.
  pose proof (ID _ _ (nth_error_In _ _ Ei)) as A. pose proof (ID _ _ (nth_error_In _ _ Ej)) as B. apply identity_same in S.
  apply (proj1 (NoDup_nth_error (map fst (part_keys m))) ND); [rewrite map_length; apply nth_error_Some; congruence|]. rewrite !nth_error_map, Ei, Ej. cbn. congruence.
Qed.
Lemma aging_keeps md st m h sigs proto rngs faults st' m' : reachable H sc table m -> delete_all_old_keys sc table md st m h sigs proto rngs faults = Some (st', m') ->
  Forall2 same_keys (held_parts m) (held_parts m').
Proof.
  intros _ E. unfold delete_all_old_keys in E. destruct (lookup _ table) as [latest|]; [|discriminate].
  destruct (age_all sc md st (part_keys m) _ _ _ _ _ _) as [[s es]|] eqn:A; [|discriminate].
  assert (K : part_keys m' = es) by (injection E as _ <-; reflexivity). unfold held_parts. rewrite K. apply age_all_spec in A. clear - A.
  induction A as [|e e' l l' [_ [c [rng [fault [st1 [st2 [o [_ [D _]]]]]]]]] _ IH]; cbn [map]; [constructor|]. constructor; [|exact IH]. apply identity_same. symmetry. eapply delete_identity. exact D.
Qed.
Lemma two_in A (R : A -> A -> Prop) l l' x : Forall2 R l l' -> In x l -> exists y, In y l' /\ R x y.
Proof. induction 1 as [|a b l l' S F IH]; [intros []|]. intros [<-|I]; [exists b; cbn; auto|]. destruct (IH I) as [y [J T]]. exists y. cbn. auto. Qed.
Lemma two_in_back A (R : A -> A -> Prop) l l' y : Forall2 R l l' -> In y l' -> exists x, In x l /\ R x y.
Proof. induction 1 as [|a b l l' S F IH]; [intros []|]. intros [<-|I]; [exists a; cbn; auto|]. destruct (IH I) as [x [J T]]. exists x. cbn. auto. Qed.
Lemma add_registers m p : add_participation H m p = (m, false) \/
  part_keys (fst (add_participation H m p)) = (identity_of p, p) :: part_keys m /\
  let t := AddressModel.address_to_string H (parent p) in
  (In t (registered m) /\ registered (fst (add_participation H m p)) = registered m \/
   ~ In t (registered m) /\ registered (fst (add_participation H m p)) = t :: registered m).
Proof.
  unfold add_participation. destruct (existsb _ (part_keys m)); [left; reflexivity|right]. cbn [fst part_keys registered]. split; [reflexivity|]. cbv zeta.
  destruct (existsb (bytes_eqb _) (registered m)) eqn:E; [left|right]; (split; [|reflexivity]).
  - apply existsb_exists in E. destruct E as [u [I U]]. apply bytes_eqb_spec in U. rewrite U. exact I.
  - intros I. assert (X : existsb (bytes_eqb (AddressModel.address_to_string H (parent p))) (registered m) = true) by (apply existsb_exists; eexists; split; [exact I|apply bytes_eqb_refl]). congruence.
Qed.
Lemma registered_lemma m : reachable H sc table m ->
  NoDup (registered m) /\ forall a, In a (registered m) <-> exists q, In q (held_parts m) /\ a = AddressModel.address_to_string H (parent q).
Proof.
  induction 1 as [|m p R IH|m md st h sigs proto rngs faults st' m' R IH E].
  - split; [constructor|]. intros a. split; [intros []|intros [q [[] _]]].
  - destruct (add_registers m p) as [-> |[K C]]; [exact IH|]. destruct IH as [ND IH]. cbv zeta in C.
    unfold held_parts in *. rewrite K. cbn [map snd].
    destruct C as [[I ->]|[I ->]]; (split; [first [exact ND|constructor; [exact I|exact ND]]|]); intros a; cbn [In]; rewrite IH.
    + split; [intros [q [J ->]]; eauto|]. intros [q [[<-|J] ->]]; [apply IH; exact I|eauto].
    + split; [intros [<-|[q [J ->]]]; eauto|]. intros [q [[<-|J] ->]]; eauto.
  - assert (F : Forall2 same_keys (held_parts m) (held_parts m')) by (eapply aging_keeps; eauto).
    assert (G : registered m' = registered m).
    { unfold delete_all_old_keys in E. destruct (lookup _ table); [|discriminate]. destruct (age_all _ _ _ _ _ _ _ _ _ _) as [[s es]|]; [|discriminate]. injection E as _ <-. reflexivity. }
    rewrite G. destruct IH as [ND IH]. split; [exact ND|]. intros a. rewrite IH. clear - F. split; intros [q [I ->]].
    + destruct (two_in _ _ _ _ _ F I) as [q' [I' S]]. exists q'. split; [exact I'|]. destruct S as [-> _]. reflexivity.
    + destruct (two_in_back _ _ _ _ _ F I) as [q' [I' S]]. exists q'. split; [exact I'|]. destruct S as [-> _]. reflexivity.
Qed.
Lemma keys_lemma m r q : In q (keys m r) <-> In q (held_parts m) /\ part_first q <= r <= part_last q.
Proof.
  unfold keys, held_parts. rewrite filter_In. unfold overlaps_interval. rewrite N.ltb_irrefl, andb_true_iff, !N.leb_le. reflexivity.
Qed.
Lemma any_live_spec from to : forall ps, from <= to -> exists b, any_live ps from to = Some b /\ (b = true <-> exists q, In q ps /\ part_first q <= to /\ from <= part_last q).
Proof.
  intros ps L. induction ps as [|p ps [b [E IH]]]; cbn [any_live].
  - exists false. split; [reflexivity|]. split; [discriminate|intros [q [[] _]]].
  - unfold overlaps_interval. destruct (N.ltb_spec to from); [lia|]. destruct (N.leb_spec (part_first p) to), (N.leb_spec from (part_last p)); cbn [andb].
    + exists true. split; [reflexivity|]. split; [intros _; exists p; split; [left; reflexivity|]; auto|reflexivity].
    + exists b. split; [exact E|]. rewrite IH. split; [intros [q [I R]]; exists q; split; [right; exact I|exact R]|]. intros [q [[<-|I] R]]; [lia|eauto].
    + exists b. split; [exact E|]. rewrite IH. split; [intros [q [I R]]; exists q; split; [right; exact I|exact R]|]. intros [q [[<-|I] R]]; [lia|eauto].
    + exists b. split; [exact E|]. rewrite IH. split; [intros [q [I R]]; exists q; split; [right; exact I|exact R]|]. intros [q [[<-|I] R]]; [lia|eauto].
Qed.
Lemma live_lemma m from to : from <= to -> (forall q, In q (held_parts m) -> part_first q <= part_last q) ->
  exists b, has_live_keys m from to = Some b /\ (b = true <-> exists q r, In q (held_parts m) /\ from <= r <= to /\ part_first q <= r <= part_last q).
Proof.
  intros L O. destruct (any_live_spec from to (held_parts m) L) as [b [E S]]. exists b. split; [exact E|]. rewrite S. split.
  - intros [q [I R]]. specialize (O q I). exists q, (N.max from (part_first q)). split; [exact I|]. lia.
  - intros [q [r [I R]]]. exists q. split; [exact I|]. lia.
Qed.
Lemma live_panics m from to : to < from -> (has_live_keys m from to = None <-> held_parts m <> []).
Proof.
  intros L. unfold has_live_keys. fold (held_parts m). destruct (held_parts m) as [|p ps]; cbn [any_live]; [split; [discriminate|contradiction]|].
  unfold overlaps_interval. destruct (N.ltb_spec to from); [|lia]. split; [discriminate|reflexivity].
Qed.

(** ** Which keys aging keeps *)
Lemma next_round_lemma md h sigs cr par ty cs rest signed : BlockModel.compact_certs h = (ty, cs) :: rest -> sigs par = Some signed ->
  BlockModel.round h + 1 < two64 -> BlockModel.cert_next_round cs + 1 < two64 -> signed + (cr + 1) < two64 ->
  next_round md h sigs cr par = Some (keep_from (BlockModel.round h) (BlockModel.cert_next_round cs) signed cr).
Proof.
  intros E S B1 B2 B3. unfold next_round, keep_from. rewrite add64_ok, E by exact B1. 
  destruct (N.eqb_spec (BlockModel.cert_next_round cs) 0) as [->|Z]; [reflexivity|]. destruct (N.ltb_spec 0 (BlockModel.cert_next_round cs)); [|lia].
  rewrite add64_ok, S by exact B2. cbv zeta. destruct (N.leb_spec (BlockModel.cert_next_round cs + 1) signed).
  - rewrite (add64_ok md cr 1), add64_ok by lia. f_equal. destruct (N.ltb_spec (signed + (cr + 1)) (BlockModel.round h + 1)); lia.
  - f_equal. destruct (N.ltb_spec (BlockModel.cert_next_round cs + 1) (BlockModel.round h + 1)); lia.
Qed.
Lemma delete_as_age md st p c proto rng fault p' st' o st0 proto' : part_dilution p <> 0 -> delete_old_keys sc md st p c proto rng fault = (p', st', o) -> o <> Panic -> exists st1, age sc md proto' [(c, rng)] p st0 = Some (p', st1).
Proof.
  intros Hd E O. cbn [age]. unfold delete_old_keys in *. cbv zeta in *. destruct (N.eqb_spec (part_dilution p) 0); [contradiction|]. destruct (ots_id c _) as [[b off]|]; [|congruence].
  destruct (delete_before sc md (voting p) _ _ rng); [|congruence]. destruct (write_all st _ fault). cbn [write_all]. assert (p' = mkPart (parent p) (vrf p) s (part_first p) (part_last p) (part_dilution p)) as -> by congruence. eauto.
Qed.
Lemma age_app md proto : forall cs ds p st, age sc md proto (cs ++ ds) p st = match age sc md proto cs p st with Some (p', st') => age sc md proto ds p' st' | None => None end.
Proof.
  induction cs as [|[c rng] cs IH]; intros ds p st; cbn [app age]; [reflexivity|]. destruct (delete_old_keys sc md st p c proto rng None) as [[p' st'] [a|e|]]; [apply IH|reflexivity..].
Qed.
Lemma aging_any md st0 par f l d master rng vk fault st1 p0 proto0 cs p st2 m st h sigs proto rngs faults st' m' latest ty cst rest signed id :
  u64 l -> u64 d -> ~ (l = max64 /\ d = 1) ->
  fill_db sc md st0 par f l d master rng vk fault = (st1, Ok p0) -> Forall (fun c => round_ok (fst c) d) cs -> age sc md proto0 cs p0 st1 = Some (p, st2) ->
  In (id, p) (part_keys m) -> lookup (UpgradeModel.current (BlockModel.upgrade h)) table = Some latest ->
  BlockModel.compact_certs h = (ty, cst) :: rest -> sigs par = Some signed ->
  BlockModel.round h + 1 < max64 -> BlockModel.cert_next_round cst + 1 < two64 -> signed + (compact_cert_rounds latest + 1) < two64 ->
  delete_all_old_keys sc table md st m h sigs proto rngs faults = Some (st', m') ->
  exists p', In (id, p') (part_keys m') /\ same_keys p p' /\
    forall r, f <= r <= l -> Forall (fun c => fst c <= r) cs ->
      (keep_from (BlockModel.round h) (BlockModel.cert_next_round cst) signed (compact_cert_rounds latest) <= r -> signs sc md p' r) /\
      (r < keep_from (BlockModel.round h) (BlockModel.cert_next_round cst) signed (compact_cert_rounds latest) -> cannot_sign sc md p' r).
Proof.
  intros Hl Hu Hn F FC A I L CC S B1 B2 B3 E. 
  destruct (coverage_any sc md st0 par f l d master rng vk fault st1 p0 proto0 cs Hl Hu Hn F FC) as [pa [sa [A0 [P1 [P2 [P3 [P4 [P5 [P6 _]]]]]]]]].
  assert (pa = p) by congruence. subst pa.
  destruct (fill_ok sc md _ _ _ _ _ _ _ _ _ _ _ Hl F Hn) as [s [eks [_ [_ [Hfl [Hd _]]]]]].
  unfold delete_all_old_keys in E. rewrite L in E. destruct (age_all sc md st (part_keys m) h sigs _ proto rngs faults) as [[s' es]|] eqn:AG; [|discriminate].
  assert (K : part_keys m' = es) by (injection E as _ <-; reflexivity). rewrite K. apply age_all_spec in AG.
  assert (X : exists p', In (id, p') es /\ exists c rng fault st1 st2 o, next_round md h sigs (compact_cert_rounds latest) (parent p) = Some c /\ delete_old_keys sc md st1 p c proto rng fault = (p', st2, o) /\ o <> Panic).
  { clear - AG I. induction AG as [|e e' es es' [R X] _ IH]; [destruct I|]. destruct I as [->|I].
    - destruct e' as [i' p']. cbn in R, X. subst i'. exists p'. split; [left; reflexivity|exact X].
    - destruct (IH I) as [p' [J Y]]. exists p'. split; [right; exact J|exact Y]. }
  destruct X as [p' [J [c [rng' [fault' [st3 [st4 [o [N [D O]]]]]]]]]]. exists p'. split; [exact J|]. split; [apply identity_same; symmetry; eapply delete_identity; exact D|].
  rewrite P1 in N. rewrite (next_round_lemma md h sigs _ par ty cst rest signed CC S) in N; [|unfold two64, max64 in *; lia|exact B2|exact B3].
  set (c0 := keep_from _ _ _ _) in *. assert (c = c0) by congruence. subst c.
  destruct (delete_as_age md st3 p c0 proto rng' fault' p' st4 o st2 proto0 ltac:(rewrite P5; exact Hd) D O) as [st5 AA].
  assert (A2 : age sc md proto0 (cs ++ [(c0, rng')]) p0 st1 = Some (p', st5)) by (rewrite age_app, A; exact AA).
  assert (Hc : c0 <= BlockModel.round h + 1) by (unfold c0, keep_from; destruct (_ =? 0); lia).
  assert (FC' : Forall (fun c => round_ok (fst c) d) (cs ++ [(c0, rng')])).
  { apply Forall_app. split; [exact FC|]. constructor; [|constructor]. split; cbn [fst]; [unfold u64, two64, max64 in *; lia|intros [Ec _]; lia]. }
  destruct (coverage_any sc md st0 par f l d master rng vk fault st1 p0 proto0 _ Hl Hu Hn F FC') as [pb [sb [A3 [_ [_ [_ [_ [_ [_ CV]]]]]]]]].
  assert (pb = p') by congruence. subst pb. intros r Hr FR. destruct (CV r Hr) as [C1 C2]. split; intros Hc0.
  - apply C1. apply Forall_app. split; [exact FR|]. constructor; [exact Hc0|constructor].
  - apply C2. apply Exists_exists. exists (c0, rng'). split; [apply in_or_app; right; left; reflexivity|exact Hc0].
Qed.
Lemma aging_lemma md st0 par f l d master rng vk fault st1 p0 proto0 cs p st2 m st h sigs proto rngs faults st' m' latest ty cst rest signed id :
  scheme_correct sc -> u64 l -> u64 d -> ~ (l = max64 /\ d = 1) ->
  fill_db sc md st0 par f l d master rng vk fault = (st1, Ok p0) -> Forall (fun c => round_ok (fst c) d) cs -> age sc md proto0 cs p0 st1 = Some (p, st2) ->
  In (id, p) (part_keys m) -> lookup (UpgradeModel.current (BlockModel.upgrade h)) table = Some latest ->
  BlockModel.compact_certs h = (ty, cst) :: rest -> sigs par = Some signed ->
  BlockModel.round h + 1 < max64 -> BlockModel.cert_next_round cst + 1 < two64 -> signed + (compact_cert_rounds latest + 1) < two64 ->
  delete_all_old_keys sc table md st m h sigs proto rngs faults = Some (st', m') ->
  exists p', In (id, p') (part_keys m') /\ same_keys p p' /\
    forall r, f <= r <= l -> Forall (fun c => fst c <= r) cs ->
      (keep_from (BlockModel.round h) (BlockModel.cert_next_round cst) signed (compact_cert_rounds latest) <= r -> can_sign sc md p' r) /\
      (r < keep_from (BlockModel.round h) (BlockModel.cert_next_round cst) signed (compact_cert_rounds latest) -> cannot_sign sc md p' r).
Proof.
  intros SC Hl Hu Hn F FC A I L CC S B1 B2 B3 E.
  destruct (aging_any md st0 par f l d master rng vk fault st1 p0 proto0 cs p st2 m st h sigs proto rngs faults st' m' latest ty cst rest signed id Hl Hu Hn F FC A I L CC S B1 B2 B3 E) as (p' & J & K & C).
  exists p'. split; [exact J|]. split; [exact K|]. intros r Hr FR. destruct (C r Hr FR) as [C1 C2]. split; [|exact C2]. intros G. apply signs_can; [exact SC|exact (C1 G)].
Qed.
Lemma made_delete md p c : made sc md p -> c < max64 -> forall st proto rng fault, snd (delete_old_keys sc md st p c proto rng fault) <> Panic.
Proof.
  intros [st0 [par [f [l [d [master [rng0 [vk [fault0 [st1 [p0 [proto0 [cs [st2 [Hl [Hu [Hn [F [FC A]]]]]]]]]]]]]]]]]]] Hc st proto rng fault.
  destruct (fill_ok sc md _ _ _ _ _ _ _ _ _ _ _ Hl F Hn) as [s [eks [_ [_ [Hfl [Hd _]]]]]].
  destruct (coverage_any sc md st0 par f l d master rng0 vk fault0 st1 p0 proto0 cs Hl Hu Hn F FC) as [pa [sa [A0 [_ [_ [_ [_ [P5 _]]]]]]]].
  assert (pa = p) by congruence. subst pa.
  assert (FC' : Forall (fun c => round_ok (fst c) d) (cs ++ [(c, rng)])).
  { apply Forall_app. split; [exact FC|]. constructor; [|constructor]. split; cbn [fst]; [unfold u64, two64, max64 in *; lia|intros [Ec _]; lia]. }
  destruct (coverage_any sc md st0 par f l d master rng0 vk fault0 st1 p0 proto0 _ Hl Hu Hn F FC') as [pb [sb [A3 _]]].
  rewrite age_app, A in A3. cbn [age] in A3. unfold delete_old_keys in *. rewrite P5 in *. destruct (d =? 0) eqn:Z; [apply N.eqb_eq in Z; contradiction|].
  destruct (ots_id c d) as [[b o]|]; [|discriminate]. destruct (delete_before sc md (voting p) (mkId b o) d rng) as [v|]; [|discriminate].
  destruct (write_all st _ fault) as [st' [|]]; cbn; discriminate.
Qed.
Lemma aging_defined md st m h sigs proto rngs faults latest ty cst rest :
  (forall q, In q (held_parts m) -> made sc md q) -> lookup (UpgradeModel.current (BlockModel.upgrade h)) table = Some latest ->
  BlockModel.compact_certs h = (ty, cst) :: rest -> BlockModel.round h + 1 < max64 -> BlockModel.cert_next_round cst + 1 < two64 ->
  (forall q, In q (held_parts m) -> exists signed, sigs (parent q) = Some signed /\ signed + (compact_cert_rounds latest + 1) < two64) ->
  exists st' m', delete_all_old_keys sc table md st m h sigs proto rngs faults = Some (st', m').
Proof.
  intros M L CC B1 B2 SG. unfold delete_all_old_keys. rewrite L. unfold held_parts in M, SG. revert st rngs faults.
  assert (G : forall es, (forall q, In q (map snd es) -> made sc md q) -> (forall q, In q (map snd es) -> exists signed, sigs (parent q) = Some signed /\ signed + (compact_cert_rounds latest + 1) < two64) ->
    forall st rngs faults, exists st' es', age_all sc md st es h sigs (compact_cert_rounds latest) proto rngs faults = Some (st', es')).
  { induction es as [|[id p] es IH]; intros M' S' st rngs faults; cbn [age_all]; [eauto|].
    destruct (S' p (or_introl eq_refl)) as [signed [S1 S2]].
    rewrite (next_round_lemma md h sigs _ (parent p) ty cst rest signed CC S1); [|unfold two64, max64 in *; lia|exact B2|exact S2].
    set (c0 := keep_from _ _ _ _). assert (Hc : c0 < max64) by (unfold c0, keep_from; destruct (_ =? 0); lia).
    pose proof (made_delete md p c0 (M' p (or_introl eq_refl)) Hc st proto (rngs O) (faults O)) as D.
    destruct (delete_old_keys sc md st p c0 proto (rngs O) (faults O)) as [[p' st1] o]. cbn [snd] in D.
    destruct (IH (fun q I => M' q (or_intror I)) (fun q I => S' q (or_intror I)) st1 (fun i => rngs (S i)) (fun i => faults (S i))) as [s2 [es' E]].
    destruct o as [a|e|]; [| |contradiction D; reflexivity]; rewrite E; eauto. }
  intros st rngs faults. destruct (G _ M SG st rngs faults) as [s' [es' E]]. rewrite E. eauto.
Qed.
Lemma aging_no_entry md st m h sigs proto rngs faults : BlockModel.compact_certs h = [] -> part_keys m <> [] -> delete_all_old_keys sc table md st m h sigs proto rngs faults = None.
Proof.
  intros E NE. unfold delete_all_old_keys. destruct (lookup _ table) as [latest|]; [|reflexivity]. destruct (part_keys m) as [|[id q] es]; [contradiction|]. cbn [age_all]. unfold next_round. rewrite E. destruct (add64 md _ 1); reflexivity.
Qed.
Lemma aging_no_record md st m h sigs proto rngs faults ty cs rest id p es : BlockModel.compact_certs h = (ty, cs) :: rest -> 0 < BlockModel.cert_next_round cs -> part_keys m = (id, p) :: es -> sigs (parent p) = None ->
  delete_all_old_keys sc table md st m h sigs proto rngs faults = None.
Proof.
  intros E B K S. unfold delete_all_old_keys. destruct (lookup _ table) as [latest|]; [|reflexivity]. rewrite K. cbn [age_all]. unfold next_round. rewrite E, S. destruct (add64 md _ 1); [|reflexivity].
  destruct (N.ltb_spec 0 (BlockModel.cert_next_round cs)); [|lia]. destruct (add64 md _ 1); reflexivity.
Qed.
End Manager.

(** ** What is stored stays readable *)
Section Stored.
Variables (sc : scheme) (is_point : bytes -> bool).
Hypothesis sizes : scheme_sizes sc is_point.
Lemma div_le_self c d : d <> 0 -> c / d <= c.
Proof. intros Hd. apply N.div_le_upper_bound; [exact Hd|]. rewrite <- (N.mul_1_l c) at 1. apply N.mul_le_mono_r. lia. Qed.
Lemma add64_u64 md a b c : add64 md a b = Some c -> u64 c.
Proof. unfold add64, u64. destruct (N.ltb_spec (a + b) two64); [intros E; injection E as <-; assumption|]. destruct md; [discriminate|]. intros E. injection E as <-. apply N.mod_lt. discriminate. Qed.
Lemma made_ok s sg : length s = 32%nat -> length sg = 64%nat -> subkey_ok sc is_point (mkSubkey s sg).
Proof. intros L Ls. destruct sizes as [A _]. split; [exact L|]. split; [apply A; exact L|exact Ls]. Qed.
Lemma make_batches_all md master start : forall eks i ks, Forall (fun e => length e = 32%nat) eks -> make_batches sc md master start i eks = Some ks -> Forall (subkey_ok sc is_point) ks /\ length ks = length eks.
Proof.
  induction eks as [|e eks IH]; intros i ks F E; cbn [make_batches] in E; [injection E as <-; auto|].
  destruct (add64 md start i); [|discriminate]. destruct (make_batches sc md master start (i + 1) eks) as [ks'|] eqn:M; [|discriminate]. injection E as <-.
  inversion F as [|? ? F1 F2]. subst. destruct (IH _ _ F2 M) as [A B]. split; [constructor; [apply made_ok; [exact F1|apply sizes]|exact A]|cbn [length]; congruence].
Qed.
Lemma generate_ok md master start eks s : length master = 32%nat -> u64 start -> Forall (fun e => length e = 32%nat) eks -> N.of_nat (length eks) < 2 ^ 32 -> generate sc md master start eks = Some s -> secrets_ok sc is_point s.
Proof.
  intros Lm Hs F Ln E. unfold generate in E. destruct (make_batches sc md master start 0 eks) as [ks|] eqn:M; [|discriminate]. injection E as <-. destruct (make_batches_all _ _ _ _ _ _ F M) as [A B].
  unfold secrets_ok. cbn. split; [apply sizes; exact Lm|]. split; [exact Hs|]. split; [reflexivity|]. split; [split; [reflexivity|apply sizes]|]. split; [reflexivity|]. split; [exact A|]. split; [constructor|]. split; [rewrite B; exact Ln|reflexivity].
Qed.
Lemma skipn_ok k l : Forall (subkey_ok sc is_point) l -> Forall (subkey_ok sc is_point) (skipn k l).
Proof. intros F. rewrite <- (firstn_skipn k l) in F. apply Forall_app in F. apply F. Qed.
Lemma delete_ok md s cur per rng s' : secrets_ok sc is_point s -> u64 (batch cur) -> u64 (offset cur) -> per < 2 ^ 32 -> (forall o, length (rng o) = 32%nat) -> delete_before sc md s cur per rng = Some s' -> secrets_ok sc is_point s'.
Proof.
  intros OK Ub Uo Hp Hr D. unfold delete_before in D. destruct (add64 md (batch cur) 1) as [nx|]; [|discriminate].
  pose proof OK as [A [B [E [F [G [I [J [K L]]]]]]]].
  destruct (nx =? first_batch s).
  - destruct (_ <? _); [|congruence]. destruct (add64 md (first_offset s) _) as [fo|] eqn:Fo; [|discriminate]. injection D as <-. apply add64_u64 in Fo.
    unfold secrets_ok. cbn. repeat (split; [assumption|]). split; [apply skipn_ok; exact J|]. split; [exact K|]. rewrite skipn_length. lia.
  - destruct (nx <? _); [congruence|]. destruct (sub64 md _ _) as [j|]; [|discriminate]. destruct (_ <? j).
    + destruct (batches s); injection D as <-; unfold secrets_ok; cbn; repeat (split; [solve [assumption|constructor]|]); split; reflexivity.
    + destruct (add64 md (first_batch s) j) as [fb|] eqn:Fb; [|discriminate]. apply add64_u64 in Fb.
      destruct (skipn (N.to_nat j) (batches s)) as [|k rest] eqn:Sk; [injection D as <-; unfold secrets_ok; cbn; repeat (split; [solve [assumption|constructor]|]); split; reflexivity|].
      destruct (add64 md fb 1) as [fb1|] eqn:Fb1; [|discriminate]. apply add64_u64 in Fb1. injection D as <-.
      pose proof (skipn_ok (N.to_nat j) _ I) as SI. rewrite Sk in SI. inversion SI as [|? ? K1 K2]. subst. unfold secrets_ok. cbn.
      assert (Lr : (length rest <= length (batches s))%nat). { apply (f_equal (@length _)) in Sk. rewrite skipn_length in Sk. cbn [length] in Sk. lia. }
      split; [exact A|]. split; [exact Fb1|]. split; [exact Uo|]. split; [apply K1|]. split; [apply K1|]. split; [exact K2|]. split; [|split; [lia|rewrite map_length, range_length; lia]].
      apply Forall_map, Forall_forall. intros o _. apply made_ok; [apply Hr|apply sizes].
Qed.
Lemma stored_age md proto : forall cs p st p' st', part_dilution p <> 0 -> part_dilution p < 2 ^ 32 -> part_ok sc is_point p -> restore sc is_point st = Ok p ->
  Forall (fun c => u64 (fst c) /\ forall o, length (snd c o) = 32%nat) cs -> age sc md proto cs p st = Some (p', st') -> restore sc is_point st' = Ok p' /\ part_ok sc is_point p'.
Proof.
  induction cs as [|[c rng] cs IH]; intros p st p' st' Hd Hb OK R F E; cbn [age] in E; [assert (p = p') by congruence; assert (st = st') by congruence; subst; auto|].
  inversion F as [|? ? [F1 F2] F3]. subst. cbn [fst snd] in F1, F2.
  destruct (delete_old_keys sc md st p c proto rng None) as [[p1 st1] o] eqn:D. unfold delete_old_keys in D. cbv zeta in D. destruct (N.eqb_spec (part_dilution p) 0); [contradiction|].
  rewrite ots_id_ok in D by exact Hd. destruct (delete_before sc md (voting p) _ _ rng) as [s|] eqn:DB; [|injection D as <- <- <-; discriminate].
  cbn [write_all] in D. assert (o = Ok tt) as -> by congruence. assert (p1 = mkPart (parent p) (vrf p) s (part_first p) (part_last p) (part_dilution p)) as -> by congruence.
  destruct OK as [O1 [O2 [O3 [O4 [O5 [O6 O7]]]]]].
  assert (S : secrets_ok sc is_point s).
  { eapply delete_ok; [exact O4| | |exact Hb|exact F2|exact DB]; cbn; unfold u64 in *.
    - eapply N.le_lt_trans; [apply div_le_self; exact Hd|exact F1].
    - eapply N.lt_trans; [apply N.mod_lt; exact Hd|exact O7]. }
  apply (IH (mkPart (parent p) (vrf p) s (part_first p) (part_last p) (part_dilution p)) st1 p' st'); [exact Hd|exact Hb| | |exact F3|exact E].
  - repeat (split; [assumption|]). assumption.
  - assert (st1 = apply_writes st [(str "part-voting", encode (secrets_value sc (snapshot s)))]) as -> by congruence. exact (voting_crash sc is_point st p s 1 S R).
Qed.
Lemma filled_ok md st par f l d master rng vk st' p : u64 l -> u64 d -> ~ (l = max64 /\ d = 1) -> l / d - f / d + 1 < 2 ^ 32 -> length par = 32%nat -> length (VrfModel.private vk) = 32%nat -> length (VrfModel.public_key vk) = 32%nat ->
  length master = 32%nat -> (forall i, length (rng i) = 32%nat) -> fill_db sc md st par f l d master rng vk None = (st', Ok p) -> part_ok sc is_point p /\ restore sc is_point st' = Ok p.
Proof.
  intros Hl Hu Hn Hb Lp L1 L2 Lm Lr E. destruct (fill_ok sc md _ _ _ _ _ _ _ _ _ _ _ Hl E Hn) as [s [eks [G [Ep [Hfl [Hd [Le [Ee P]]]]]]]].
  assert (OK : part_ok sc is_point p).
  { subst p. unfold part_ok. cbn. repeat (split; [assumption|]). split; [|split; [unfold u64 in *; lia|split; assumption]].
    apply (generate_ok md master (f / d) eks s Lm); [| |exact (eq_ind_r (fun x => x < 2 ^ 32) Hb Le)|exact G].
    - unfold u64 in *. eapply N.le_lt_trans; [apply div_le_self; exact Hd|lia].
    - rewrite Ee. apply Forall_map, Forall_forall. intros i _. apply Lr. }
  split; [exact OK|]. pose proof (persist_lemma sc is_point st p OK) as [R _]. rewrite P in R. exact R.
Qed.
Lemma stored_lemma md st par f l d master rng vk st' p proto cs p' st'' : u64 l -> u64 d -> d < 2 ^ 32 -> ~ (l = max64 /\ d = 1) -> l / d - f / d + 1 < 2 ^ 32 -> length par = 32%nat -> length (VrfModel.private vk) = 32%nat -> length (VrfModel.public_key vk) = 32%nat ->
  length master = 32%nat -> (forall i, length (rng i) = 32%nat) -> Forall (fun c => u64 (fst c) /\ forall o, length (snd c o) = 32%nat) cs ->
  fill_db sc md st par f l d master rng vk None = (st', Ok p) -> age sc md proto cs p st' = Some (p', st'') -> restore sc is_point st'' = Ok p'.
Proof.
  intros Hl Hu Hd2 Hn Hb Lp L1 L2 Lm Lr F E A. destruct (filled_ok _ _ _ _ _ _ _ _ _ _ _ Hl Hu Hn Hb Lp L1 L2 Lm Lr E) as [OK R].
  destruct (fill_ok sc md _ _ _ _ _ _ _ _ _ _ _ Hl E Hn) as [s [eks [_ [Ep [_ [Hd _]]]]]].
  eapply stored_age; [| |exact OK|exact R|exact F|exact A]; rewrite Ep; cbn; assumption.
Qed.
(** ** Root accounts *)
Lemma root_panics seed : length seed = 32%nat -> root_import seed = Panic.
Proof. intros L. unfold root_import. rewrite L. reflexivity. Qed.
Lemma generate_panics random : length (firstn 32 random) = 32%nat -> root_generate random = Panic.
Proof. apply root_panics. Qed.
Lemma root_restored st kp : length kp = 64%nat -> is_point (skipn 32 kp) = true -> root_restore is_point (insert st (str "root") (encode (VBin kp))) = Ok kp.
Proof.
  intros L P. unfold root_restore. rewrite insert_same. apply from_bytes_encode; [cbn [wf]; rewrite L; reflexivity|]. unfold keypair_of. cbn [buf_of]. rewrite L, P. reflexivity.
Qed.
(** ** Registration *)
Lemma registration_lemma H p fee first last lease md proto spec : part_first p <= part_last p -> part_last p <> 0 -> part_dilution p <> 0 -> verifier (voting p) <> default_key -> VrfModel.public_key (vrf p) <> zero32 -> last + 1 < two64 ->
  let t := generate_registration_transaction p fee first last lease in
  (part_first p <= last + 1 -> TxModel.check_fields H md spec proto t = Ok tt) /\
  (last + 1 < part_first p -> enable_keyreg_coherency_check proto = true -> TxModel.check_fields H md spec proto t = Err TxModel.KeyregGoingOnlineWithFirstVoteAfterLastValid).
Proof.
  intros A B D V S L. cbv zeta. unfold TxModel.check_fields, generate_registration_transaction. cbn [TxModel.fields TxModel.tx_head].
  assert (C : TxModel.check_coherency md (TxModel.mkKeyreg (verifier (voting p)) (VrfModel.public_key (vrf p)) (part_first p) (part_last p) (part_dilution p) false) (TxModel.mkTxHeader (parent p) fee first last [] [] zero32 zero32 lease zero32) =
     if last + 1 <? part_first p then Err TxModel.KeyregGoingOnlineWithFirstVoteAfterLastValid else Ok tt).
  { unfold TxModel.check_coherency. cbn [TxModel.vote_first TxModel.vote_last TxModel.vote_pk TxModel.selection_pk TxModel.kr_key_dilution TxModel.last_valid].
    destruct (N.ltb_spec (part_last p) (part_first p)); [lia|]. destruct (bytes_eqb_reflect (verifier (voting p)) default_key); [contradiction|]. destruct (bytes_eqb_reflect (VrfModel.public_key (vrf p)) zero32); [contradiction|].
    destruct (N.eqb_spec (part_dilution p) 0); [contradiction|]. cbn [andb orb negb]. destruct (N.eqb_spec (part_last p) 0); [contradiction|]. rewrite add64_ok by exact L. reflexivity. }
  cbn [TxModel.nonparticipation]. split; intros F.
  - destruct (enable_keyreg_coherency_check proto); [rewrite C; destruct (N.ltb_spec (last + 1) (part_first p)); [lia|]|]; reflexivity.
  - intros ->. rewrite C. destruct (N.ltb_spec (last + 1) (part_first p)); [reflexivity|lia].
Qed.
End Stored.
Lemma registration_carries p fee first last lease :
  let t := generate_registration_transaction p fee first last lease in
  TxModel.sender (TxModel.tx_head t) = parent p /\ TxModel.fee (TxModel.tx_head t) = fee /\
  TxModel.first_valid (TxModel.tx_head t) = first /\ TxModel.last_valid (TxModel.tx_head t) = last /\ TxModel.lease (TxModel.tx_head t) = lease /\
  exists k, TxModel.fields t = TxModel.Keyreg k /\ TxModel.vote_pk k = verifier (voting p) /\ TxModel.selection_pk k = VrfModel.public_key (vrf p) /\
    TxModel.vote_first k = part_first p /\ TxModel.vote_last k = part_last p /\ TxModel.kr_key_dilution k = part_dilution p /\ TxModel.nonparticipation k = false.
Proof. cbv zeta. repeat split. eexists. repeat split. Qed.
