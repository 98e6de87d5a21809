(** Proofs for TrieFaultProps: failures of calls that change nothing do no damage. *)
From Verif Require Import Base BaseFacts TrieModel TrieSpec TrieCodecProofs TrieProofs TrieRefine TrieBind TrieAny TrieCostProofs TrieReopenModel TrieReopenSpec TrieReopenProofs TrieGoOnModel TrieGoOnSpec TrieGoOnProofs TrieFaultModel TrieFaultSpec TrieFaultProofs.

Lemma twin_refl st : twin st st.
Proof. split; [intros x|]; reflexivity. Qed.
Lemma twin_sym st st' : twin st st' -> twin st' st.
Proof. intros [A B]. split; [intros x; symmetry; apply A|symmetry; exact B]. Qed.
Lemma twin_trans a b c : twin a b -> twin b c -> twin a c.
Proof. intros [A B] [C D]. split; [intros x; rewrite A; apply C|congruence]. Qed.

(** ** Tries that read alike fail alike *)
Definition resp {A} (a : act A) : Prop := forall st st' k, twin st st' ->
  match a st k, a st' k with (o, s, j), (o', s', j') => o = o' /\ j = j' /\ twin s s' end.
Lemma resp_ret {A} (x : A) : resp (ret x).
Proof. intros st st' k X. repeat split; apply X. Qed.
Lemma resp_panics {A} : resp (@panics A).
Proof. intros st st' k X. repeat split; apply X. Qed.
Lemma resp_access : resp access.
Proof. intros st st' [[|j]|] X; repeat split; apply X. Qed.
Lemma resp_plain {A} (f : store -> outcome trie_error (A * store)) : (forall st st', twin st st' -> same twin (f st) (f st')) -> resp (plain f).
Proof.
  intros F st st' k X. specialize (F st st' X). unfold plain. destruct (f st) as [[a s]|e|], (f st') as [[a' s']|e'|]; cbn [same] in F; try contradiction.
  - destruct F as [-> F]. repeat split; apply F.
  - subst e'. repeat split; apply X.
  - repeat split; apply X.
Qed.
Lemma resp_bind {A B} (a : act A) (b : A -> act B) : resp a -> (forall x, resp (b x)) -> resp (andthen a b).
Proof.
  intros Ra Rb st st' k X. specialize (Ra st st' k X). unfold andthen. destruct (a st k) as [[o s] j], (a st' k) as [[o' s'] j']. destruct Ra as (<- & <- & T).
  destruct o as [x|e|]; [apply Rb; exact T|repeat split; apply T..].
Qed.
Lemma resp_get id : resp (f_get id).
Proof. apply resp_bind; [apply resp_access|]. intros _. apply resp_plain. intros st st'. apply get_twin. Qed.
Lemma resp_allocate m : resp (f_allocate m).
Proof. apply resp_plain. intros st st'. apply allocate_twin. Qed.
Lemma cached_twin id v st st' : (forall x y, v = None -> view st id = Ok x -> view st' id = Ok y -> match storage st id, storage st' id with Some a, Some b => deserialize a = deserialize b | _, _ => True end) ->
  twin st st' -> twin (mkStore (storage st) (upd (cache st) id v) (next_node_id st)) (mkStore (storage st') (upd (cache st') id v) (next_node_id st')).
Proof.
  intros N [A B]. split; [|exact B]. intros x. pose proof (A x) as Ax. unfold view in *. cbn [storage cache]. unfold upd. destruct (N.eqb_spec x id) as [-> |_]; [|exact Ax].
  destruct v as [n|].
  - destruct (storage st id) as [a|], (storage st' id) as [b|]; try destruct (deserialize a); try destruct (deserialize b); congruence.
  - destruct (storage st id) as [a|], (storage st' id) as [b|]; try destruct (deserialize a) eqn:E1; try destruct (deserialize b) eqn:E2; try congruence.
    specialize (N _ _ eq_refl eq_refl eq_refl). congruence.
Qed.
Lemma resp_set id n : resp (f_set id n).
Proof.
  intros st st' k X. pose proof (cached_twin id (Some n) st st' ltac:(discriminate) X) as C. pose proof (set_twin id n st st' X) as D.
  destruct k as [[|j]|]; cbn; (split; [reflexivity|]); (split; [reflexivity|]); [exact C|exact D..].
Qed.
Lemma resp_find : forall d self, resp (f_find d self).
Proof.
  induction d as [|b d IH]; intros self; cbn [f_find]; (destruct (children self) as [cs|]; [|apply resp_ret]); [apply resp_panics|].
  destruct (nth_error cs (idx b)) as [[id|]|]; [|apply resp_ret|apply resp_panics]. apply resp_bind; [apply resp_get|]. intros x. apply IH.
Qed.
Lemma resp_hash_children rec (R : forall n, resp (rec n)) : forall cs, resp (f_hash_children rec cs).
Proof.
  induction cs as [|[id|] cs IH]; cbn [f_hash_children]; [apply resp_ret| |exact IH]. apply resp_bind; [apply resp_get|]. intros x. destruct (_ && _); [|exact IH].
  apply resp_bind; [apply R|]. intros y. apply resp_bind; [apply resp_set|]. intros _. exact IH.
Qed.
Lemma resp_accumulate : forall cs i, resp (f_accumulate i cs).
Proof.
  induction cs as [|[id|] cs IH]; intros i; cbn [f_accumulate]; [apply resp_ret| |apply IH]. apply resp_bind; [apply resp_get|]. intros x. apply resp_bind; [apply IH|]. intros y. apply resp_ret.
Qed.
Lemma resp_calculate H : forall fuel self, resp (f_calculate_hash H fuel self).
Proof.
  induction fuel as [|f IH]; intros self; cbn [f_calculate_hash]; [apply resp_panics|]. destruct (children self) as [cs|]; [|apply resp_ret]. destruct (negb _); [apply resp_ret|].
  apply resp_bind; [apply resp_hash_children; exact IH|]. intros _. apply resp_bind; [apply resp_accumulate|]. intros y. apply resp_ret.
Qed.

(** ** Loading leaves everything as it is *)
Definition loads {A} (a : act A) : Prop := forall st k, twin st (snd (fst (a st k))).
Lemma loads_ret {A} (x : A) : loads (ret x).
Proof. intros st k. apply twin_refl. Qed.
Lemma loads_panics {A} : loads (@panics A).
Proof. intros st k. apply twin_refl. Qed.
Lemma loads_bind {A B} (a : act A) (b : A -> act B) : loads a -> (forall x, loads (b x)) -> loads (andthen a b).
Proof.
  intros La Lb st k. specialize (La st k). unfold andthen. destruct (a st k) as [[[x|e|] s] j]; cbn [fst snd] in *; [|exact La..]. eapply twin_trans; [exact La|apply Lb].
Qed.
Lemma loads_get id : loads (f_get id).
Proof.
  intros st k. unfold f_get, andthen, plain. destruct k as [[|j]|]; cbn [access]; [apply twin_refl|..]; pose proof (get_view id st) as V; pose proof (get_next id st) as Nx;
    (destruct (get_node id st) as [[n s]|e|]; cbn [fst snd]; [|apply twin_refl..]); split; [apply V|symmetry; eapply Nx; reflexivity|apply V|symmetry; eapply Nx; reflexivity].
Qed.
Lemma loads_find : forall d self, loads (f_find d self).
Proof.
  induction d as [|b d IH]; intros self; cbn [f_find]; (destruct (children self) as [cs|]; [|apply loads_ret]); [apply loads_panics|].
  destruct (nth_error cs (idx b)) as [[id|]|]; [|apply loads_ret|apply loads_panics]. apply loads_bind; [apply loads_get|]. intros x. apply IH.
Qed.
Lemma loads_accumulate : forall cs i, loads (f_accumulate i cs).
Proof.
  induction cs as [|[id|] cs IH]; intros i; cbn [f_accumulate]; [apply loads_ret| |apply IH]. apply loads_bind; [apply loads_get|]. intros x. apply loads_bind; [apply IH|]. intros y. apply loads_ret.
Qed.
(** What a simulated piece does under a fault. *)
Lemma sim_cases {A} (a : act A) f st j x st1 : sim_at a f st -> f = Ok (x, st1) ->
  (exists j', a st (Some j) = (Ok x, st1, Some j')) \/ exists st', a st (Some j) = (Err StorageAccessFailed, st', Some 0).
Proof.
  intros (n & S1 & S2) ->. destruct (Nat.lt_ge_cases j n) as [L|L]; [right; apply S2; exact L|left]. specialize (S1 (Some j) L). exists (j - n). exact S1.
Qed.

(** ** A failing computation of hashes *)
Section Hash.
Variable H : bytes -> bytes.
Hypothesis Hlen : hash32 H.
Definition shape (c c2 : ptree) : Prop := pid c2 = pid c /\ (forall k, mem c2 k <-> mem c k) /\ (forall x, own c2 x <-> own c x).
Definition shapes (r r2 : list (option ptree)) : Prop :=
  Forall2 (fun a b => match a, b with Some c, Some c2 => shape c c2 | None, None => True | _, _ => False end) r r2.
Lemma shape_refl c : shape c c.
Proof. split; [reflexivity|]. split; intros; reflexivity. Qed.
Lemma shapes_refl r : shapes r r.
Proof. induction r as [|[c|] r IH]; constructor; auto. apply shape_refl. Qed.
Lemma shape_cl st n path c : good H st n path c -> shape c (cl c).
Proof.
  intros G. split; [apply pid_cl|]. split; intros x; split; intros X.
  - exact (mem_cl2 H _ _ _ _ _ G X).
  - apply mem_cl1. exact X.
  - exact (own_cl2 H _ _ _ _ _ G X).
  - apply own_cl1. exact X.
Qed.
Lemma shapes_has r r2 : shapes r r2 -> forall i, (forall c, has r i c -> exists c2, has r2 i c2 /\ shape c c2) /\ (forall c2, has r2 i c2 -> exists c, has r i c /\ shape c c2).
Proof.
  induction 1 as [|a b r r2 Hab Hr IH]; intros [|i]; unfold has in *; cbn [nth_error] in *; try (split; intros ? X; discriminate X).
  - destruct a as [a|], b as [b|]; try contradiction; split; intros c X; try discriminate X; injection X as <-; eauto.
  - apply IH.
Qed.
Lemma shapes_pids r r2 : shapes r r2 -> map (option_map pid) r2 = map (option_map pid) r.
Proof. induction 1 as [|a b r r2 Hab Hr IH]; cbn [map]; [reflexivity|]. rewrite IH. destruct a as [a|], b as [b|]; try contradiction; [|reflexivity]. cbn. destruct Hab as [-> _]. reflexivity. Qed.
Lemma shapes_node id d d2 r r2 : shapes r r2 -> shape (PNode id d r) (PNode id d2 r2).
Proof.
  intros Sh. split; [reflexivity|]. split; intros x; split; intros X.
  - inversion X as [|id0 d0 cs0 b c k Hh Hm]; subst. destruct (proj2 (shapes_has _ _ Sh _) _ Hh) as (c1 & Hc & _ & M & _). econstructor; [exact Hc|apply M; exact Hm].
  - inversion X as [|id0 d0 cs0 b c k Hh Hm]; subst. destruct (proj1 (shapes_has _ _ Sh _) _ Hh) as (c1 & Hc & _ & M & _). econstructor; [exact Hc|apply M; exact Hm].
  - inversion X as [|id0 d0 cs0|id0 d0 cs0 i c y Hh Ho]; subst; [constructor|]. destruct (proj2 (shapes_has _ _ Sh _) _ Hh) as (c1 & Hc & _ & _ & M). econstructor; [exact Hc|apply M; exact Ho].
  - inversion X as [|id0 d0 cs0|id0 d0 cs0 i c y Hh Ho]; subst; [constructor|]. destruct (proj1 (shapes_has _ _ Sh _) _ Hh) as (c1 & Hc & _ & _ & M). econstructor; [exact Hc|apply M; exact Ho].
Qed.
(** What a failed piece may leave behind of the subtree [c]. *)
Definition left (n : nat) (path : bytes) (c : ptree) (st st' : store) : Prop :=
  exists st2 c2, twin st' st2 /\ next_node_id st2 = next_node_id st /\ good H st2 n path c2 /\ shape c c2 /\ forall x, ~ own c x -> same_at st st2 x.
(** A node whose children were changed in this way. *)
Lemma left_node n path id cs st st2 cs2 : good H st (S n) path (PNode id true cs) -> shapes cs cs2 -> next_node_id st2 = next_node_id st ->
  (forall j c2, has cs2 j c2 -> good H st2 n (path ++ [b8 (N.of_nat j)]) c2) -> (forall x, (forall j c, has cs j c -> ~ own c x) -> same_at st st2 x) ->
  good H st2 (S n) path (PNode id true cs2).
Proof.
  intros G Sh Nx Gc Fr. inversion G as [|n' p id0 d cs0 Hl Ha Hc Hid Hdj H2 Hcl]; subst.
  assert (Ow : forall i c2 x, has cs2 i c2 -> own c2 x -> exists c, has cs i c /\ own c x).
  { intros i c2 x Hi Ho. destruct (proj2 (shapes_has _ _ Sh i) _ Hi) as (c & Hc' & _ & _ & O). exists c. split; [exact Hc'|apply O; exact Ho]. }
  constructor.
  - rewrite <- Hl. clear - Sh. induction Sh; cbn; congruence.
  - replace (cell H path (PNode id true cs2)) with (cell H path (PNode id true cs)) by (cbn [cell]; rewrite (shapes_pids _ _ Sh); reflexivity).
    eapply agree_same; [apply Fr|exact Ha]. intros j c Hj. apply (Hid j c Hj).
  - exact Gc.
  - intros i c2 Hi Ho. destruct (Ow i c2 id Hi Ho) as (c & Hc' & Ho'). exact (Hid i c Hc' Ho').
  - intros i j a b x A B Oa Ob. destruct (Ow i a x A Oa) as (a' & A' & Oa'). destruct (Ow j b x B Ob) as (b' & B' & Ob'). exact (Hdj i j a' b' x A' B' Oa' Ob').
  - destruct H2 as (k1 & k2 & M1 & M2 & Ne). destruct (shapes_node id true true cs cs2 Sh) as (_ & M & _). exists k1, k2. split; [apply M; exact M1|]. split; [apply M; exact M2|exact Ne].
  - discriminate.
Qed.
Lemma calc_top fuel n path t st nd st1 : good H st n path t -> (forall l, descent t l -> (length l <= fuel)%nat) ->
  calculate_hash H fuel (cell H path t) st = Ok (nd, st1) -> same_at st st1 (pid t).
Proof.
  intros G Hf E. destruct fuel as [|fuel]; [discriminate|]. inversion G as [n' p id s Hl Ha|n' p id d cs Hl Ha Hc Hid Hdj H2 Hcl]; subst.
  { cbn [calculate_hash children cell] in E. assert (st1 = st) by congruence. subst st1. apply same_refl. }
  cbn [calculate_hash cell children dirty] in E. destruct d; cbn [negb] in E.
  2:{ assert (st1 = st) by congruence. subst st1. apply same_refl. }
  destruct (hash_children_spec H (calculate_hash H fuel) n' path cs 0 st) as (st' & E' & N' & G' & S').
  - intros j c st0 Hj Gc. apply calculate_hash_spec; [exact Hlen|exact Gc|]. intros l Dl. pose proof (Hf _ (descent_child id true cs j c l Hj Dl)) as X. cbn [length] in X. lia.
  - exact Hc.
  - exact Hdj.
  - rewrite E' in E. cbn [bind] in E. rewrite (accumulate_spec H n' path st' cs 0 G') in E. cbn [bind] in E. assert (st1 = st') by congruence. subst st1. apply S'. intros j c Hj. cbn [pid]. apply (Hid j c Hj).
Qed.
(** A write of a node that fails in the storage. *)
Lemma half_set st id n : node_ok n -> (exists x, view st id = Ok x) -> twin (mkStore (storage st) (upd (cache st) id (Some n)) (next_node_id st)) (set_node id n st).
Proof.
  intros Ok [x V]. split; [|reflexivity]. intros y. unfold view in *. unfold set_node, store_node. cbn [storage cache]. unfold upd. destruct (N.eqb_spec y id) as [-> |_]; [|reflexivity].
  pose proof (serialize_nonempty n). destruct (serialize n) eqn:Es; [contradiction|]. rewrite <- Es. rewrite deserialize_serialize by exact Ok.
  destruct (storage st id) as [d|]; [|discriminate]. destruct (deserialize d); [reflexivity|discriminate].
Qed.
Lemma agree_view st id n : agree st id n -> view st id = Ok n.
Proof. intros (A & B & C). unfold view. rewrite B, A, deserialize_serialize by exact C. reflexivity. Qed.
Lemma same_view st st' x n : same_at st st' x -> view st x = Ok n -> view st' x = Ok n.
Proof. intros [A B]. unfold view. rewrite A, B. auto. Qed.
Lemma set_fails id n st j : (exists j', f_set id n st (Some j) = (Ok tt, set_node id n st, Some j')) \/
  (j = 0 /\ f_set id n st (Some j) = (Err StorageAccessFailed, mkStore (storage st) (upd (cache st) id (Some n)) (next_node_id st), Some 0)).
Proof. destruct j as [|j]; [right; split; reflexivity|left; exists j; reflexivity]. Qed.
Lemma get_fails st id n j : agree st id n -> (exists j', f_get id st (Some j) = (Ok n, st, Some j')) \/ f_get id st (Some j) = (Err StorageAccessFailed, st, Some 0).
Proof. intros A. unfold f_get, andthen, plain. destruct j as [|j]; cbn [access]; [right; reflexivity|left]. rewrite (get_agree _ _ _ A). exists j. reflexivity. Qed.

Lemma children_fail fuel n path : forall r i st j e st' k',
  (forall m c st j e st' k', has r m c -> good H st n (path ++ [b8 (N.of_nat (i + m))]) c ->
     f_calculate_hash H fuel (cell H (path ++ [b8 (N.of_nat (i + m))]) c) st (Some j) = (Err e, st', k') -> left n (path ++ [b8 (N.of_nat (i + m))]) c st st') ->
  (forall m c l, has r m c -> descent c l -> (length l <= fuel)%nat) ->
  (forall m c, has r m c -> good H st n (path ++ [b8 (N.of_nat (i + m))]) c) ->
  (forall i j c c' x, has r i c -> has r j c' -> own c x -> own c' x -> i = j) ->
  f_hash_children (f_calculate_hash H fuel) (map (option_map pid) r) st (Some j) = (Err e, st', k') ->
  exists st2 r2, twin st' st2 /\ next_node_id st2 = next_node_id st /\ shapes r r2 /\ (forall m c2, has r2 m c2 -> good H st2 n (path ++ [b8 (N.of_nat (i + m))]) c2) /\
    forall x, (forall m c, has r m c -> ~ own c x) -> same_at st st2 x.
Proof.
  induction r as [|[c|] r IH]; intros i st j e st' k' Hrec Hf Hg Hdj E; cbn [map option_map f_hash_children] in E; [discriminate| |].
  - pose proof (Hg 0%nat c eq_refl) as Gc. rewrite Nat.add_0_r in Gc. pose proof (good_agree _ _ _ _ _ Gc) as Ag.
    assert (Hdj' : forall m c' x, has r m c' -> own c x -> ~ own c' x).
    { intros m c' x Hj O1 O2. specialize (Hdj 0%nat (S m) c c' x eq_refl Hj O1 O2). discriminate. }
    assert (Stay : forall st2, twin st' st2 -> next_node_id st2 = next_node_id st -> forall c2, shape c c2 -> good H st2 n (path ++ [b8 (N.of_nat i)]) c2 -> (forall x, ~ own c x -> same_at st st2 x) ->
      exists st2 r2, twin st' st2 /\ next_node_id st2 = next_node_id st /\ shapes (Some c :: r) r2 /\ (forall m c2, has r2 m c2 -> good H st2 n (path ++ [b8 (N.of_nat (i + m))]) c2) /\
        forall x, (forall m c0, has (Some c :: r) m c0 -> ~ own c0 x) -> same_at st st2 x).
    { intros st2 T Nx c2 Sh G2 Fr. exists st2, (Some c2 :: r). split; [exact T|]. split; [exact Nx|]. split; [constructor; [exact Sh|apply shapes_refl]|]. split.
      - intros [|m] c0 Hm; [unfold has in Hm; cbn in Hm; assert (c0 = c2) by congruence; subst c0; rewrite Nat.add_0_r; exact G2|].
        eapply good_frame; [exact (Hg (S m) c0 Hm)|]. intros x Hx. apply Fr. intros Ho. exact (Hdj' m c0 x Hm Ho Hx).
      - intros x Hx. apply Fr. apply (Hx 0%nat c). reflexivity. }
    assert (Rest : forall st1 j1, next_node_id st1 = next_node_id st -> good H st1 n (path ++ [b8 (N.of_nat i)]) (cl c) -> (forall x, ~ own c x -> same_at st st1 x) ->
      f_hash_children (f_calculate_hash H fuel) (map (option_map pid) r) st1 (Some j1) = (Err e, st', k') ->
      exists st2 r2, twin st' st2 /\ next_node_id st2 = next_node_id st /\ shapes (Some c :: r) r2 /\ (forall m c2, has r2 m c2 -> good H st2 n (path ++ [b8 (N.of_nat (i + m))]) c2) /\
        forall x, (forall m c0, has (Some c :: r) m c0 -> ~ own c0 x) -> same_at st st2 x).
    { intros st1 j1 N1 G1 S1 E1. destruct (IH (S i) st1 j1 e st' k') as (st2 & r2 & T & N2 & Sh & G2 & Fr).
      - intros m c' st0 j0 e0 s0 k0 Hm. replace (S i + m)%nat with (i + S m)%nat by lia. apply (Hrec (S m) c'). exact Hm.
      - intros m c' l Hm. apply (Hf (S m)). exact Hm.
      - intros m c' Hm. replace (S i + m)%nat with (i + S m)%nat by lia. eapply good_frame; [exact (Hg (S m) c' Hm)|]. intros x Hx. apply S1. intros Ho. exact (Hdj' m c' x Hm Ho Hx).
      - intros m1 m2 c1 c2 x A B O1 O2. specialize (Hdj (S m1) (S m2) c1 c2 x A B O1 O2). lia.
      - exact E1.
      - exists st2, (Some (cl c) :: r2). split; [exact T|]. split; [congruence|]. split; [constructor; [exact (shape_cl _ _ _ _ Gc)|exact Sh]|]. split.
        + intros [|m] c0 Hm.
          * unfold has in Hm. cbn in Hm. assert (c0 = cl c) by congruence. subst c0. rewrite Nat.add_0_r. eapply good_frame; [exact G1|]. intros x Hx. apply Fr. intros m c' Hm' Ho.
            apply (own_cl2 H _ _ _ _ _ Gc) in Hx. exact (Hdj' m c' x Hm' Hx Ho).
          * replace (i + S m)%nat with (S i + m)%nat by lia. apply G2. exact Hm.
        + intros x Hx. eapply same_trans; [apply S1; apply (Hx 0%nat c); reflexivity|]. apply Fr. intros m c' Hm. apply (Hx (S m) c'). exact Hm. }
    unfold andthen at 1 in E. destruct (get_fails st (pid c) _ j Ag) as [(j1 & Eg)|Eg]; rewrite Eg in E.
    2:{ assert (st' = st) by congruence. subst st'. apply (Stay st (twin_refl st) eq_refl c (shape_refl c) Gc). intros x _. apply same_refl. }
    destruct (negb (is_leaf (cell H (path ++ [b8 (N.of_nat i)]) c)) && dirty (cell H (path ++ [b8 (N.of_nat i)]) c)) eqn:Ed.
    + assert (Hd : forall l, descent c l -> (length l <= fuel)%nat) by (intros l; apply (Hf 0%nat c l eq_refl)).
      destruct (calculate_hash_spec H Hlen fuel n _ c st Gc Hd) as (st1 & E1 & N1 & G1 & S1). pose proof (calc_top fuel n _ c st _ st1 Gc Hd E1) as Top.
      unfold andthen at 1 in E. destruct (sim_cases _ _ st j1 _ st1 (sim_calculate H fuel _ st) E1) as [(j2 & E2)|(s & E2)]; rewrite E2 in E.
      2:{ assert (st' = s) by congruence. subst s. specialize (Hrec 0%nat c st j1 StorageAccessFailed st' (Some 0) eq_refl). rewrite Nat.add_0_r in Hrec. destruct (Hrec Gc E2) as (st2 & c2 & T & N2 & G2 & Sh & Fr).
          exact (Stay st2 T N2 c2 Sh G2 Fr). }
      unfold andthen at 1 in E. destruct (set_fails (pid c) (cell H (path ++ [b8 (N.of_nat i)]) (cl c)) st1 j2) as [(j3 & E3)|[_ E3]]; rewrite E3 in E.
      * apply (Rest (set_node (pid c) (cell H (path ++ [b8 (N.of_nat i)]) (cl c)) st1) j3 N1 G1); [|exact E].
        intros x Hx. eapply same_trans; [apply S1; exact Hx|]. apply set_same. intros ->. apply Hx. apply own_pid.
      * assert (Es : st' = mkStore (storage st1) (upd (cache st1) (pid c) (Some (cell H (path ++ [b8 (N.of_nat i)]) (cl c)))) (next_node_id st1)) by congruence. subst st'.
        apply (Stay (set_node (pid c) (cell H (path ++ [b8 (N.of_nat i)]) (cl c)) st1)) with (c2 := cl c).
        -- apply half_set.
           ++ pose proof (good_agree _ _ _ _ _ G1) as (_ & _ & O). exact O.
           ++ eexists. eapply same_view; [exact Top|]. apply agree_view. exact Ag.
        -- exact N1.
        -- exact (shape_cl _ _ _ _ Gc).
        -- exact G1.
        -- intros x Hx. eapply same_trans; [apply S1; exact Hx|]. apply set_same. intros ->. apply Hx. apply own_pid.
    + assert (Ec : cl c = c).
      { apply (clean_cl H _ _ _ _ Gc). destruct c as [id s|id d cs]; [exact Logic.I|]. cbn in Ed. destruct d; [discriminate|reflexivity]. }
      apply (Rest st j1 eq_refl); [rewrite Ec; exact Gc|intros x _; apply same_refl|exact E].
  - destruct (IH (S i) st j e st' k') as (st2 & r2 & T & N2 & Sh & G2 & Fr).
    + intros m c' st0 j0 e0 s0 k0 Hm. replace (S i + m)%nat with (i + S m)%nat by lia. apply (Hrec (S m) c'). exact Hm.
    + intros m c' l Hm. apply (Hf (S m)). exact Hm.
    + intros m c' Hm. replace (S i + m)%nat with (i + S m)%nat by lia. exact (Hg (S m) c' Hm).
    + intros m1 m2 c1 c2 x A B O1 O2. specialize (Hdj (S m1) (S m2) c1 c2 x A B O1 O2). lia.
    + exact E.
    + exists st2, (None :: r2). split; [exact T|]. split; [exact N2|]. split; [constructor; [exact Logic.I|exact Sh]|]. split.
      * intros [|m] c0 Hm; [discriminate Hm|]. replace (i + S m)%nat with (S i + m)%nat by lia. apply G2. exact Hm.
      * intros x Hx. apply Fr. intros m c' Hm. apply (Hx (S m) c'). exact Hm.
Qed.
Lemma shapes_cl n path : forall r i st, (forall m c, has r m c -> good H st n (path ++ [b8 (N.of_nat (i + m))]) c) -> shapes r (map clo r).
Proof.
  induction r as [|[c|] r IH]; intros i st G; cbn [map clo]; constructor; try exact Logic.I.
  - exact (shape_cl _ _ _ _ (G 0%nat c eq_refl)).
  - apply (IH (S i) st). intros m c' Hm. replace (S i + m)%nat with (i + S m)%nat by lia. exact (G (S m) c' Hm).
  - apply (IH (S i) st). intros m c' Hm. replace (S i + m)%nat with (i + S m)%nat by lia. exact (G (S m) c' Hm).
Qed.
Lemma calculate_fail : forall fuel n path t st j e st' k', good H st n path t -> (forall l, descent t l -> (length l <= fuel)%nat) ->
  f_calculate_hash H fuel (cell H path t) st (Some j) = (Err e, st', k') -> left n path t st st'.
Proof.
  induction fuel as [|fuel IHn]; intros n path t st j e st' k' G Hf E; [discriminate|].
  inversion G as [n' p id s Hl Ha|n' p id d cs Hl Ha Hc Hid Hdj H2 Hcl]; subst; [discriminate|].
  cbn [f_calculate_hash cell children dirty] in E. destruct d; cbn [negb] in E; [|discriminate].
  assert (Hd : forall m c l, has cs m c -> descent c l -> (length l <= fuel)%nat).
  { intros m c l Hm Dl. pose proof (Hf _ (descent_child id true cs m c l Hm Dl)) as X. cbn [length] in X. lia. }
  destruct (hash_children_spec H (calculate_hash H fuel) n' path cs 0 st) as (st1 & E1 & N1 & G1 & S1).
  { intros m c st0 Hm Gc. apply calculate_hash_spec; [exact Hlen|exact Gc|]. intros l Dl. exact (Hd m c l Hm Dl). }
  { exact Hc. }
  { exact Hdj. }
  assert (Out : forall st2 cs2, twin st' st2 -> next_node_id st2 = next_node_id st -> shapes cs cs2 -> (forall m c2, has cs2 m c2 -> good H st2 n' (path ++ [b8 (N.of_nat m)]) c2) ->
    (forall x, (forall m c, has cs m c -> ~ own c x) -> same_at st st2 x) -> left (S n') path (PNode id true cs) st st').
  { intros st2 cs2 T Nx Sh Gc Fr. exists st2, (PNode id true cs2). split; [exact T|]. split; [exact Nx|]. split; [exact (left_node n' path id cs st st2 cs2 G Sh Nx Gc Fr)|].
    split; [exact (shapes_node id true true cs cs2 Sh)|]. intros x Hx. apply Fr. intros m c Hm Ho. apply Hx. econstructor; eassumption. }
  unfold andthen at 1 in E.
  pose proof (sim_hash_children _ _ (sim_calculate H fuel) (map (option_map pid) cs) st) as Sm. cbv beta in Sm. rewrite E1 in Sm. cbn [with_tt bind] in Sm.
  destruct (sim_cases _ _ st j tt st1 Sm eq_refl) as [(j1 & E2)|(s & E2)]; rewrite E2 in E.
  - unfold andthen in E. pose proof (loads_accumulate (map (option_map pid) cs) 0 st1 (Some j1)) as La. destruct (f_accumulate 0 (map (option_map pid) cs) st1 (Some j1)) as [[[acc|e1|] s1] k1]; cbn [fst snd] in La; try discriminate.
    assert (s1 = st') by congruence. subst s1. apply (Out st1 (map clo cs)).
    + apply twin_sym. exact La.
    + exact N1.
    + exact (shapes_cl n' path cs 0 st Hc).
    + intros m c2 Hm. apply has_cl in Hm as (c0 & Hm & ->). exact (G1 m c0 Hm).
    + exact S1.
  - assert (s = st') by congruence. subst s.
    destruct (children_fail fuel n' path cs 0 st j StorageAccessFailed st' (Some 0)) as (st2 & r2 & T & N2 & Sh & G2 & Fr).
    + intros m c st0 j0 e0 s0 k0 Hm Gc E0. exact (IHn n' _ c st0 j0 e0 s0 k0 Gc (fun l => Hd m c l Hm) E0).
    + exact Hd.
    + exact Hc.
    + exact Hdj.
    + exact E2.
    + exact (Out st2 r2 T N2 Sh G2 Fr).
Qed.
End Hash.

(** ** Failing calls *)
Lemma f_step_twins H m o t t' k : twins t t' -> o = RootHash \/ (exists d, o = Add d \/ o = Delete d) ->
  forall e s j, f_call H m o t (tstore t) k = (Err e, s, j) -> o = RootHash -> exists s', f_call H m o t' (tstore t') k = (Err e, s', j) /\ twin s s'.
Proof.
  intros (Er & El & T) _ e s j E ->. unfold f_call in *. rewrite <- Er, <- El. destruct T as [A B]. rewrite <- B.
  destruct (root t) as [r|]; [|discriminate].
  assert (R : resp (do r0 <- f_get r; do r1 <- f_calculate_hash H (S (N.to_nat (element_length t) + N.to_nat (next_node_id (tstore t)))) r0; do _ <- f_set r r1; ret (RHash (H ((if is_leaf r1 then x00 else x01) :: nhash r1)), Some r, element_length t))).
  { apply resp_bind; [apply resp_get|]. intros x. apply resp_bind; [apply resp_calculate|]. intros y. apply resp_bind; [apply resp_set|]. intros _. apply resp_ret. }
  specialize (R (tstore t) (tstore t') k (conj A B)). rewrite E in R.
  match goal with |- context [andthen ?a ?b (tstore t') k] => destruct (andthen a b (tstore t') k) as [[o' s'] j'] end.
  destruct R as (<- & <- & X). exists s'. split; [reflexivity|exact X].
Qed.
Lemma hash_fail H (Hlen : hash32 H) m n L t S j e s k : stands H n L t S -> f_call H m RootHash t (tstore t) (Some j) = (Err e, s, k) ->
  exists t0, twins (mkTrie (root t) s (element_length t)) t0 /\ stands H n L t0 S /\ next_node_id (tstore t0) = next_node_id (tstore t).
Proof.
  intros R E. unfold f_call in E. unfold stands in R. destruct (root t) as [r|] eqn:Er; [|discriminate].
  destruct R as (pt & <- & G & Hm & Ho & Hb & Hel).
  assert (Hf : forall l, descent pt l -> (length l <= Datatypes.S (N.to_nat (element_length t) + N.to_nat (next_node_id (tstore t))))%nat).
  { intros l Dl. pose proof (descent_short _ _ _ _ _ _ G Hb Dl). lia. }
  assert (Out : forall st2 c2, twin s st2 -> next_node_id st2 = next_node_id (tstore t) -> good H st2 n [] c2 -> shape pt c2 -> (forall x, ~ own pt x -> same_at (tstore t) st2 x) ->
    exists t0, twins (mkTrie (Some (pid pt)) s (element_length t)) t0 /\ stands H n L t0 S /\ next_node_id (tstore t0) = next_node_id (tstore t)).
  { intros st2 c2 T Nx G2 (P & M & O) Fr. exists (mkTrie (Some (pid pt)) st2 (element_length t)). split; [split; [reflexivity|split; [reflexivity|exact T]]|]. split; [|exact Nx].
    unfold stands. cbn [root tstore element_length]. exists c2. split; [exact P|]. split; [exact G2|]. split; [intros k0; rewrite M; apply Hm|]. split; [|split; [|exact Hel]].
    - intros x. rewrite O. split.
      + intros Hx. destruct (storage (tstore t) x) eqn:Es; [apply Ho; congruence|]. exfalso. assert (Nx' : ~ own pt x) by (intros Q; apply Ho in Q; congruence). destruct (Fr x Nx') as [_ E2]. congruence.
      + intros Hx. apply O in Hx. eapply own_stored; [exact G2|exact Hx].
    - intros x Hx. apply O in Hx. rewrite Nx. apply Hb. exact Hx. }
  unfold andthen at 1 in E. destruct (get_fails (tstore t) (pid pt) _ j (good_agree _ _ _ _ _ G)) as [(j1 & Eg)|Eg]; rewrite Eg in E.
  2:{ assert (s = tstore t) by congruence. subst s. apply (Out (tstore t) pt (twin_refl _) eq_refl G (shape_refl pt)). intros x _. apply same_refl. }
  unfold andthen at 1 in E. destruct (calculate_hash_spec H Hlen _ n [] pt (tstore t) G Hf) as (st1 & E1 & N1 & G1 & S1). pose proof (calc_top H Hlen _ n [] pt (tstore t) _ st1 G Hf E1) as Top.
  destruct (sim_cases _ _ (tstore t) j1 _ st1 (sim_calculate H _ _ (tstore t)) E1) as [(j2 & E2)|(s0 & E2)]; rewrite E2 in E.
  2:{ assert (s0 = s) by congruence. subst s0. destruct (calculate_fail H Hlen _ n [] pt (tstore t) j1 _ s _ G Hf E2) as (st2 & c2 & T & N2 & G2 & Sh & Fr). exact (Out st2 c2 T N2 G2 Sh Fr). }
  unfold andthen at 1 in E. destruct (set_fails (pid pt) (cell H [] (cl pt)) st1 j2) as [(j3 & E3)|[_ E3]]; rewrite E3 in E; [discriminate|].
  assert (Es : s = mkStore (storage st1) (upd (cache st1) (pid pt) (Some (cell H [] (cl pt)))) (next_node_id st1)) by congruence. subst s.
  apply (Out (set_node (pid pt) (cell H [] (cl pt)) st1) (cl pt)).
  - apply half_set.
    + pose proof (good_agree _ _ _ _ _ G1) as (_ & _ & Ok0). exact Ok0.
    + eexists. eapply same_view; [exact Top|]. apply agree_view. exact (good_agree _ _ _ _ _ G).
  - exact N1.
  - exact G1.
  - exact (shape_cl H _ _ _ _ G).
  - intros x Hx. eapply same_trans; [apply S1; exact Hx|]. apply set_same. intros ->. apply Hx. apply own_pid.
Qed.
Lemma sim_ok_back {A} (a : act A) o st k x s k' : sim_at a o st -> a st k = (Ok x, s, k') -> o = Ok (x, s).
Proof.
  intros (n & S1 & S2) E. assert (Sp : spared n k).
  { destruct k as [j|]; cbn; [|exact Logic.I]. destruct (Nat.lt_ge_cases j n) as [Q|Q]; [|exact Q]. destruct (S2 j Q) as (s0 & E0). congruence. }
  specialize (S1 k Sp). destruct o as [[y sy]|e|]; [|destruct S1 as (s0 & E0); congruence..]. congruence.
Qed.
(** A failing call that would have answered [false]. *)
Lemma lookup_fail H m o t k e s j t' : step H m o t = Ok (RBool false, t') -> f_call H m o t (tstore t) k = (Err e, s, j) -> twin (tstore t) s.
Proof.
  intros St E. destruct o as [d|d|]; cbn [step] in St.
  - unfold f_call in E. unfold add in St. destruct (root t) as [r|].
    2:{ destruct (allocate_new_node m (tstore t)) as [[[? ?] ?]|?|]; cbn [bind] in St; discriminate. }
    unfold andthen at 1 in E. pose proof (loads_get r (tstore t) k) as L1. destruct (f_get r (tstore t) k) as [[[p|e1|] s1] k1] eqn:E1; cbn [fst snd] in L1.
    + pose proof (sim_ok_back _ _ _ _ _ _ _ (sim_get r (tstore t)) E1) as G. rewrite G in St. cbn [bind] in St.
      unfold andthen at 1 in E. pose proof (loads_find d p s1 k1) as L2. destruct (f_find d p s1 k1) as [[[b|e2|] s2] k2] eqn:E2; cbn [fst snd] in L2.
      * pose proof (sim_ok_back _ _ _ _ _ _ _ (sim_find d p s1) E2) as F. rewrite F in St. cbn [bind] in St. destruct b; [discriminate|].
        destruct (node_add m d [] p s2) as [[? ?]|?|]; cbn [bind] in St; discriminate.
      * assert (s2 = s) by congruence. subst s2. eapply twin_trans; eassumption.
      * discriminate.
    + assert (s1 = s) by congruence. subst s1. exact L1.
    + discriminate.
  - unfold f_call in E. unfold delete in St. destruct (root t) as [r|]; [|discriminate]. destruct (negb (_ =? _)%N); [discriminate|].
    unfold andthen at 1 in E. pose proof (loads_get r (tstore t) k) as L1. destruct (f_get r (tstore t) k) as [[[p|e1|] s1] k1] eqn:E1; cbn [fst snd] in L1.
    + pose proof (sim_ok_back _ _ _ _ _ _ _ (sim_get r (tstore t)) E1) as G. rewrite G in St. cbn [bind] in St.
      unfold andthen at 1 in E. pose proof (loads_find d p s1 k1) as L2. destruct (f_find d p s1 k1) as [[[b|e2|] s2] k2] eqn:E2; cbn [fst snd] in L2.
      * pose proof (sim_ok_back _ _ _ _ _ _ _ (sim_find d p s1) E2) as F. rewrite F in St. cbn [bind] in St. destruct b; cbn [negb] in *; [|discriminate].
        destruct (is_leaf p); cbn [bind] in St; [discriminate|]. destruct (node_remove d [] p s2) as [[? ?]|?|]; cbn [bind] in St; discriminate.
      * assert (s2 = s) by congruence. subst s2. eapply twin_trans; eassumption.
      * discriminate.
    + assert (s1 = s) by congruence. subst s1. exact L1.
    + discriminate.
  - destruct (root_hash H t) as [[? ?]|?|]; cbn [bind] in St; discriminate.
Qed.
Lemma twins_trans a b c : twins a b -> twins b c -> twins a c.
Proof. intros (A & B & C) (D & E & F). split; [congruence|]. split; [congruence|]. eapply twin_trans; eassumption. Qed.
Lemma twins_sym a b : twins a b -> twins b a.
Proof. intros (A & B & C). split; [congruence|]. split; [congruence|]. apply twin_sym. exact C. Qed.
Lemma ref_false H S L o s : ref_step H S L o = Ok (RBool false, s) -> s = (S, L).
Proof.
  destruct o as [k|k|]; cbn [ref_step].
  - unfold ref_add. destruct (is_member k S); [cbn; congruence|]. destruct S; [discriminate|]. destruct (existsb _ _); discriminate.
  - unfold ref_delete. destruct S; [cbn; congruence|]. destruct (negb _); [discriminate|]. destruct (is_member _ _); [discriminate|]. destruct (2 <=? _)%nat; cbn; congruence.
  - discriminate.
Qed.
Lemma keeps_gen H (Hlen : hash32 H) m n calls : forall t t0 S L, twins t t0 -> stands H n L t0 S -> NoDup S -> prefix_free S -> Forall (key_upto n) (map fst calls) -> (N.of_nat n < 2 ^ 32)%N ->
  (next_node_id (tstore t0) + N.of_nat (length calls) * (N.of_nat n + 3) < two64)%N -> only_harmless H S L calls -> answered H S L calls (fst (f_run H m calls t)).
Proof.
  induction calls as [|[o k] calls IH]; intros t t0 S L Tw R Hn Hp Hk Hb Hc Oh; cbn [f_run]; [constructor|].
  cbn [map fst] in Hk. pose proof (Forall_inv Hk) as Ho. apply Forall_inv_tail in Hk. cbn [length] in Hc. assert (Hc1 : (next_node_id (tstore t0) + N.of_nat n + 3 < two64)%N) by lia.
  pose proof (step_gen H Hlen m n o t0 S L R Hn Ho Hb Hc1) as St. pose proof (step_twins H m o t t0 Tw) as SS.
  destruct (reported_lemma H m o t) as (a & A1 & A2). destruct Oh as [Hh Oh].
  assert (D : spared a k \/ exists j, k = Some j /\ (j < a)%nat).
  { destruct k as [j|]; [|left; exact Logic.I]. destruct (Nat.lt_ge_cases j a); [right; eauto|left; assumption]. }
  destruct D as [Sp|(j & -> & Lj)].
  - specialize (A1 k Sp). unfold unharmed in A1. destruct (ref_step H S L o) as [[x [S' L']]|e|] eqn:Es.
    + destruct St as (t1 & E & R' & B). rewrite E in SS. destruct (step H m o t) as [[x1 t2]|e|]; cbn [same_trie] in SS; try contradiction. destruct SS as [-> Tw'].
      rewrite A1. destruct (ref_step_nodup H S L o x S' L' Hn Hp Es) as [Hn' Hp'].
      assert (X : answered H S' L' calls (fst (f_run H m calls t2))) by (apply (IH t2 t1); try assumption; lia).
      destruct (f_run H m calls t2) as [xs t'']. cbn [fst] in *. econstructor; eassumption.
    + rewrite St in SS. destruct (step H m o t) as [[x1 t2]|e1|] eqn:E1; cbn [same_trie] in SS; try contradiction. subst e1. pose proof (ref_err H S L o e Es). subst e.
      assert (X : f_step H m o t k = (Err (Other ElementLengthMismatch), t)).
      { destruct o as [d|d|]; cbn [ref_step] in Es; [unfold ref_add in Es; destruct (is_member d S); [discriminate|]; destruct S; [discriminate|]; destruct (existsb _ _); discriminate| |discriminate].
        cbn [step] in E1. unfold delete in E1. unfold f_step, f_call. destruct (root t) as [r|] eqn:Rt; [|discriminate].
        destruct (negb (N.of_nat (length d) =? element_length t)%N) eqn:Ne; [unfold plain; rewrite <- Rt; destruct t; reflexivity|].
        exfalso.
        clear - St Es R Ne Tw Rt. cbn [step] in St. unfold ref_delete in Es. destruct S as [|y S0]; [discriminate|]. set (T := y :: S0) in *. clearbody T.
        unfold stands in R. destruct Tw as (Tr & Te & _). rewrite <- Tr, Rt in R. destruct R as (pt & _ & _ & _ & _ & _ & Hel). rewrite Te, Hel in Ne.
        destruct (negb (length d =? L)%nat) eqn:Q; [|destruct (is_member d T); [discriminate|]; destruct (2 <=? _)%nat; discriminate].
        apply negb_true_iff in Q. apply Nat.eqb_neq in Q. apply negb_false_iff in Ne. apply N.eqb_eq in Ne. lia. }
      rewrite X. assert (Y : answered H S L calls (fst (f_run H m calls t))) by (apply (IH t t0); try assumption; lia).
      destruct (f_run H m calls t) as [xs t'']. cbn [fst] in *. constructor; assumption.
    + rewrite St in SS. destruct (step H m o t) as [[x1 t2]|e1|]; cbn [same_trie] in SS; try contradiction.
      destruct (f_step H m o t k) as [o1 t3]. cbn [fst] in A1. subst o1. constructor. exact Es.
  - destruct Hh as [Z|Hh]; [discriminate|].
    assert (Rn : forall d, ~ (o = Add d /\ root t = None)).
    { intros d [-> Rt]. destruct Hh as [Z|(s & Z)]; [discriminate|]. destruct Tw as (Tr & _). unfold stands in R. rewrite <- Tr, Rt in R. destruct R as [-> _]. cbn in Z. discriminate. }
    assert (Fe : exists s k1, f_call H m o t (tstore t) (Some j) = (Err StorageAccessFailed, s, k1)).
    { specialize (A2 j Lj). unfold f_step in A2. destruct (f_call H m o t (tstore t) (Some j)) as [[[[[x r] l]|e|] s] k1] eqn:F; cbn [fst] in A2.
      - destruct A2 as [Z|[Z _]]; discriminate.
      - destruct A2 as [Z|[Z _]]; [|discriminate]. assert (e = StorageAccessFailed) by congruence. subst e. eauto.
      - destruct A2 as [Z|[_ Rt]]; [discriminate|]. exfalso. destruct o as [d|d|]; [apply (Rn d); auto|..]; unfold f_call in F; rewrite Rt in F; discriminate. }
    destruct Fe as (s & k1 & Fe).
    assert (Fs : f_step H m o t (Some j) = (Err StorageAccessFailed, mkTrie (root t) s (element_length t))) by (unfold f_step; rewrite Fe; reflexivity).
    rewrite Fs.
    assert (Next : exists t1, twins (mkTrie (root t) s (element_length t)) t1 /\ stands H n L t1 S /\ (next_node_id (tstore t1) <= next_node_id (tstore t0) + N.of_nat n + 3)%N).
    { destruct Hh as [-> |(s1 & Z)].
      - destruct (f_step_twins H m RootHash t t0 (Some j) Tw (or_introl eq_refl) _ _ _ Fe eq_refl) as (s' & Fe' & T').
        destruct (hash_fail H Hlen m n L t0 S j _ s' _ R Fe') as (t1 & Q1 & Q2 & Q3). exists t1. split; [|split; [exact Q2|lia]].
        eapply twins_trans; [|exact Q1]. destruct Tw as (Tr & Te & _). split; [exact Tr|]. split; [exact Te|exact T'].
      - rewrite Z in St. pose proof (ref_false _ _ _ _ _ Z). subst s1. destruct St as (t1 & E & _). rewrite E in SS. destruct (step H m o t) as [[x1 t2]|e1|] eqn:E1; cbn [same_trie] in SS; try contradiction. destruct SS as [-> _].
        pose proof (lookup_fail H m o t _ _ _ _ _ E1 Fe) as T'. exists t0. split; [|split; [exact R|lia]].
        eapply twins_trans; [|exact Tw]. split; [reflexivity|]. split; [reflexivity|]. apply twin_sym. exact T'. }
    destruct Next as (t1 & Q1 & Q2 & Q3).
    assert (Oh' : only_harmless H S L calls).
    { destruct Hh as [-> |(s1 & Z)]; [exact Oh|]. rewrite Z in Oh. pose proof (ref_false _ _ _ _ _ Z). subst s1. exact Oh. }
    assert (X : answered H S L calls (fst (f_run H m calls (mkTrie (root t) s (element_length t))))) by (apply (IH _ t1); try assumption; lia).
    destruct (f_run H m calls (mkTrie (root t) s (element_length t))) as [xs t'']. cbn [fst] in *. apply fault. exact X.
Qed.
Lemma keeps_lemma H (Hlen : hash32 H) m n calls : Forall (key_upto n) (map fst calls) -> small_history n (map fst calls) -> only_harmless H [] 0 calls ->
  answered H [] 0 calls (fst (f_run H m calls new_trie)).
Proof.
  intros Hk [Hb Hs] Oh. rewrite map_length in Hs. apply (keeps_gen H Hlen m n calls new_trie new_trie [] 0); auto.
  - split; [reflexivity|]. split; [reflexivity|]. apply twin_refl.
  - apply new_stands.
  - constructor.
  - exact free_nil.
Qed.
