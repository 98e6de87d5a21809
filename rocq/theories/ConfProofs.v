(** Reading the configuration files, from their texts on. *)
From Verif Require Import Base BaseFacts ConsensusModel ConfigModel ConfigSpec ConfigProofs JsonModel WordfileSpec WordfileProofs JsonSpec JsonProofs JsonExact FilesModel SettingsModel SettingsSpec SettingsProofs ConfSpec.
Local Open Scope N_scope.

(** ** All texts are UTF-8 *)
Lemma separated_forall {A} (Q : bytes -> A -> Prop) s l : separated Q s l -> Forall (fun a => exists t, (length t <= length s)%nat /\ Q t a) l.
Proof.
  induction 1 as [w s w' a _ H _|w s w' a r l _ H _ S0 IH].
  - constructor; [|constructor]. exists s. split; [rewrite !app_length; lia|exact H].
  - constructor; [exists s; split; [rewrite !app_length; lia|exact H]|]. eapply Forall_impl; [|exact IH]. intros b (t & L & Hb). exists t. split; [rewrite !app_length; cbn [length]; lia|exact Hb].
Qed.
Lemma text_some s t : string_text s (Some t) -> utf8 t = true.
Proof. intros T. inversion T; subst. apply utf8_exact. assumption. Qed.
Lemma json_utf8 n : forall s v, (length s <= n)%nat -> json_text s v -> utf8_json v.
Proof.
  induction n as [|n IH]; intros s v L J; [pose proof (json_opens s v J) as O; destruct s; [destruct O|cbn [length] in L; lia]|].
  destruct J as [| | |s v N0|s t T|s T|w0 B|s l B|w0 B|s m B|s m v B I]; try exact Logic.I.
  - destruct N0; exact Logic.I.
  - exact (text_some _ _ T).
  - apply utf8_arr. apply separated_forall in B. cbn [length] in L. rewrite app_length in L. cbn [length] in L. eapply Forall_impl; [|exact B]. intros a (t & Lt & J). apply (IH t a); [lia|exact J].
  - apply utf8_obj. apply separated_forall in B. cbn [length] in L. rewrite app_length in L. cbn [length] in L. apply Forall_forall. intros [k a] Ia. rewrite Forall_forall in B. destruct (B (Some k, a)) as (t & Lt & M); [apply in_map_iff; exists (k, a); auto|]. cbn [fst snd].
    inversion M as [k0 key w w' s0 v0 T _ _ J]; subst. split; [exact (text_some _ _ T)|]. apply (IH s0 a); [|exact J]. cbn [length] in Lt. rewrite !app_length in Lt. cbn [length] in Lt. rewrite !app_length in Lt. cbn [length] in Lt. rewrite app_length in Lt. lia.
Qed.
Lemma document_utf8 c v : document c v -> utf8_json v.
Proof. intros [w s w' u _ J _]. exact (json_utf8 _ s u (le_n _) J). Qed.

(** ** Fields *)
Lemma assoc_put {A} k k' (a : A) m : assoc k (put k' a m) = if bytes_eqb k k' then Some a else assoc k m.
Proof.
  induction m as [|[k0 a0] m IH]; cbn [put assoc]; [reflexivity|]. destruct (bytes_eqb_reflect k' k0) as [->|N].
  - cbn [assoc]. destruct (bytes_eqb k k0); reflexivity.
  - cbn [assoc]. rewrite IH. destruct (bytes_eqb_reflect k k0) as [->|]; [|reflexivity]. rewrite (proj2 (bytes_eqb_neq k0 k')) by congruence. reflexivity.
Qed.
Lemma values_app {A} k (m1 m2 : list (bytes * A)) : values k (m1 ++ m2) = values k m1 ++ values k m2.
Proof. unfold values. rewrite filter_app, map_app. reflexivity. Qed.
Lemma latest_cons k k' j m v : latest k ((k', j) :: m) v <-> latest k m v \/ (k = k' /\ values k m = [] /\ v = j).
Proof.
  unfold latest. rewrite values_cons. destruct (bytes_eqb_reflect k' k) as [->|N].
  - split.
    + intros [[|x l] E]; [injection E as E1 E2; right; auto|]. injection E as _ E. left. exists l. exact E.
    + intros [[l E]|(_ & E & ->)]; [exists (j :: l); rewrite E; reflexivity|exists []; rewrite E; reflexivity].
  - split; [auto|]. intros [E|(X & _)]; [exact E|congruence].
Qed.
Lemma values_none {A} k (m : list (bytes * A)) : values k m = [] <-> ~ In k (map fst m).
Proof.
  induction m as [|[k' a] m IH]; [cbn; tauto|]. rewrite values_cons. cbn [map fst In]. destruct (bytes_eqb_reflect k' k) as [->|N]; [split; [discriminate|tauto]|]. rewrite IH. tauto.
Qed.
Lemma flags_exact m : forall acc f, NoDup (map fst acc) -> decode_flags m acc = Some f ->
  NoDup (map fst f) /\ (forall k j, In (k, j) m -> exists b, j = JBool b) /\
  forall k b, In (k, b) f <-> latest k m (JBool b) \/ (values k m = [] /\ In (k, b) acc).
Proof.
  induction m as [|[k0 v] m IH]; intros acc f D E; cbn [decode_flags] in E.
  - injection E as <-. split; [exact D|]. split; [intros k j []|]. intros k b. unfold latest. cbn. split; [auto|]. intros [[[|x l] X]|[_ X]]; [discriminate|discriminate|exact X].
  - destruct v as [|b0| | | | |]; try discriminate. destruct (IH _ _ (put_nodup k0 b0 acc D) E) as (A & B & C). split; [exact A|]. split; [intros k j [X|X]; [exists b0; congruence|exact (B k j X)]|].
    intros k b. rewrite C, latest_cons, values_cons.
    assert (P : In (k, b) (put k0 b0 acc) <-> if bytes_eqb k k0 then b = b0 else In (k, b) acc).
    { split.
      - intros I. apply (in_assoc _ _ _ (put_nodup k0 b0 acc D)) in I. rewrite assoc_put in I. destruct (bytes_eqb k k0); [congruence|]. apply assoc_in, I.
      - intros I. apply assoc_in. rewrite assoc_put. destruct (bytes_eqb k k0); [congruence|]. apply in_assoc; assumption. }
    rewrite P. destruct (bytes_eqb_reflect k k0) as [->|N].
    + rewrite bytes_eqb_refl. split.
      * intros [X|[X ->]]; [auto|]. left. right. auto.
      * intros [[X|(_ & X & Y)]|[X _]]; [auto| |discriminate]. right. split; [exact X|congruence].
    + rewrite (proj2 (bytes_eqb_neq k0 k)) by congruence. split; [intros [X|X]; auto|]. intros [[X|(X & _)]|X]; [auto|congruence|auto].
Qed.
Lemma flags_total m : forall acc, (forall k j, In (k, j) m -> exists b, j = JBool b) -> exists f, decode_flags m acc = Some f.
Proof.
  induction m as [|[k v] m IH]; intros acc B; [exists acc; reflexivity|]. destruct (B k v (or_introl eq_refl)) as [b ->]. cbn [decode_flags]. apply IH. intros k' j I. exact (B k' j (or_intror I)).
Qed.
Lemma version_name_inj v w : version_name v = version_name w -> v = w.
Proof. intros E. pose proof (name_back v) as A. rewrite E, name_back in A. congruence. Qed.
Lemma version_of_exact k w : version_of_name k = Some w <-> k = version_name w.
Proof.
  split; [|intros ->; apply name_back]. intros E. unfold version_of_name in E. apply find_some in E. destruct E as [_ E]. apply bytes_eqb_spec in E. congruence.
Qed.
Lemma lookup_insert {A} k k' (a : A) m : lookup k (insert k' a m) = if version_eqb k k' then Some a else lookup k m.
Proof.
  induction m as [|[k0 a0] m IH]; cbn [insert lookup]; [reflexivity|]. destruct (version_eqb k' k0) eqn:E.
  - apply version_eqb_eq in E. subst k0. cbn [lookup]. destruct (version_eqb k k'); reflexivity.
  - cbn [lookup]. rewrite IH. destruct (version_eqb k k0) eqn:F; [|reflexivity]. apply version_eqb_eq in F. subst k0. destruct (version_eqb k k') eqn:G; [|reflexivity].
    apply version_eqb_eq in G. subst k'. rewrite (proj2 (version_eqb_eq k k) eq_refl) in E. discriminate.
Qed.
Lemma lookup_iff {A} k (a : A) m : NoDup (map fst m) -> (lookup k m = Some a <-> In (k, a) m).
Proof.
  induction m as [|[k0 a0] m IH]; intros D; cbn [lookup]; [split; [discriminate|intros []]|]. inversion D as [|? ? D1 D2]; subst. cbn [In]. destruct (version_eqb k k0) eqn:E.
  - apply version_eqb_eq in E. subst k0. split; [intros X; left; congruence|]. intros [X|X]; [congruence|]. exfalso. apply D1. cbn [fst]. apply in_map_iff. exists (k, a). auto.
  - rewrite (IH D2). split; [auto|]. intros [X|X]; [|exact X]. injection X as -> _. rewrite (proj2 (version_eqb_eq k k) eq_refl) in E. discriminate.
Qed.
(** Maps from versions, read one entry after the other; a later one wins. *)
Section Entries.
Context {A : Type} (dec : json -> option A).
Fixpoint entries (m : list (bytes * json)) (acc : list (version * A)) : option (list (version * A)) :=
  match m with
  | [] => Some acc
  | (k, v) :: r => match version_of_name k, dec v with Some w, Some a => entries r (insert w a acc) | _, _ => None end
  end.
Lemma entries_exact m : forall acc f, NoDup (map fst acc) -> entries m acc = Some f ->
  NoDup (map fst f) /\ (forall k j, In (k, j) m -> exists w a, k = version_name w /\ dec j = Some a) /\
  forall w a, In (w, a) f <-> (exists j, latest (version_name w) m j /\ dec j = Some a) \/ (values (version_name w) m = [] /\ In (w, a) acc).
Proof.
  induction m as [|[k0 v] m IH]; intros acc f D E; cbn [entries] in E.
  - injection E as <-. split; [exact D|]. split; [intros k j []|]. intros w a. unfold latest. cbn. split; [auto|]. intros [(j & [[|x l] X] & _)|[_ X]]; [discriminate|discriminate|exact X].
  - destruct (version_of_name k0) as [w0|] eqn:V; [|discriminate]. apply version_of_exact in V. subst k0. destruct (dec v) as [a0|] eqn:Dv; [|discriminate].
    destruct (IH _ _ (insert_nodup w0 a0 acc D) E) as (X & B & C). split; [exact X|]. split; [intros k j [Y|Y]; [exists w0, a0; split; congruence|exact (B k j Y)]|].
    intros w a. rewrite C, values_cons.
    assert (P : In (w, a) (insert w0 a0 acc) <-> if version_eqb w w0 then a = a0 else In (w, a) acc).
    { rewrite <- (lookup_iff w a _ (insert_nodup w0 a0 acc D)), lookup_insert. destruct (version_eqb w w0); [split; congruence|]. apply lookup_iff, D. }
    rewrite P. destruct (version_eqb w w0) eqn:G.
    + apply version_eqb_eq in G. subst w0. rewrite bytes_eqb_refl. split.
      * intros [(j & Y & Z)|[Y ->]]; left; [exists j; split; [apply latest_cons; auto|exact Z]|]. exists v. split; [apply latest_cons; auto|exact Dv].
      * intros [(j & Y & Z)|[Y _]]; [|discriminate]. apply latest_cons in Y. destruct Y as [Y|(_ & Y & ->)]; [left; exists j; auto|]. right. split; [exact Y|congruence].
    + assert (N : version_name w0 <> version_name w) by (intros Y; apply version_name_inj in Y; subst w0; rewrite (proj2 (version_eqb_eq w w) eq_refl) in G; discriminate).
      rewrite (proj2 (bytes_eqb_neq _ _) N). split.
      * intros [(j & Y & Z)|Y]; [left; exists j; split; [apply latest_cons; auto|exact Z]|auto].
      * intros [(j & Y & Z)|Y]; [|auto]. apply latest_cons in Y. destruct Y as [Y|(Y & _)]; [left; exists j; auto|]. congruence.
Qed.
Lemma entries_total m : forall acc, (forall k j, In (k, j) m -> exists w a, k = version_name w /\ dec j = Some a) -> exists f, entries m acc = Some f.
Proof.
  induction m as [|[k v] m IH]; intros acc B; [exists acc; reflexivity|]. destruct (B k v (or_introl eq_refl)) as (w & a & -> & Dv). cbn [entries]. rewrite name_back, Dv. apply IH. intros k' j I. exact (B k' j (or_intror I)).
Qed.
End Entries.
Definition upgrade_round (v : json) : option N := option_map Z.to_N (int_between 0 (2 ^ 64 - 1) v).
Lemma upgrades_entries m : forall acc, decode_upgrades m acc = entries upgrade_round m acc.
Proof.
  induction m as [|[k v] m IH]; intros acc; [reflexivity|]. cbn [decode_upgrades entries]. unfold upgrade_round. destruct (version_of_name k); [|reflexivity]. destruct (int_between _ _ v); [|reflexivity]. cbn [option_map]. apply IH.
Qed.
Lemma round_exact v n : upgrade_round v = Some n <-> v = JInt (Z.of_N n) /\ n < 2 ^ 64.
Proof.
  unfold upgrade_round. split.
  - destruct (int_between _ _ v) as [z|] eqn:B; [|discriminate]. apply between_iff in B. destruct B as [-> B]. cbn [option_map]. intros E. assert (Z.to_N z = n) as <- by congruence. split; [f_equal; lia|lia].
  - intros [-> L]. rewrite (between_ok 0 (2 ^ 64 - 1) (Z.of_N n)) by lia. cbn [option_map]. f_equal. lia.
Qed.
Lemma commit_exact v c : decode_commit v = Some c <-> v = JStr (commit_name c) \/ v = JObj [(commit_name c, JNull)].
Proof.
  assert (N : forall n c, commit_of_name n = Some c <-> n = commit_name c).
  { intros n c0. unfold commit_of_name. split; [intros E; apply find_some in E; destruct E as [_ E]; apply bytes_eqb_spec in E; congruence|]. intros ->. destruct c0; reflexivity. }
  unfold decode_commit. split.
  - destruct v as [| | | |s| |m]; try discriminate; [intros E; apply N in E; left; congruence|]. destruct m as [|[k [| | | | | |]] [|e m]]; try discriminate. intros E. apply N in E. right. congruence.
  - intros [-> | ->]; apply N; reflexivity.
Qed.
Lemma int_field lo hi v x : option_map FInt (int_between lo (hi - 1) v) = Some x <-> integer lo hi v x.
Proof.
  unfold integer. split.
  - destruct (int_between _ _ v) as [z|] eqn:B; [|discriminate]. apply between_iff in B. destruct B as [-> B]. cbn [option_map]. intros E. assert (FInt z = x) as <- by congruence. exists z. repeat split; lia.
  - intros (z & -> & -> & B). rewrite (between_ok lo (hi - 1) z) by lia. reflexivity.
Qed.
Lemma field_sound t v x : decode_field t v = Some x -> stands_for t v x.
Proof.
  destruct t; cbn [decode_field stands_for].
  - destruct v; try discriminate. intros E. exists b. split; [reflexivity|congruence].
  - apply (int_field 0 (2 ^ 32)).
  - apply (int_field 0 (2 ^ 64)).
  - apply (int_field (- 2 ^ 31) (2 ^ 31)).
  - apply (int_field (- 2 ^ 63) (2 ^ 63)).
  - destruct v; try discriminate. intros E. exists s. split; [reflexivity|congruence].
  - destruct (decode_duration v) as [n|] eqn:D; [|discriminate]. cbn [option_map]. intros E. assert (FDur n = x) as <- by congruence. apply duration_iff in D as (s & k & A & B & C & -> & J). exists s, k. auto.
  - destruct v as [| | | | | |m]; try discriminate. destruct (decode_flags m []) as [f|] eqn:D; [|discriminate]. cbn [option_map]. intros E. assert (FFlags f = x) as <- by congruence.
    destruct (flags_exact m [] f (NoDup_nil _) D) as (A & B & C). exists m, f. repeat split; try assumption; intros X; [apply C in X; destruct X as [X|[_ []]]; exact X|apply C; auto].
  - destruct v as [| | | | | |m]; try discriminate. rewrite upgrades_entries. destruct (entries upgrade_round m []) as [f|] eqn:D; [|discriminate]. cbn [option_map]. intros E. assert (FUpgrades f = x) as <- by congruence.
    destruct (entries_exact upgrade_round m [] f (NoDup_nil _) D) as (A & B & C). exists m, f. repeat split; try assumption.
    + intros k j I. destruct (B k j I) as (w & n & -> & R). apply round_exact in R. exists w, n. tauto.
    + intros X. apply C in X. destruct X as [(j & L & R)|[_ []]]. apply round_exact in R. destruct R as [-> _]. exact L.
    + intros X. apply C. left. exists (JInt (Z.of_N n)). split; [exact X|]. apply round_exact. split; [reflexivity|]. destruct X as [l X].
      assert (I : In (JInt (Z.of_N n)) (values (version_name w) m)) by (rewrite X; apply in_or_app; right; left; reflexivity).
      unfold values in I. apply in_map_iff in I. destruct I as ([k j] & Ej & I). apply filter_In in I. destruct I as [I _]. cbn [snd] in Ej. subst j. destruct (B _ _ I) as (w' & n' & _ & R). apply round_exact in R. destruct R as [R L]. injection R as R. apply N2Z.inj in R. subst n'. exact L.
  - destruct (decode_commit v) as [c|] eqn:D; [|discriminate]. cbn [option_map]. intros E. assert (FCommit c = x) as <- by congruence. exists c. split; [reflexivity|]. apply commit_exact, D.
Qed.
Lemma field_total t v x : stands_for t v x -> exists x', decode_field t v = Some x'.
Proof.
  destruct t; cbn [decode_field stands_for].
  - intros (b & -> & ->). eauto.
  - intros I. apply (int_field 0 (2 ^ 32)) in I. eauto.
  - intros I. apply (int_field 0 (2 ^ 64)) in I. eauto.
  - intros I. apply (int_field (- 2 ^ 31) (2 ^ 31)) in I. eauto.
  - intros I. apply (int_field (- 2 ^ 63) (2 ^ 63)) in I. eauto.
  - intros (s & -> & ->). eauto.
  - intros (s & k & A & B & C & J & ->). assert (D : decode_duration v = Some (s * 1000000000 + k)) by (apply duration_iff; exists s, k; auto). rewrite D. eexists. reflexivity.
  - intros (m & f & -> & -> & _ & B & _). destruct (flags_total m [] B) as [f' ->]. eexists. reflexivity.
  - intros (m & f & -> & -> & _ & B & _). rewrite upgrades_entries. destruct (entries_total upgrade_round m []) as [f' ->]; [|eexists; reflexivity].
    intros k j I. destruct (B k j I) as (w & n & -> & -> & L). exists w, n. split; [reflexivity|]. apply round_exact. auto.
  - intros (c & -> & D). apply commit_exact in D. rewrite D. eexists. reflexivity.
Qed.

(** ** Structures *)
Definition in_order {T V} (R : T -> json -> V -> Prop) (table : list (bytes * T)) (l : list json) (s : list (bytes * V)) : Prop :=
  length l = length table /\ forall i n t j x, nth_error table i = Some (n, t) -> nth_error l i = Some j -> nth_error s i = Some (n, x) -> R t j x.
Lemma seq_sound {T V} (dec : T -> json -> option V) table : forall l s, visit_seq dec table l = Some s ->
  map fst s = map fst table /\ in_order (fun t j x => dec t j = Some x) table l s.
Proof.
  unfold in_order. induction table as [|[n t] r IH]; intros [|v l] s; cbn [visit_seq]; try discriminate.
  - intros [= <-]. repeat split. intros [|i] ? ? ? ?; discriminate.
  - destruct (dec t v) as [x|] eqn:D; [|discriminate]. destruct (visit_seq dec r l) as [o|] eqn:E; [|discriminate]. intros [= <-]. destruct (IH _ _ E) as (A & B & C). cbn [map fst length]. split; [congruence|]. split; [congruence|].
    intros [|i] n0 t0 j0 x0; cbn [nth_error]; [congruence|apply C].
Qed.
Lemma seq_total {T V} (dec : T -> json -> option V) table : forall l, length l = length table ->
  (forall i n t j, nth_error table i = Some (n, t) -> nth_error l i = Some j -> exists x, dec t j = Some x) -> exists s, visit_seq dec table l = Some s.
Proof.
  induction table as [|[n t] r IH]; intros [|v l] L F; try discriminate L; [exists []; reflexivity|]. cbn [visit_seq]. destruct (F O n t v eq_refl eq_refl) as [x ->].
  destruct (IH l ltac:(cbn [length] in L; lia) (fun i => F (S i))) as [s ->]. eexists. reflexivity.
Qed.
Lemma names_nth {A B} (s : list (bytes * A)) (table : list (bytes * B)) i n t : map fst s = map fst table -> nth_error table i = Some (n, t) -> exists x, nth_error s i = Some (n, x).
Proof.
  intros E H. assert (X : nth_error (map fst s) i = Some n) by (rewrite E, nth_error_map, H; reflexivity). rewrite nth_error_map in X. destruct (nth_error s i) as [[n' x]|]; [|discriminate]. cbn in X. injection X as ->. eauto.
Qed.
Lemma struct_sound table v s : NoDup (map fst table) -> decode_struct decode_field false table v = Some s -> settings_by table v s.
Proof.
  intros D E. destruct v as [| | | | |l|m]; try discriminate E.
  - cbn [decode_struct] in E. destruct (seq_sound _ _ _ _ E) as (A & B & C). split; [exact A|]. right. exists l. split; [reflexivity|]. split; [exact B|]. intros i n t j x H1 H2 H3. apply field_sound, (C i n t j x H1 H2 H3).
  - apply (struct_iff decode_field table m s D) in E. destruct E as [A B]. split; [exact A|]. left. exists m. split; [reflexivity|]. intros n t I. destruct (B n t I) as (j & x & P & Q & R). exists j, x. split; [exact P|]. split; [apply field_sound, Q|exact R].
Qed.
Lemma struct_total table v s : NoDup (map fst table) -> settings_by table v s -> exists s', decode_struct decode_field false table v = Some s'.
Proof.
  intros D [A [(m & -> & B)|(l & -> & L & B)]].
  - cbn [decode_struct].
    assert (F : forall n t, In (n, t) table -> exists j x, values n m = [j] /\ decode_field t j = Some x).
    { intros n t I. destruct (B n t I) as (j & x & P & Q & _). destruct (field_total t j x Q) as [x' Q']. eauto. }
    assert (X : visit_entries decode_field false table m [] <> None).
    { apply visit_total. intros k t Ht. right. destruct (F k t (assoc_in _ _ _ Ht)) as (j & x & P & Q). exists j. split; [exact P|]. split; [congruence|reflexivity]. }
    destruct (visit_entries decode_field false table m []) as [acc|] eqn:Ev; [|congruence].
    destruct (collect table acc) as [s'|] eqn:Ec; [eauto|]. exfalso. revert Ec. apply collect_total. intros n I.
    apply in_map_iff in I. destruct I as ([n' t] & <- & I). cbn [fst]. pose proof (visit_ok _ _ _ _ _ _ Ev n' t (in_assoc _ _ _ D I)) as Z.
    destruct (F n' t I) as (j & x & P & Q). rewrite P in Z. destruct Z as [_ [x' [_ Z]]]. congruence.
  - cbn [decode_struct]. apply seq_total; [exact L|]. intros i n t j H1 H2. destruct (names_nth s table i n t A H1) as [x H3]. exact (field_total t j x (B i n t j x H1 H2 H3)).
Qed.
Lemma well_typed_nth table s : map fst s = map fst table -> (forall i n t x, nth_error table i = Some (n, t) -> nth_error s i = Some (n, x) -> typed t x) -> well_typed table s.
Proof.
  unfold well_typed. revert s. induction table as [|[n t] r IH]; intros [|[n' x] s] E F; try discriminate E; [constructor|]. cbn [map fst] in E. injection E as -> E.
  constructor; [split; [reflexivity|exact (F O n t x eq_refl eq_refl)]|]. apply IH; [exact E|]. intros i. exact (F (S i)).
Qed.
Lemma struct_typed table v s : NoDup (map fst table) -> utf8_json v -> decode_struct decode_field false table v = Some s -> well_typed table s.
Proof.
  intros D U E. destruct v as [| | | | |l|m]; try discriminate E.
  - cbn [decode_struct] in E. destruct (seq_sound _ _ _ _ E) as (A & L & C). apply well_typed_nth; [exact A|]. intros i n t x H1 H2. apply utf8_arr in U.
    destruct (nth_error l i) as [j|] eqn:H3; [|apply nth_error_None in H3; assert (i < length table)%nat by (apply nth_error_Some; congruence); lia].
    apply (field_only t j x); [|exact (C i n t j x H1 H3 H2)]. rewrite Forall_forall in U. apply U. exact (nth_error_In _ _ H3).
  - apply (struct_iff decode_field table m s D) in E. destruct E as [A B]. apply utf8_obj in U. apply well_typed_nth; [exact A|]. intros i n t x H1 H2.
    destruct (B n t (nth_error_In _ _ H1)) as (j & x' & P & Q & R). assert (x' = x) as ->.
    { assert (Ds : NoDup (map fst s)) by (rewrite A; exact D). apply nth_error_In in H2. apply (in_assoc _ _ _ Ds) in H2. apply (in_assoc _ _ _ Ds) in R. congruence. }
    apply (field_only t j x); [|exact Q]. assert (I : In j (values n m)) by (rewrite P; left; reflexivity). unfold values in I. apply in_map_iff in I. destruct I as ([k j'] & Ej & I). apply filter_In in I. destruct I as [I _].
    cbn [snd] in Ej. subst j'. rewrite Forall_forall in U. exact (proj2 (U _ I)).
Qed.

(** ** Settings *)
Lemma load_read c s : load c = Some s -> is_text c /\ exists v, document c v /\ settings_by local_table v s.
Proof.
  unfold load. destruct (utf8 c) eqn:U; [|discriminate]. destruct (parse c) as [v|] eqn:P; [|discriminate]. intros E. split; [apply utf8_exact, U|]. exists v. split; [apply parse_exact, P|]. apply struct_sound; [exact local_nodup|exact E].
Qed.
Lemma load_total c v s : is_text c -> document c v -> settings_by local_table v s -> exists s', load c = Some s'.
Proof.
  intros T D S0. apply utf8_exact in T. apply parse_exact in D. unfold load. rewrite T, D. exact (struct_total _ _ _ local_nodup S0).
Qed.
Lemma text_settings fs dir c : content fs (path_join dir (str "config.json")) = Some c ->
  (load_from_disk fs dir <> None <-> is_text c /\ exists v s, document c v /\ settings_by local_table v s) /\
  (forall s', load_from_disk fs dir = Some s' -> exists v s, document c v /\ settings_by local_table v s /\ with_relay_settings s s').
Proof.
  intros E. split; [split|].
  - intros N. destruct (load_from_disk fs dir) as [s'|] eqn:L; [|congruence]. destruct (disk_lemma _ _ _ _ E L) as (s & Ls & _). destruct (load_read _ _ Ls) as (T & v & A & B). eauto.
  - intros (T & v & s & D & S0). destruct (load_total _ _ _ T D S0) as [s1 L]. destruct (loaded_lemma _ _ _ _ E L) as (s' & X & _). congruence.
  - intros s' L. destruct (disk_lemma _ _ _ _ E L) as (s & Ls & W). destruct (load_read _ _ Ls) as (T & v & A & B). exists v, s. auto.
Qed.
Lemma same_document fs fs' dir c c' v : content fs (path_join dir (str "config.json")) = Some c -> content fs' (path_join dir (str "config.json")) = Some c' ->
  is_text c -> is_text c' -> document c v -> document c' v -> load_from_disk fs dir = load_from_disk fs' dir.
Proof.
  intros E E' T T' D D'. unfold load_from_disk, load_from_file, merge_from_file. change CONFIG_FILENAME with (str "config.json"). rewrite E, E'. apply utf8_exact in T, T'. apply parse_exact in D, D'. unfold load. rewrite T, T', D, D'. reflexivity.
Qed.
Lemma relay_typed s : well_typed local_table s -> well_typed local_table (relayed s).
Proof.
  intros W. assert (S1 : forall n s, In (n, TBool) local_table -> well_typed local_table s -> well_typed local_table (set n (FBool true) s)).
  { clear. intros n s I W. pose proof local_nodup as D. unfold well_typed, set in *. revert I D. induction W as [|[n0 t0] [n1 x] r s [A B] W IH]; intros I D; [constructor|]. cbn [map fst snd] in *. subst n1. inversion D as [|? ? D1 D2]; subst.
    destruct I as [I|I].
    - injection I as -> ->. rewrite bytes_eqb_refl. constructor; [split; [reflexivity|exact Logic.I]|].
      clear IH D B. induction W as [|[n0 t0] [n1 y] r s [A B] W IH]; [constructor|]. cbn [map fst snd] in *. subst n1. destruct (bytes_eqb_reflect n0 n) as [->|N]; [exfalso; apply D1; left; reflexivity|].
      constructor; [split; [reflexivity|exact B]|]. inversion D2; subst. apply IH; [|assumption]. intros X. apply D1. right. exact X.
    - destruct (bytes_eqb_reflect n0 n) as [->|N]; [exfalso; apply D1; apply in_map_iff; exists (n, TBool); auto|]. constructor; [split; [reflexivity|exact B]|]. apply IH; assumption. }
  unfold relayed. destruct (get_str _ s); [exact W|]. repeat apply S1; try exact W; apply assoc_in; vm_compute; reflexivity.
Qed.
Lemma settings_typed fs dir s : load_from_disk fs dir = Some s -> well_typed local_table s.
Proof.
  unfold load_from_disk, load_from_file. rewrite merge_relayed. destruct (content _ _) as [c|]; [|discriminate]. destruct (load c) as [s0|] eqn:L; [|discriminate]. cbn [option_map]. intros E. assert (relayed s0 = s) as <- by congruence.
  apply relay_typed. unfold load in L. destruct (utf8 c); [|discriminate]. destruct (parse c) as [v|] eqn:P; [|discriminate]. apply parse_exact, document_utf8 in P. exact (struct_typed _ _ _ local_nodup P L).
Qed.

(** ** Protocols *)
Lemma to_num_back n : to_num (FNum n) = n.
Proof. cbn. apply N2Z.id. Qed.
Lemma typed_num x : typed TU64 x -> exists n, x = FNum n.
Proof. destruct x; try (intros []; fail). cbn [typed]. intros B. exists (Z.to_N z). unfold FNum. f_equal. lia. Qed.
Lemma typed_num32 x : typed TU32 x -> exists n, x = FNum n.
Proof. destruct x; try (intros []; fail). cbn [typed]. intros B. exists (Z.to_N z). unfold FNum. f_equal. lia. Qed.
Lemma typed_bool x : typed TBool x -> exists b, x = FBool b.
Proof. destruct x; try (intros []; fail). intros _. eauto. Qed.
Lemma typed_dur x : typed TDur x -> exists n, x = FDur n.
Proof. destruct x; try (intros []; fail). intros _. eauto. Qed.
Lemma typed_upg x : typed TUpgrades x -> exists n, x = FUpgrades n.
Proof. destruct x; try (intros []; fail). intros _. eauto. Qed.
Lemma typed_com x : typed TCommit x -> exists n, x = FCommit n.
Proof. destruct x; try (intros []; fail). intros _. eauto. Qed.
Lemma values_cons_typed t r l : Forall2 typed (t :: r) l -> exists x l', l = x :: l' /\ typed t x /\ Forall2 typed r l'.
Proof. intros W. inversion W; subst. eauto. Qed.
Lemma values_nil_typed l : Forall2 typed [] l -> l = [].
Proof. intros W. inversion W. reflexivity. Qed.
Lemma pairs_eq {A B} (l m : list (A * B)) : map fst l = map fst m -> map snd l = map snd m -> l = m.
Proof. revert m. induction l as [|[a b] l IH]; intros [|[c d] m] E F; try discriminate; [reflexivity|]. cbn [map fst snd] in *. injection E as -> E. injection F as -> F. f_equal. apply IH; assumption. Qed.
Lemma params_values l : Forall2 typed (map snd params_table) l -> exists p, map snd (params_fields p) = l.
Proof.
  unfold params_table. cbn [map snd]. intros W.
  repeat (apply values_cons_typed in W; let x := fresh "x" in let s := fresh "s" in let T := fresh "T" in let E := fresh "E" in destruct W as (x & s & E & T & W);
    first [apply typed_num in T|apply typed_bool in T|apply typed_upg in T|apply typed_dur in T|apply typed_com in T|apply typed_num32 in T]; let y := fresh "y" in destruct T as [y T]; rewrite T in E; clear T x).
  apply values_nil_typed in W. rewrite W in *. subst.
  eexists (mkParams _ _ _ _ _ _ _ _ _ _ _ _ _ _ _ _ _ _ _ _ _ _ _ _ _ _ _ _ _ _ _ _ _ _ _ _ _ _ _ _ _ _ _ _ _ _ _ _ _ _ _ _ _ _ _ _ _ _ _ _ _ _ _ _ _ _ _ _ _ _ _ _ _ _ _ _ _ _ _ _ _ _ _ _ _ _ _ _ _ _ _ _ _ _ _ _ _ _). unfold params_fields. cbn [map snd]. reflexivity.
Qed.
Lemma params_inverse l : well_typed params_table l -> exists p, params_of l = Some p /\ params_fields p = l.
Proof.
  intros W. destruct (params_values (map snd l)) as [p E].
  - unfold well_typed in W. induction W as [|[n t] [n' x] r s [_ B] W IH]; cbn [map snd]; constructor; assumption.
  - assert (F : params_fields p = l).
    { apply pairs_eq; [|exact E]. transitivity (map fst params_table); [reflexivity|]. clear E. unfold well_typed in W. induction W as [|[n t] [n' x] r s [A _] W IH]; [reflexivity|]. cbn [map fst] in *. congruence. }
    exists p. split; [rewrite <- F; apply params_back|exact F].
Qed.
Lemma decode_params_sound v p : utf8_json v -> decode_params v = Some p -> settings_by params_table v (params_fields p).
Proof.
  unfold decode_params. intros U. destruct (decode_struct decode_field false params_table v) as [l|] eqn:E; [|discriminate]. intros P.
  destruct (params_inverse l (struct_typed _ _ _ params_nodup U E)) as (p' & A & B). assert (p' = p) as -> by congruence. rewrite B. exact (struct_sound _ _ _ params_nodup E).
Qed.
Lemma decode_params_total v s : utf8_json v -> settings_by params_table v s -> exists p, decode_params v = Some p.
Proof.
  intros U S0. destruct (struct_total _ _ _ params_nodup S0) as [l E]. unfold decode_params. rewrite E. destruct (params_inverse l (struct_typed _ _ _ params_nodup U E)) as (p & A & _). eauto.
Qed.
Lemma protocols_entries m : forall acc, decode_entries m acc = entries decode_params m acc.
Proof. induction m as [|[k v] m IH]; intros acc; [reflexivity|]. cbn [decode_entries entries]. destruct (version_of_name k); [|reflexivity]. destruct (decode_params v); [|reflexivity]. apply IH. Qed.
Lemma latest_in k m v : latest k m v -> In (k, v) m.
Proof.
  intros [l E]. assert (I : In v (values k m)) by (rewrite E; apply in_or_app; right; left; reflexivity). unfold values in I. apply in_map_iff in I. destruct I as ([k' v'] & Ev & I). apply filter_In in I. destruct I as [I B]. cbn [fst snd] in *.
  apply bytes_eqb_spec in B. subst. exact I.
Qed.
Lemma in_latest k (m : list (bytes * json)) : In k (map fst m) -> exists v, latest k m v.
Proof.
  intros I. destruct (values k m) as [|x l] eqn:E; [apply values_none in E; contradiction|]. destruct (@exists_last _ (x :: l) ltac:(discriminate)) as (l' & v & F). exists v, l'. rewrite E. exact F.
Qed.
Lemma protocols_sound v t : utf8_json v -> decode_protocols v = Some t -> protocols_by v t.
Proof.
  intros U E. destruct v as [| | | | | |m]; try discriminate E. cbn [decode_protocols] in E. rewrite protocols_entries in E. apply utf8_obj in U. rewrite Forall_forall in U.
  destruct (entries_exact decode_params m [] t (NoDup_nil _) E) as (A & B & C). exists m. split; [reflexivity|]. split; [exact A|]. split; [|split].
  - intros k j I. destruct (B k j I) as (w & p & -> & D). exists w, p. split; [reflexivity|]. exact (decode_params_sound j p (proj2 (U _ I)) D).
  - intros w p I. apply C in I. destruct I as [(j & L & D)|[_ []]]. exists j. split; [exact L|]. exact (decode_params_sound j p (proj2 (U _ (latest_in _ _ _ L))) D).
  - intros w I. destruct (in_latest _ _ I) as [j L]. destruct (B _ _ (latest_in _ _ _ L)) as (w' & p & _ & D). apply in_map_iff. exists (w, p). split; [reflexivity|]. apply C. left. eauto.
Qed.
Lemma protocols_total v t : utf8_json v -> protocols_by v t -> exists t', decode_protocols v = Some t'.
Proof.
  intros U (m & -> & _ & B & _). apply utf8_obj in U. rewrite Forall_forall in U. cbn [decode_protocols]. rewrite protocols_entries. apply entries_total. intros k j I. destruct (B k j I) as (w & p & -> & S0).
  destruct (decode_params_total j _ (proj2 (U _ I)) S0) as [p' D]. eauto.
Qed.
Lemma text_protocols fs dir current c : content fs (path_join dir (str "consensus.json")) = Some c ->
  (forall v t, document c v -> protocols_by v t -> exists t1, protocols_by v t1 /\
     preload_configurable_consensus_protocols fs dir current = match merge current t1 with Some t' => Ok t' | None => Panic end) /\
  ((forall v t, document c v -> ~ protocols_by v t) -> preload_configurable_consensus_protocols fs dir current = Err tt).
Proof.
  intros E. unfold preload_configurable_consensus_protocols. change CONFIGURABLE_CONSENSUS_PROTOCOLS_FILENAME with (str "consensus.json"). rewrite E. split.
  - intros v t D P. pose proof (document_utf8 _ _ D) as U. apply parse_exact in D. rewrite D. destruct (protocols_total v t U P) as [t' X]. rewrite X. exists t'. split; [exact (protocols_sound v t' U X)|reflexivity].
  - intros N. destruct (parse c) as [v|] eqn:P; [|reflexivity]. apply parse_exact in P. destruct (decode_protocols v) as [t|] eqn:D; [|reflexivity]. destruct (N v t P (protocols_sound v t (document_utf8 _ _ P) D)).
Qed.
Lemma text_phonebook fs dir l : load_phonebook fs dir = Ok l <-> l = [] /\ exists c, content fs (path_join dir (str "phonebook.json")) = Some c /\ is_text c /\ document c JNull.
Proof.
  unfold load_phonebook. change PHONEBOOK_FILENAME with (str "phonebook.json"). split.
  - destruct (content fs _) as [c|]; [|discriminate]. destruct (utf8 c) eqn:U; [|discriminate]. destruct (parse c) as [[]|] eqn:P; try discriminate. intros E. assert ([] = l) as <- by congruence. split; [reflexivity|]. exists c. split; [reflexivity|].
    split; [apply utf8_exact, U|apply parse_exact, P].
  - intros (-> & c & E & T & D). apply utf8_exact in T. apply parse_exact in D. rewrite E, T, D. reflexivity.
Qed.
