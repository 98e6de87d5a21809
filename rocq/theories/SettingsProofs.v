(** Proofs about the configuration. *)
From Verif Require Import Base BaseFacts KeyfileModel KeyfileProofs JsonModel JsonSpec JsonProofs FilesModel SettingsModel SettingsSpec ConfigSpec.
Local Open Scope N_scope.

(** ** Association lists *)
Lemma assoc_in {A} k (m : list (bytes * A)) a : assoc k m = Some a -> In (k, a) m.
Proof.
  induction m as [|[k' a'] r IH]; [discriminate|]. cbn [assoc]. destruct (bytes_eqb_reflect k k') as [->|N0]; [intros [= ->]; left; reflexivity|intros E; right; auto].
Qed.
Lemma in_assoc {A} k (m : list (bytes * A)) a : NoDup (map fst m) -> In (k, a) m -> assoc k m = Some a.
Proof.
  induction m as [|[k' a'] r IH]; intros D I; [destruct I|]. cbn [map fst] in D. inversion D as [|? ? D1 D2]; subst. cbn [assoc]. destruct I as [I|I].
  - injection I as -> ->. rewrite bytes_eqb_refl. reflexivity.
  - destruct (bytes_eqb_reflect k k') as [->|N0]; [|apply IH; assumption]. exfalso. apply D1. apply in_map_iff. exists (k', a). split; [reflexivity|exact I].
Qed.
Lemma assoc_none {A} k (m : list (bytes * A)) : assoc k m = None <-> ~ In k (map fst m).
Proof.
  induction m as [|[k' a'] r IH]; [split; [intros _ []|reflexivity]|]. cbn [assoc map fst]. destruct (bytes_eqb_reflect k k') as [->|N0].
  - split; [discriminate|intros X; exfalso; apply X; left; reflexivity].
  - rewrite IH. split; [intros X [Y|Y]; [congruence|auto]|intros X Y; apply X; right; exact Y].
Qed.
Lemma assoc_map {A B} (f : A -> B) k m : assoc k (map (fun e => (fst e, f (snd e))) m) = option_map f (assoc k m).
Proof. induction m as [|[k' a'] r IH]; [reflexivity|]. cbn [map fst snd assoc]. destruct (bytes_eqb k k'); [reflexivity|exact IH]. Qed.
Lemma put_fresh {A} k (a : A) m : ~ In k (map fst m) -> put k a m = m ++ [(k, a)].
Proof.
  induction m as [|[k' a'] r IH]; intros D; [reflexivity|]. cbn [put app]. cbn [map fst] in D.
  destruct (bytes_eqb_reflect k k') as [->|N0]; [exfalso; apply D; left; reflexivity|]. rewrite IH; [reflexivity|]. intros X. apply D. right. exact X.
Qed.
Lemma version_eqb_eq a b : version_eqb a b = true <-> a = b.
Proof. unfold version_eqb. rewrite N.eqb_eq. split; [|intros ->; reflexivity]. destruct a, b; cbn; congruence. Qed.
Lemma insert_fresh {A} k (a : A) m : ~ In k (map fst m) -> insert k a m = m ++ [(k, a)].
Proof.
  induction m as [|[k' a'] r IH]; intros D; [reflexivity|]. cbn [insert app]. cbn [map fst] in D.
  destruct (version_eqb k k') eqn:E; [apply version_eqb_eq in E as ->; exfalso; apply D; left; reflexivity|]. rewrite IH; [reflexivity|]. intros X. apply D. right. exact X.
Qed.

(** ** Structures *)
Section Struct.
Context {T V : Type}.
Variable dec : T -> json -> option V.

Lemma values_cons {A} n k (v : A) r : values n ((k, v) :: r) = if bytes_eqb k n then v :: values n r else values n r.
Proof. unfold values. cbn [filter fst]. destruct (bytes_eqb k n); reflexivity. Qed.
Lemma bytes_eqb_sym a b : bytes_eqb a b = bytes_eqb b a.
Proof. destruct (bytes_eqb_reflect a b) as [->|N0]; [symmetry; apply bytes_eqb_refl|]. symmetry. apply bytes_eqb_neq. congruence. Qed.

Lemma visit_ok deny table m : forall acc acc', visit_entries dec deny table m acc = Some acc' ->
  forall k t, assoc k table = Some t ->
  match values k m with
  | [] => assoc k acc' = assoc k acc
  | [v] => assoc k acc = None /\ exists x, dec t v = Some x /\ assoc k acc' = Some x
  | _ => False
  end.
Proof.
  induction m as [|[k0 v0] r IH]; intros acc acc' E k t Ht; [cbn in *; congruence|].
  cbn [visit_entries] in E. rewrite values_cons. destruct (assoc k0 table) as [t0|] eqn:E0.
  - destruct (assoc k0 acc) eqn:Ea; [discriminate|]. destruct (dec t0 v0) as [x0|] eqn:Ed; [|discriminate].
    specialize (IH _ _ E k t Ht). cbn [assoc] in IH. destruct (bytes_eqb_reflect k0 k) as [->|N0].
    + rewrite bytes_eqb_refl in IH. destruct (values k r) as [|v [|v' l]].
      * split; [exact Ea|]. exists x0. split; [congruence|exact IH].
      * destruct IH as [IH _]. discriminate.
      * destruct IH.
    + rewrite (proj2 (bytes_eqb_neq k k0)) in IH by congruence. exact IH.
  - destruct (bytes_eqb_reflect k0 k) as [->|N0]; [congruence|]. destruct deny; [discriminate|]. exact (IH _ _ E k t Ht).
Qed.
Lemma visit_total table m : forall acc,
  (forall k t, assoc k table = Some t -> values k m = [] \/ exists v, values k m = [v] /\ dec t v <> None /\ assoc k acc = None) ->
  visit_entries dec false table m acc <> None.
Proof.
  induction m as [|[k0 v0] r IH]; intros acc E; [discriminate|]. cbn [visit_entries].
  destruct (assoc k0 table) as [t0|] eqn:E0.
  - destruct (E k0 t0 E0) as [X|[v [X [Y Z]]]]; rewrite values_cons, bytes_eqb_refl in X; [discriminate|]. injection X as <- X.
    rewrite Z. destruct (dec t0 v0) as [x0|] eqn:Ed; [|congruence]. apply IH. intros k t Ht. cbn [assoc]. destruct (bytes_eqb_reflect k k0) as [->|N0].
    + left. exact X.
    + specialize (E k t Ht). rewrite values_cons, (proj2 (bytes_eqb_neq k0 k)) in E by congruence. exact E.
  - apply IH. intros k t Ht. specialize (E k t Ht). rewrite values_cons in E. destruct (bytes_eqb_reflect k0 k) as [->|N0]; [congruence|exact E].
Qed.
Lemma collect_ok table acc l : @collect T V table acc = Some l -> map fst l = map fst table /\ forall n x, In (n, x) l -> assoc n acc = Some x.
Proof.
  revert l. induction table as [|[n t] r IH]; intros l E; cbn [collect] in E; [injection E as <-; split; [reflexivity|intros ? ? []]|].
  destruct (assoc n acc) as [x|] eqn:Ea; [|discriminate]. destruct (collect r acc) as [l'|]; [|discriminate]. injection E as <-.
  destruct (IH _ eq_refl) as [A B]. split; [cbn [map fst]; congruence|]. intros n0 x0 [I|I]; [congruence|auto].
Qed.
Lemma collect_total table acc : (forall n, In n (map fst table) -> assoc n acc <> None) -> @collect T V table acc <> None.
Proof.
  induction table as [|[n t] r IH]; intros E; [discriminate|]. cbn [collect]. pose proof (E n (or_introl eq_refl)) as X. destruct (assoc n acc); [|congruence].
  assert (Y : collect r acc <> None) by (apply IH; intros n0 I; apply E; right; exact I). destruct (collect r acc); [discriminate|congruence].
Qed.

(** An object is accepted exactly if it gives every field once, with a value of its type. *)
Lemma struct_iff table m s : NoDup (map fst table) ->
  decode_struct dec false table (JObj m) = Some s <->
  map fst s = map fst table /\
  forall n t, In (n, t) table -> exists v x, values n m = [v] /\ dec t v = Some x /\ In (n, x) s.
Proof.
  intros D. cbn [decode_struct]. split.
  - destruct (visit_entries dec false table m []) as [acc|] eqn:E; [|discriminate]. intros C. destruct (collect_ok _ _ _ C) as [A B]. split; [exact A|].
    intros n t I. pose proof (visit_ok _ _ _ _ _ E n t (in_assoc _ _ _ D I)) as X.
    assert (Y : In n (map fst s)) by (rewrite A; apply in_map_iff; exists (n, t); split; [reflexivity|exact I]).
    apply in_map_iff in Y. destruct Y as [[n' x] [Y Z]]. cbn [fst] in Y. subst n'. pose proof (B _ _ Z) as W.
    destruct (values n m) as [|v [|v' l]]; [cbn [assoc] in X; congruence| |destruct X]. destruct X as [_ [x' [P Q]]]. exists v, x. split; [reflexivity|]. split; [congruence|exact Z].
  - intros [A B].
    assert (X : visit_entries dec false table m [] <> None).
    { apply visit_total. intros k t Ht. right. destruct (B k t (assoc_in _ _ _ Ht)) as [v [x [P [Q _]]]]. exists v. split; [exact P|]. split; [congruence|reflexivity]. }
    destruct (visit_entries dec false table m []) as [acc|] eqn:E; [|congruence].
    assert (Y : forall n t, In (n, t) table -> exists x, assoc n acc = Some x /\ In (n, x) s).
    { intros n t I. pose proof (visit_ok _ _ _ _ _ E n t (in_assoc _ _ _ D I)) as Z. destruct (B n t I) as [v [x [P [Q R]]]]. rewrite P in Z.
      destruct Z as [_ [x' [Z1 Z2]]]. exists x. split; [congruence|exact R]. }
    assert (C : collect table acc <> None).
    { apply collect_total. intros n I. apply in_map_iff in I. destruct I as [[n' t] [<- I]]. destruct (Y _ _ I) as [x [Z _]]. cbn [fst]. congruence. }
    destruct (collect table acc) as [l|] eqn:El; [|congruence]. destruct (collect_ok _ _ _ El) as [A' B'].
    f_equal. assert (Ds : NoDup (map fst s)) by (rewrite A; exact D).
    assert (G : forall n x, In (n, x) l -> In (n, x) s).
    { intros n x I. pose proof (B' _ _ I) as W. assert (In n (map fst table)) as K by (rewrite <- A'; apply in_map_iff; exists (n, x); split; [reflexivity|exact I]).
      apply in_map_iff in K. destruct K as [[n' t] [<- K]]. destruct (Y _ _ K) as [x' [P Q]]. cbn [fst] in *. congruence. }
    assert (K : map fst l = map fst s) by congruence. clear - Ds G K. revert s Ds G K. induction l as [|[n x] l IH]; intros [|[n' x'] s] Ds G K; try discriminate; [reflexivity|].
    cbn [map fst] in K, Ds. injection K as -> K. inversion Ds as [|? ? D1 D2]; subst. f_equal.
    + destruct (G n' x (or_introl eq_refl)) as [I|I]; [congruence|]. exfalso. apply D1. apply in_map_iff. exists (n', x). split; [reflexivity|exact I].
    + apply IH; [exact D2| |exact K]. intros n y I. destruct (G n y (or_intror I)) as [J|J]; [|exact J]. exfalso. apply D1. rewrite <- K. injection J as -> ->. apply in_map_iff. exists (n, y). split; [reflexivity|exact I].
Qed.
End Struct.

(** ** Fields *)
Lemma between_ok lo hi z : (lo <= z <= hi)%Z -> int_between lo hi (JInt z) = Some z.
Proof. intros [A B]. unfold int_between. rewrite (proj2 (Z.leb_le _ _) A), (proj2 (Z.leb_le _ _) B). reflexivity. Qed.
Lemma duration_back n : n < 2 ^ 64 * 1000000000 -> decode_duration (encode_duration n) = Some n.
Proof.
  intros Hn. unfold decode_duration, encode_duration. cbn [decode_struct].
  assert (A : n / billion < two64) by (unfold billion, two64; apply N.div_lt_upper_bound; lia).
  assert (B : n mod billion < billion) by (apply N.mod_lt; discriminate).
  assert (C : (0 <= Z.of_N (n / billion) <= 2 ^ 64 - 1)%Z) by (unfold two64 in A; clear - A; remember (n / billion); lia).
  assert (D : (0 <= Z.of_N (n mod billion) <= 2 ^ 32 - 1)%Z) by (unfold billion in *; clear - B; remember (n mod 1000000000); lia).
  remember (n / billion) as q. remember (n mod billion) as r.
  unfold visit_entries. change (assoc (str "secs") [(str "secs", (2 ^ 64 - 1)%Z); (str "nanos", (2 ^ 32 - 1)%Z)]) with (Some (2 ^ 64 - 1)%Z).
  change (assoc (str "nanos") [(str "secs", (2 ^ 64 - 1)%Z); (str "nanos", (2 ^ 32 - 1)%Z)]) with (Some (2 ^ 32 - 1)%Z).
  cbv beta iota. rewrite (between_ok _ _ _ C), (between_ok _ _ _ D). cbn [assoc].
  change (bytes_eqb (str "nanos") (str "secs")) with false. cbv iota. cbn [collect assoc].
  change (bytes_eqb (str "nanos") (str "nanos")) with true. change (bytes_eqb (str "secs") (str "nanos")) with false. change (bytes_eqb (str "secs") (str "secs")) with true. cbv iota.
  rewrite !N2Z.id. rewrite (N.div_small r billion) by exact B. rewrite N.add_0_r, (proj2 (N.ltb_lt _ _) A). f_equal.
  subst q r. pose proof (N.div_mod n billion ltac:(discriminate)). lia.
Qed.
Lemma flags_back m : forall acc, NoDup (map fst acc ++ map fst m) ->
  decode_flags (map (fun e => (fst e, JBool (snd e))) m) acc = Some (acc ++ m).
Proof.
  induction m as [|[k b] m IH]; intros acc D; cbn [map decode_flags fst snd]; [rewrite app_nil_r; reflexivity|].
  rewrite put_fresh by (cbn [map fst] in D; apply NoDup_remove_2 in D; intros X; apply D, in_or_app; left; exact X).
  rewrite IH; [rewrite <- app_assoc; reflexivity|]. rewrite map_app, <- app_assoc. exact D.
Qed.
Lemma name_back v : version_of_name (version_name v) = Some v.
Proof. destruct v; vm_compute; reflexivity. Qed.
Lemma upgrades_back m : forall acc, NoDup (map fst acc ++ map fst m) -> Forall (fun e => snd e < 2 ^ 64) m ->
  decode_upgrades (map (fun e => (version_name (fst e), JInt (Z.of_N (snd e)))) m) acc = Some (acc ++ m).
Proof.
  induction m as [|[k b] m IH]; intros acc D F; cbn [map decode_upgrades fst snd]; [rewrite app_nil_r; reflexivity|].
  inversion F as [|? ? F1 F2]; subst. cbn [snd] in F1. rewrite name_back, between_ok by lia. rewrite N2Z.id.
  rewrite insert_fresh by (cbn [map fst] in D; apply NoDup_remove_2 in D; intros X; apply D, in_or_app; left; exact X).
  rewrite IH; [rewrite <- app_assoc; reflexivity| |exact F2]. rewrite map_app, <- app_assoc. exact D.
Qed.
Lemma commit_back c : commit_of_name (commit_name c) = Some c.
Proof. destruct c; vm_compute; reflexivity. Qed.
Lemma field_back t v : typed t v -> decode_field t (encode_field v) = Some v.
Proof.
  destruct t, v; cbn [typed]; try (intros []; fail); intros Hv; cbn [encode_field decode_field]; try reflexivity.
  1-4: rewrite between_ok by lia; reflexivity.
  - rewrite duration_back by exact Hv. reflexivity.
  - rewrite flags_back by exact (proj1 Hv). reflexivity.
  - rewrite upgrades_back by (exact (proj1 Hv) || exact (proj2 Hv)). reflexivity.
  - cbn [decode_commit]. rewrite commit_back. reflexivity.
Qed.
Lemma field_wf t v : typed t v -> wf_json (encode_field v).
Proof.
  destruct t, v; cbn [typed]; try (intros []; fail); intros Hv; cbn [encode_field]; try exact I; try (cbn [wf_json]; lia).
  - unfold encode_duration. cbn [wf_json]. unfold billion. assert (A : nanos / 1000000000 < 2 ^ 64) by (apply N.div_lt_upper_bound; lia). pose proof (N.mod_lt nanos 1000000000 ltac:(discriminate)) as B.
    clear Hv. remember (nanos / 1000000000) as q. remember (nanos mod 1000000000) as r. clear Heqq Heqr. change (2 ^ 64) with 18446744073709551616 in A. repeat split; lia.
  - apply wf_obj, Forall_map, Forall_forall. intros; exact I.
  - apply wf_obj, Forall_map. destruct Hv as [_ F]. eapply Forall_impl; [|exact F]. intros e He. cbv beta in He. cbn [snd wf_json]. lia.
Qed.
Lemma typed_names table s : well_typed table s -> map fst s = map fst table.
Proof. induction 1 as [|f e t s [A _] F IH]; [reflexivity|]. cbn [map]. congruence. Qed.
Lemma typed_in table s n t : well_typed table s -> In (n, t) table -> exists x, In (n, x) s /\ typed t x.
Proof.
  induction 1 as [|[n1 t1] [n2 x] tb s [A B] F IH]; [intros []|]. cbn [fst snd] in *. intros [I|I].
  - injection I as -> ->. exists x. subst n2. split; [left; reflexivity|exact B].
  - destruct (IH I) as [y [P Q]]. exists y. split; [right; exact P|exact Q].
Qed.
Lemma values_one {A} n (m : list (bytes * A)) a : NoDup (map fst m) -> In (n, a) m -> values n m = [a].
Proof.
  induction m as [|[k b] r IH]; intros D I; [destruct I|]. cbn [map fst] in D. inversion D as [|? ? D1 D2]; subst. rewrite values_cons. destruct I as [I|I].
  - injection I as -> ->. rewrite bytes_eqb_refl. f_equal. unfold values. destruct (filter _ r) as [|e l] eqn:E; [reflexivity|]. exfalso.
    assert (X : In e (filter (fun e => bytes_eqb (fst e) n) r)) by (rewrite E; left; reflexivity). apply filter_In in X. destruct X as [X Y]. apply bytes_eqb_spec in Y. subst n. apply D1, in_map, X.
  - rewrite (proj2 (bytes_eqb_neq k n)); [apply IH; assumption|]. intros ->. apply D1. apply in_map_iff. exists (n, a). split; [reflexivity|exact I].
Qed.
Lemma struct_back table s : NoDup (map fst table) -> well_typed table s -> decode_struct decode_field false table (encode_struct s) = Some s.
Proof.
  intros D W. unfold encode_struct. apply struct_iff; [exact D|]. pose proof (typed_names _ _ W) as N0. split; [exact N0|].
  intros n t I. destruct (typed_in _ _ _ _ W I) as [x [P Q]]. exists (encode_field x), x. split; [|split; [exact (field_back _ _ Q)|exact P]].
  apply values_one; [rewrite map_map; cbn [fst]; replace (map (fun x0 => fst x0) s) with (map fst s) by reflexivity; rewrite N0; exact D|]. apply in_map_iff. exists (n, x). split; [reflexivity|exact P].
Qed.
Lemma struct_wf table s : well_typed table s -> wf_json (encode_struct s).
Proof.
  intros W. apply wf_obj, Forall_map, Forall_forall. intros [n x] I. cbn [fst snd].
  induction W as [|f e t s [A B] F IH]; [destruct I|]. destruct I as [->|I]; [exact (field_wf _ _ B)|exact (IH I)].
Qed.

(** ** UTF-8 of what is written *)
Lemma between_some lo hi v z : int_between lo hi v = Some z -> (lo <= z <= hi)%Z.
Proof.
  unfold int_between. destruct v; try discriminate. destruct ((lo <=? z0)%Z && (z0 <=? hi)%Z) eqn:E; [|discriminate].
  intros X. assert (z0 = z) as <- by congruence. lia.
Qed.
Lemma put_keys {A} k (a : A) m x : In x (map fst (put k a m)) -> x = k \/ In x (map fst m).
Proof.
  induction m as [|[k' a'] r IH]; cbn [put map fst In]; [intuition congruence|].
  destruct (bytes_eqb_reflect k k'); cbn [map fst In]; [intuition congruence|]. intros [E|E]; [tauto|]. specialize (IH E). tauto.
Qed.
Lemma put_nodup {A} k (a : A) m : NoDup (map fst m) -> NoDup (map fst (put k a m)).
Proof.
  induction m as [|[k' a'] r IH]; intros D; cbn [put map fst]; [constructor; [intros []|constructor]|].
  inversion D; subst. destruct (bytes_eqb_reflect k k') as [->|N]; cbn [map fst]; [constructor; assumption|].
  constructor; [|apply IH; assumption]. intros X. apply put_keys in X. destruct X as [X|X]; [congruence|contradiction].
Qed.
Lemma insert_keys {A} k (a : A) m x : In x (map fst (insert k a m)) -> x = k \/ In x (map fst m).
Proof.
  induction m as [|[k' a'] r IH]; cbn [insert map fst In]; [intuition congruence|].
  destruct (version_eqb k k') eqn:E; cbn [map fst In]; [apply version_eqb_eq in E; intuition congruence|]. intros [X|X]; [tauto|]. specialize (IH X). tauto.
Qed.
Lemma insert_nodup {A} k (a : A) m : NoDup (map fst m) -> NoDup (map fst (insert k a m)).
Proof.
  induction m as [|[k' a'] r IH]; intros D; cbn [insert map fst]; [constructor; [intros []|constructor]|].
  inversion D; subst. destruct (version_eqb k k') eqn:E; cbn [map fst]; [apply version_eqb_eq in E; subst k'; constructor; assumption|].
  constructor; [|apply IH; assumption]. intros X. apply insert_keys in X. destruct X as [X|X]; [|contradiction].
  subst. rewrite (proj2 (version_eqb_eq k k) eq_refl) in E. discriminate.
Qed.
Lemma insert_forall {A} (P : version * A -> Prop) k a m : P (k, a) -> Forall P m -> Forall P (insert k a m).
Proof. intros Pa. induction 1 as [|[k' a'] r X F IH]; cbn [insert]; [constructor; [assumption|constructor]|]. destruct (version_eqb k k'); constructor; assumption. Qed.
Lemma flags_only m : forall acc l, decode_flags m acc = Some l -> NoDup (map fst acc) -> Forall (fun e => utf8 (fst e) = true) acc ->
  Forall (fun e => utf8 (fst e) = true) m -> NoDup (map fst l) /\ Forall (fun e => utf8 (fst e) = true) l.
Proof.
  induction m as [|[k v] r IH]; intros acc l E D F U; cbn [decode_flags] in E; [assert (acc = l) as <- by congruence; split; assumption|].
  destruct v; try discriminate. inversion U as [|? ? Uk Ur]; subst. cbn [fst] in Uk. apply (IH _ _ E); [apply put_nodup; assumption| |assumption].
  apply Forall_forall. intros [x y] I. cbn [fst]. apply (in_map fst) in I. apply put_keys in I. cbn [fst] in I. destruct I as [->|I]; [assumption|].
  apply in_map_iff in I. destruct I as (e & <- & I). rewrite Forall_forall in F. apply F. assumption.
Qed.
Lemma upgrades_only m : forall acc l, decode_upgrades m acc = Some l -> NoDup (map fst acc) -> Forall (fun e => snd e < 2 ^ 64) acc ->
  NoDup (map fst l) /\ Forall (fun e => snd e < 2 ^ 64) l.
Proof.
  induction m as [|[k v] r IH]; intros acc l E D F; cbn [decode_upgrades] in E; [assert (acc = l) as <- by congruence; split; assumption|].
  destruct (version_of_name k) as [w|]; [|discriminate]. destruct (int_between 0 (2 ^ 64 - 1) v) as [z|] eqn:B; [|discriminate].
  apply between_some in B. apply (IH _ _ E); [apply insert_nodup; assumption|]. apply insert_forall; [cbn [snd]; lia|assumption].
Qed.
Lemma between_iff lo hi v z : int_between lo hi v = Some z <-> v = JInt z /\ (lo <= z <= hi)%Z.
Proof.
  unfold int_between. destruct v; try (split; [discriminate|intros [[=] _]]). destruct ((lo <=? z0)%Z && (z0 <=? hi)%Z) eqn:E.
  - split; [intros X; assert (z0 = z) as <- by congruence; split; [reflexivity|lia]|intros [X _]; congruence].
  - split; [discriminate|intros [X Y]; assert (z0 = z) as <- by congruence; lia].
Qed.
Definition duration_table : list (bytes * Z) := [(str "secs", (2 ^ 64 - 1)%Z); (str "nanos", (2 ^ 32 - 1)%Z)].
Definition duration_dec (hi : Z) (j : json) : option Z := int_between 0 hi j.
Lemma duration_entries m l : decode_struct duration_dec true duration_table (JObj m) = Some l ->
  exists a b, l = [(str "secs", a); (str "nanos", b)] /\ int_between 0 (2 ^ 64 - 1) (JInt a) = Some a /\ int_between 0 (2 ^ 32 - 1) (JInt b) = Some b /\
    (m = [(str "secs", JInt a); (str "nanos", JInt b)] \/ m = [(str "nanos", JInt b); (str "secs", JInt a)]).
Proof.
  assert (AT : forall k, assoc k duration_table = if bytes_eqb k (str "secs") then Some (2 ^ 64 - 1)%Z else if bytes_eqb k (str "nanos") then Some (2 ^ 32 - 1)%Z else None) by reflexivity.
  assert (Ne : bytes_eqb (str "secs") (str "nanos") = false) by reflexivity. assert (Ne' : bytes_eqb (str "nanos") (str "secs") = false) by reflexivity.
  assert (Full : forall m acc, (exists x, assoc (str "secs") acc = Some x) -> (exists x, assoc (str "nanos") acc = Some x) -> m <> [] -> visit_entries duration_dec true duration_table m acc = None).
  { intros [|[k v] r] acc [x Ex] [y Ey] N; [contradiction|]. cbn [visit_entries]. rewrite AT. destruct (bytes_eqb_reflect k (str "secs")) as [->|N1]; [rewrite Ex; reflexivity|].
    destruct (bytes_eqb_reflect k (str "nanos")) as [->|N2]; [rewrite Ey; reflexivity|reflexivity]. }
  unfold decode_struct. destruct m as [|[k1 v1] m]; [discriminate|]. cbn [visit_entries]. rewrite AT. cbn [assoc].
  destruct (bytes_eqb_reflect k1 (str "secs")) as [->|N1].
  - destruct (duration_dec (2 ^ 64 - 1) v1) as [a|] eqn:D1; [|discriminate]. unfold duration_dec in D1. pose proof D1 as D1'. apply between_iff in D1' as [-> B1].
    destruct m as [|[k2 v2] m]; [discriminate|]. cbn [visit_entries]. rewrite AT. cbn [assoc].
    destruct (bytes_eqb_reflect k2 (str "secs")) as [->|N2]; [rewrite ?bytes_eqb_refl; discriminate|].
    destruct (bytes_eqb_reflect k2 (str "nanos")) as [->|N3]; [|discriminate].
    destruct (duration_dec (2 ^ 32 - 1) v2) as [b|] eqn:D2; [|discriminate]. unfold duration_dec in D2. pose proof D2 as D2'. apply between_iff in D2' as [-> B2].
    destruct m as [|e m].
    + cbn. intros E. injection E as <-. exists a, b. split; [reflexivity|]. split; [exact D1|]. split; [exact D2|]. left. reflexivity.
    + rewrite Full; [discriminate| | |discriminate]; [exists a|exists b]; reflexivity.
  - destruct (bytes_eqb_reflect k1 (str "nanos")) as [->|N1']; [|discriminate].
    destruct (duration_dec (2 ^ 32 - 1) v1) as [b|] eqn:D1; [|discriminate]. unfold duration_dec in D1. pose proof D1 as D1'. apply between_iff in D1' as [-> B1].
    destruct m as [|[k2 v2] m]; [discriminate|]. cbn [visit_entries]. rewrite AT. cbn [assoc].
    destruct (bytes_eqb_reflect k2 (str "secs")) as [->|N2].
    + rewrite Ne. destruct (duration_dec (2 ^ 64 - 1) v2) as [a|] eqn:D2; [|discriminate]. unfold duration_dec in D2. pose proof D2 as D2'. apply between_iff in D2' as [-> B2].
      destruct m as [|e m].
      * cbn. intros E. injection E as <-. exists a, b. split; [reflexivity|]. split; [exact D2|]. split; [exact D1|]. right. reflexivity.
      * rewrite Full; [discriminate| | |discriminate]; [exists a|exists b]; reflexivity.
    + destruct (bytes_eqb_reflect k2 (str "nanos")) as [->|N3]; [rewrite ?bytes_eqb_refl|]; discriminate.
Qed.
Lemma duration_iff v n : decode_duration v = Some n <->
  exists s k, s < 2 ^ 64 /\ k < 2 ^ 32 /\ s + k / 1000000000 < 2 ^ 64 /\ n = s * 1000000000 + k /\ duration_json s k v.
Proof.
  assert (Fin : forall a b, int_between 0 (2 ^ 64 - 1) (JInt a) = Some a -> int_between 0 (2 ^ 32 - 1) (JInt b) = Some b ->
     (if Z.to_N a + Z.to_N b / billion <? two64 then Some (Z.to_N a * billion + Z.to_N b) else None) = Some n ->
     Z.to_N a < 2 ^ 64 /\ Z.to_N b < 2 ^ 32 /\ Z.to_N a + Z.to_N b / 1000000000 < 2 ^ 64 /\ n = Z.to_N a * 1000000000 + Z.to_N b /\ Z.of_N (Z.to_N a) = a /\ Z.of_N (Z.to_N b) = b).
  { intros a b A B E. apply between_iff in A as [_ A]. apply between_iff in B as [_ B]. change two64 with (2 ^ 64) in E. unfold billion in E.
    destruct (Z.to_N a + Z.to_N b / 1000000000 <? 2 ^ 64) eqn:Q; [|discriminate]. apply N.ltb_lt in Q. assert (X : Z.to_N a * 1000000000 + Z.to_N b = n) by congruence.
    split; [lia|]. split; [lia|]. split; [assumption|]. split; [symmetry; assumption|]. split; apply Z2N.id; lia. }
  split.
  - unfold decode_duration. change (decode_struct _ true _ v) with (decode_struct duration_dec true duration_table v). destruct v; try discriminate.
    + cbn [decode_struct]. destruct l as [|x [|y [|z l]]]; cbn [visit_seq duration_table]; try (destruct (duration_dec _ _); discriminate); try discriminate.
      * destruct (duration_dec (2 ^ 64 - 1) x) as [a|] eqn:A; [|discriminate]. destruct (duration_dec (2 ^ 32 - 1) y) as [b|] eqn:B; [|discriminate].
        unfold duration_dec in A, B. pose proof A as A'. pose proof B as B'. apply between_iff in A' as [-> _]. apply between_iff in B' as [-> _]. intros E.
        destruct (Fin a b A B E) as (F1 & F2 & F3 & F4 & F5 & F6). exists (Z.to_N a), (Z.to_N b). repeat (split; [assumption|]). left. cbn [snd]. rewrite F5, F6. reflexivity.
      * destruct (duration_dec (2 ^ 64 - 1) x); [|discriminate]. destruct (duration_dec (2 ^ 32 - 1) y); discriminate.
    + destruct (decode_struct duration_dec true duration_table (JObj m)) as [l|] eqn:D; [|discriminate]. apply duration_entries in D as (a & b & -> & A & B & Hm). intros E.
      destruct (Fin a b A B E) as (F1 & F2 & F3 & F4 & F5 & F6). exists (Z.to_N a), (Z.to_N b). repeat (split; [assumption|]). right. rewrite F5, F6. destruct Hm as [->| ->]; [left|right]; reflexivity.
  - intros (s & k & S & K & SK & -> & J).
    assert (A : int_between 0 (2 ^ 64 - 1) (JInt (Z.of_N s)) = Some (Z.of_N s)) by (apply between_iff; split; [reflexivity|lia]).
    assert (B : int_between 0 (2 ^ 32 - 1) (JInt (Z.of_N k)) = Some (Z.of_N k)) by (apply between_iff; split; [reflexivity|lia]).
    assert (D : decode_struct duration_dec true duration_table v = Some [(str "secs", Z.of_N s); (str "nanos", Z.of_N k)]).
    { unfold duration_json in J. cbn [snd] in J. destruct J as [->|[->| ->]]; unfold decode_struct.
      - cbn [visit_seq duration_table]. unfold duration_dec. rewrite A, B. reflexivity.
      - cbn [visit_entries]. change (assoc (str "secs") duration_table) with (Some (2 ^ 64 - 1)%Z). change (assoc (str "nanos") duration_table) with (Some (2 ^ 32 - 1)%Z).
        cbn [assoc]. change (bytes_eqb (str "nanos") (str "secs")) with false. unfold duration_dec. rewrite A. cbv iota beta. rewrite B. reflexivity.
      - cbn [visit_entries]. change (assoc (str "secs") duration_table) with (Some (2 ^ 64 - 1)%Z). change (assoc (str "nanos") duration_table) with (Some (2 ^ 32 - 1)%Z).
        cbn [assoc]. change (bytes_eqb (str "secs") (str "nanos")) with false. unfold duration_dec. rewrite B. cbv iota beta. rewrite A. reflexivity. }
    unfold decode_duration. change (decode_struct _ true _ v) with (decode_struct duration_dec true duration_table v). rewrite D. rewrite !N2Z.id.
    change two64 with (2 ^ 64). unfold billion. assert (Q : s + k / 1000000000 <? 2 ^ 64 = true) by (apply N.ltb_lt; assumption). rewrite Q. reflexivity.
Qed.
Lemma duration_field_iff v n : decode_field TDur v = Some (FDur n) <->
  exists s k, s < 2 ^ 64 /\ k < 2 ^ 32 /\ s + k / 1000000000 < 2 ^ 64 /\ n = s * 1000000000 + k /\ duration_json s k v.
Proof. rewrite <- duration_iff. cbn [decode_field]. destruct (decode_duration v); cbn [option_map]; split; congruence. Qed.
Lemma field_only t v x : utf8_json v -> decode_field t v = Some x -> typed t x.
Proof.
  intros U. destruct t; cbn [decode_field].
  - destruct v; try discriminate. intros E. assert (FBool b = x) as <- by congruence. exact I.
  - destruct (int_between _ _ v) as [z|] eqn:B; [|discriminate]. apply between_some in B. cbn [option_map]. intros E. assert (FInt z = x) as <- by congruence. cbn [typed]. lia.
  - destruct (int_between _ _ v) as [z|] eqn:B; [|discriminate]. apply between_some in B. cbn [option_map]. intros E. assert (FInt z = x) as <- by congruence. cbn [typed]. lia.
  - destruct (int_between _ _ v) as [z|] eqn:B; [|discriminate]. apply between_some in B. cbn [option_map]. intros E. assert (FInt z = x) as <- by congruence. cbn [typed]. lia.
  - destruct (int_between _ _ v) as [z|] eqn:B; [|discriminate]. apply between_some in B. cbn [option_map]. intros E. assert (FInt z = x) as <- by congruence. cbn [typed]. lia.
  - destruct v; try discriminate. intros E. assert (FStr s = x) as <- by congruence. exact U.
  - destruct (decode_duration v) as [n|] eqn:D; [|discriminate]. cbn [option_map]. intros E. assert (FDur n = x) as <- by congruence. cbn [typed].
    apply duration_iff in D as (s & k & _ & _ & Q & -> & _). pose proof (N.div_mod k 1000000000 ltac:(discriminate)). pose proof (N.mod_lt k 1000000000 ltac:(discriminate)). lia.
  - destruct v; try discriminate. destruct (decode_flags m []) as [l|] eqn:D; [|discriminate]. cbn [option_map]. intros E. assert (FFlags l = x) as <- by congruence.
    cbn [typed]. apply (flags_only _ _ _ D); [constructor|constructor|]. apply utf8_obj in U. eapply Forall_impl; [|exact U]. intros e [X _]. exact X.
  - destruct v; try discriminate. destruct (decode_upgrades m []) as [l|] eqn:D; [|discriminate]. cbn [option_map]. intros E. assert (FUpgrades l = x) as <- by congruence.
    cbn [typed]. apply (upgrades_only _ _ _ D); constructor.
  - destruct (decode_commit v) as [c|]; [|discriminate]. cbn [option_map]. intros E. assert (FCommit c = x) as <- by congruence. exact I.
Qed.
Lemma utf8_and a b : utf8 a = true -> utf8 b = true -> utf8 (a ++ b) = true.
Proof. intros A B. rewrite utf8_app; assumption. Qed.
Lemma escape_high b : 128 <= Byte.to_N b -> escape b = [b].
Proof. intros L. unfold escape. cbv zeta. rewrite !(proj2 (N.eqb_neq _ _)) by lia. rewrite (proj2 (N.ltb_ge _ _)) by lia. reflexivity. Qed.
Lemma escape_low b : Byte.to_N b < 128 -> utf8 (escape b) = true.
Proof. destruct b; vm_compute; intros X; reflexivity || discriminate. Qed.
Lemma cont_high b : cont b = true -> 128 <= Byte.to_N b.
Proof. unfold cont. intros X. apply andb_prop in X. destruct X as [X _]. apply N.leb_le, X. Qed.
Lemma between_high lo hi b : 128 <= lo -> between lo hi b = true -> 128 <= Byte.to_N b.
Proof. unfold between. intros L X. apply andb_prop in X. destruct X as [X _]. apply N.leb_le in X. lia. Qed.
Lemma utf8_escape_len n : forall s, (length s <= n)%nat -> utf8 s = true -> utf8 (flat_map escape s) = true.
Proof.
  induction n as [|n IH]; intros s L U; [destruct s; [reflexivity|cbn in L; lia]|].
  destruct s as [|a r]; [reflexivity|]. cbn [length] in L. cbn [flat_map]. pose proof U as U0. cbn [utf8] in U. cbv zeta in U.
  destruct (Byte.to_N a <? 128) eqn:E; [apply N.ltb_lt in E; apply utf8_and; [apply escape_low, E|apply IH; [lia|exact U]]|]. apply N.ltb_ge in E.
  rewrite (escape_high a E). cbn [app utf8] in *. cbv zeta in *.
  destruct (Byte.to_N a <? 194) eqn:E1; [discriminate|]. destruct (Byte.to_N a <? 224) eqn:E2.
  { destruct r as [|b r]; [discriminate|]. apply andb_prop in U. destruct U as [U1 U2]. cbn [length flat_map] in *. rewrite (escape_high b (cont_high b U1)). cbn [app].
    rewrite (proj2 (N.ltb_ge _ _) E), U1. apply IH; [lia|exact U2]. }
  destruct (Byte.to_N a <? 240) eqn:E3.
  { destruct r as [|b [|c r]]; try discriminate. apply andb_prop in U. destruct U as [U1 U2]. pose proof U1 as U3. apply andb_prop in U3. destruct U3 as [U3 U4]. cbn [length flat_map] in *.
    rewrite (escape_high b), (escape_high c (cont_high c U4)).
    - cbn [app]. rewrite (proj2 (N.ltb_ge _ _) E), U1. apply IH; [lia|exact U2].
    - destruct (Byte.to_N a =? 224); [exact (between_high 160 _ _ ltac:(lia) U3)|]. destruct (Byte.to_N a =? 237); [exact (between_high 128 _ _ ltac:(lia) U3)|exact (cont_high _ U3)]. }
  destruct (Byte.to_N a <? 245) eqn:E4; [|discriminate].
  destruct r as [|b [|c [|d r]]]; try discriminate. apply andb_prop in U. destruct U as [U1 U2]. pose proof U1 as U3. apply andb_prop in U3. destruct U3 as [U3 U4].
  apply andb_prop in U3. destruct U3 as [U3 U5]. cbn [length flat_map] in *. rewrite (escape_high b), (escape_high c (cont_high c U5)), (escape_high d (cont_high d U4)).
  - cbn [app]. rewrite (proj2 (N.ltb_ge _ _) E), U1. apply IH; [lia|exact U2].
  - destruct (Byte.to_N a =? 240); [exact (between_high 144 _ _ ltac:(lia) U3)|]. destruct (Byte.to_N a =? 244); [exact (between_high 128 _ _ ltac:(lia) U3)|exact (cont_high _ U3)].
Qed.
Lemma utf8_quote s : utf8 s = true -> utf8 (quote s) = true.
Proof. intros U. unfold quote. change (x22 :: ?a) with ([x22] ++ a). apply utf8_and; [reflexivity|]. apply utf8_and; [apply (utf8_escape_len _ s (le_n _) U)|reflexivity]. Qed.
Lemma utf8_line n : utf8 (new_line n) = true.
Proof. apply utf8_ascii. unfold new_line. constructor; [cbn; lia|]. apply Forall_forall. intros b I. apply repeat_spec in I. subst. cbn. lia. Qed.
Lemma utf8_dec n : n < two64 -> utf8 (dec n) = true.
Proof. intros Hn. apply utf8_ascii. destruct (dec_is_decimal n Hn) as [_ [B _]]. eapply Forall_impl; [|exact B]. intros b Hb. cbv beta in *. lia. Qed.
Lemma utf8_lines {A} (pr : A -> bytes) ind l : Forall (fun a => utf8 (pr a) = true) l -> forall first, utf8 (lines pr ind first l) = true.
Proof.
  induction 1 as [|a l Ha F IH]; intros first; [reflexivity|]. cbn [lines]. apply utf8_and; [destruct first; reflexivity|]. apply utf8_and; [apply utf8_line|]. apply utf8_and; [exact Ha|apply IH].
Qed.
Lemma utf8_pretty n : forall v ind, (depth v <= n)%nat -> wf_json v -> utf8_json v -> utf8 (pretty ind v) = true.
Proof.
  induction n as [|n IH]; intros v ind D W U; [destruct v; cbn [depth] in D; lia|].
  destruct v as [|[]|z| |s|l|m]; try reflexivity.
  - cbn [pretty]. cbn [wf_json] in W. unfold dec_z. destruct (z <? 0)%Z; [change (x2d :: ?a) with ([x2d] ++ a); apply utf8_and; [reflexivity|]|]; apply utf8_dec; unfold two64; lia.
  - exact (utf8_quote s U).
  - destruct l as [|x l]; [reflexivity|]. cbn [pretty]. change (x5b :: ?a) with ([x5b] ++ a). apply utf8_and; [reflexivity|].
    apply utf8_and; [|apply utf8_and; [apply utf8_line|reflexivity]]. apply utf8_lines. apply Forall_forall. intros a I. apply wf_arr in W. apply utf8_arr in U.
    rewrite Forall_forall in W, U. apply IH; [|apply W, I|apply U, I]. cbn [depth] in D. pose proof (list_max_in _ _ (in_map depth _ _ I)). lia.
  - destruct m as [|x m]; [reflexivity|]. cbn [pretty]. change (x7b :: ?a) with ([x7b] ++ a). apply utf8_and; [reflexivity|].
    apply utf8_and; [|apply utf8_and; [apply utf8_line|reflexivity]]. apply utf8_lines. apply Forall_forall. intros a I. apply wf_obj in W. apply utf8_obj in U.
    rewrite Forall_forall in W, U. destruct (U a I) as [U1 U2]. apply utf8_and; [apply utf8_quote, U1|]. change (x3a :: x20 :: ?a) with ([x3a; x20] ++ a). apply utf8_and; [reflexivity|].
    apply IH; [|apply W, I|exact U2]. cbn [depth] in D. pose proof (list_max_in _ _ (in_map (fun e => depth (snd e)) _ _ I)). cbv beta in *. lia.
Qed.
Lemma name_utf8 v : utf8 (version_name v) = true.
Proof. destruct v; reflexivity. Qed.
Lemma field_utf8 t v : typed t v -> utf8_json (encode_field v).
Proof.
  destruct t, v; cbn [typed]; try (intros []; fail); intros Hv; cbn [encode_field]; try exact I; try exact Hv.
  - unfold encode_duration. cbn [utf8_json]. repeat split.
  - apply utf8_obj, Forall_map. destruct Hv as [_ F]. eapply Forall_impl; [|exact F]. intros e He. split; [exact He|exact I].
  - apply utf8_obj, Forall_map, Forall_forall. intros e _. split; [apply name_utf8|exact I].
  - destruct c; reflexivity.
Qed.
Lemma struct_utf8 table s : Forall (fun e => utf8 (fst e) = true) table -> well_typed table s -> utf8_json (encode_struct s).
Proof.
  intros N0 W. apply utf8_obj, Forall_map, Forall_forall. intros [n x] I. cbn [fst snd].
  induction W as [|f e t s [A B] F IH]; [destruct I|]. inversion N0 as [|? ? N1 N2]; subst. destruct I as [->|I]; [|exact (IH N2 I)]. cbn [fst snd] in *. split; [congruence|exact (field_utf8 _ _ B)].
Qed.

(** ** Settings *)
Fixpoint nodupb (l : list bytes) : bool := match l with [] => true | x :: r => negb (existsb (bytes_eqb x) r) && nodupb r end.
Lemma nodupb_ok l : nodupb l = true -> NoDup l.
Proof.
  induction l as [|x r IH]; [constructor|]. cbn [nodupb]. intros E. apply andb_prop in E. destruct E as [A B]. constructor; [|exact (IH B)].
  intros I. apply negb_true_iff in A. rewrite <- not_true_iff_false in A. apply A. apply existsb_exists. exists x. split; [exact I|apply bytes_eqb_refl].
Qed.
Lemma local_nodup : NoDup (map fst local_table).
Proof. apply nodupb_ok. vm_compute. reflexivity. Qed.
Lemma params_nodup : NoDup (map fst params_table).
Proof. apply nodupb_ok. vm_compute. reflexivity. Qed.
Lemma names_utf8 (table : list (bytes * ftype)) : forallb (fun e => utf8 (fst e)) table = true -> Forall (fun e => utf8 (fst e) = true) table.
Proof. intros E. rewrite forallb_forall in E. apply Forall_forall. exact E. Qed.
Lemma load_pretty s : well_typed local_table s -> load (pretty 0 (encode_struct s)) = Some s.
Proof.
  intros W. unfold load. pose proof (struct_wf _ _ W) as F. rewrite (utf8_pretty _ _ 0%nat (le_n _) F (struct_utf8 _ _ (names_utf8 local_table eq_refl) W)).
  rewrite (parse_pretty _ F (struct_utf8 _ _ (names_utf8 local_table eq_refl) W)). apply struct_back; [exact local_nodup|exact W].
Qed.

Lemma set_in n v s e : In e (set n v s) <-> (exists w, e = (n, v) /\ In (n, w) s) \/ (In e s /\ fst e <> n).
Proof.
  unfold set. rewrite in_map_iff. split.
  - intros [[k w] [E I]]. cbn [fst] in E. destruct (bytes_eqb_reflect k n) as [->|N0]; [left; exists w; split; [congruence|exact I]|right; subst e; split; [exact I|exact N0]].
  - intros [[w [-> I]]|[I N0]]; [exists (n, w); cbn [fst]; rewrite bytes_eqb_refl; split; [reflexivity|exact I]|].
    exists e. rewrite (proj2 (bytes_eqb_neq _ _) N0). split; [reflexivity|exact I].
Qed.
Lemma set_names n v s : map fst (set n v s) = map fst s.
Proof. unfold set. rewrite map_map. apply map_ext. intros [k w]. cbn [fst]. destruct (bytes_eqb_reflect k n) as [->|]; reflexivity. Qed.
Definition relayed (s : settings) : settings :=
  match get_str (str "net_address") s with
  | [] => s
  | _ => set (str "enable_block_service") (FBool true) (set (str "enable_ledger_service") (FBool true) (set (str "archival") (FBool true) s))
  end.
Lemma relayed_ok s : with_relay_settings s (relayed s).
Proof.
  unfold with_relay_settings, relayed. destruct (get_str (str "net_address") s) as [|b r].
  - split; [reflexivity|]. split; [auto|]. intros n v I _. exact I.
  - change (bytes_eqb (b :: r) []) with false. cbv iota. split; [rewrite !set_names; reflexivity|]. split.
    + intros n v I R. unfold relay_setting in R. cbn [In] in R. apply set_in. right. split; [|cbn [fst]; intros ->; apply R; auto]. apply set_in. right. split; [|cbn [fst]; intros ->; apply R; auto].
      apply set_in. right. split; [exact I|cbn [fst]; intros ->; apply R; auto].
    + intros n v I [<-|[<-|[<-|[]]]].
      * apply set_in. right. split; [|vm_compute; discriminate]. apply set_in. right. split; [|vm_compute; discriminate]. apply set_in. left. exists v. split; [reflexivity|exact I].
      * apply set_in. right. split; [|vm_compute; discriminate]. apply set_in. left. exists v. split; [reflexivity|]. apply set_in. right. split; [exact I|vm_compute; discriminate].
      * apply set_in. left. exists v. split; [reflexivity|]. apply set_in. right. split; [|vm_compute; discriminate]. apply set_in. right. split; [exact I|vm_compute; discriminate].
Qed.
Lemma merge_relayed fs path : merge_from_file fs path = match content fs path with Some c => option_map relayed (load c) | None => None end.
Proof. unfold merge_from_file. destruct (content fs path) as [c|]; [|reflexivity]. destruct (load c); reflexivity. Qed.

Lemma saved_nothing expand fs s dir : fst (save_to_disk expand fs s dir) = fs.
Proof. unfold save_to_disk, save_to_file. destruct (expand _); reflexivity. Qed.
Lemma file_lemma fs dir s : content fs (path_join dir (str "config.json")) = Some (pretty 0 (encode_struct s)) -> well_typed local_table s ->
  exists s', load_from_disk fs dir = Some s' /\ with_relay_settings s s'.
Proof.
  intros E W. exists (relayed s). split; [|apply relayed_ok]. unfold load_from_disk, load_from_file. rewrite merge_relayed. change CONFIG_FILENAME with (str "config.json"). rewrite E, (load_pretty s W). reflexivity.
Qed.
Lemma load_obj c m s : utf8 c = true -> parse c = Some (JObj m) ->
  load c = Some s <-> map fst s = map fst local_table /\ forall n t, In (n, t) local_table -> exists v x, values n m = [v] /\ decode_field t v = Some x /\ In (n, x) s.
Proof. intros U P. unfold load. rewrite U, P. apply struct_iff. exact local_nodup. Qed.
Lemma values_nil {A} n (m : list (bytes * A)) : ~ In n (map fst m) -> values n m = [].
Proof.
  intros D. unfold values. destruct (filter _ m) as [|e l] eqn:E; [reflexivity|]. exfalso.
  assert (X : In e (filter (fun e => bytes_eqb (fst e) n) m)) by (rewrite E; left; reflexivity). apply filter_In in X. destruct X as [X Y]. apply bytes_eqb_spec in Y. subst n. apply D, in_map, X.
Qed.
Lemma absent_lemma c m n t : parse c = Some (JObj m) -> In (n, t) local_table -> ~ In n (map fst m) -> load c = None.
Proof.
  intros P I D. destruct (load c) as [s|] eqn:E; [|reflexivity]. exfalso. assert (U : utf8 c = true) by (unfold load in E; destruct (utf8 c); [reflexivity|discriminate]).
  apply (load_obj c m s U P) in E. destruct E as [_ E]. destruct (E n t I) as [v [x [X _]]]. rewrite (values_nil _ _ D) in X. discriminate.
Qed.
Lemma disk_lemma fs dir c s' : content fs (path_join dir (str "config.json")) = Some c -> load_from_disk fs dir = Some s' ->
  exists s, load c = Some s /\ with_relay_settings s s'.
Proof.
  intros E L. unfold load_from_disk, load_from_file in L. rewrite merge_relayed in L. change CONFIG_FILENAME with (str "config.json") in L. rewrite E in L.
  destruct (load c) as [s|]; [|discriminate]. injection L as <-. exists s. split; [reflexivity|apply relayed_ok].
Qed.

(** ** Bootstrap names *)
Lemma after_spec p s r : after p s = Some r <-> s = p ++ r.
Proof.
  revert s. induction p as [|a p IH]; intros s; [cbn; split; congruence|]. destruct s as [|b s]; [split; discriminate|]. cbn [after app].
  destruct (byte_eqb_reflect a b) as [->|N0]; [rewrite IH; split; congruence|]. split; [discriminate|congruence].
Qed.
Lemma after_mark q : ~ In x3c q -> forall u t, (length u < length q)%nat -> after q (u ++ x3c :: t) = None.
Proof.
  induction q as [|a q IH]; intros D u t L; [cbn in L; lia|]. destruct u as [|b u]; cbn [app after].
  - destruct (byte_eqb_reflect a x3c) as [->|]; [exfalso; apply D; left; reflexivity|reflexivity].
  - destruct (Byte.eqb a b); [|reflexivity]. apply IH; [intros X; apply D; right; exact X|cbn [length] in L; lia].
Qed.
Definition mark : bytes := str "<network>".
Lemma after_piece u t : u <> [] -> ~ occurs mark u -> after mark (u ++ mark ++ t) = None.
Proof.
  intros NE O0. destruct u as [|b u]; [congruence|]. destruct (after mark ((b :: u) ++ mark ++ t)) as [r|] eqn:E; [|reflexivity]. exfalso.
  destruct (le_lt_dec (length mark) (length (b :: u))) as [L|L].
  - apply after_spec in E. apply O0. exists [], (skipn (length mark) (b :: u)). cbn [app].
    assert (X : firstn (length mark) ((b :: u) ++ mark ++ t) = mark) by (rewrite E, firstn_app, Nat.sub_diag, firstn_all; cbn [firstn]; apply app_nil_r).
    rewrite firstn_app in X. replace (length mark - length (b :: u))%nat with 0%nat in X by lia. cbn [firstn] in X. rewrite app_nil_r in X. rewrite <- X at 1. symmetry. apply firstn_skipn.
  - unfold mark in E at 1. change (str "<network>") with (x3c :: str "network>") in E. cbn [app after] in E. destruct (Byte.eqb x3c b); [|discriminate].
    unfold mark in E. change (str "<network>") with (x3c :: str "network>") in E. cbn [app] in E.
    rewrite (after_mark (str "network>")) in E; [discriminate| |].
    + vm_compute. intuition discriminate.
    + cbn [length] in L. change (length mark) with 9%nat in L. change (length (str "network>")) with 8%nat. lia.
Qed.
Lemma occurs_tail b u p : occurs p u -> occurs p (b :: u).
Proof. intros [x [y ->]]. exists (b :: x), y. reflexivity. Qed.
Lemma replace_piece net u t : ~ occurs mark u -> replace mark net (u ++ mark ++ t) = u ++ net ++ replace mark net t.
Proof.
  unfold replace. induction u as [|b u IH]; intros O0.
  - cbn [app]. reflexivity.
  - cbn [app]. change (replace_from 0 mark net (b :: u ++ mark ++ t)) with
      (match after mark ((b :: u) ++ mark ++ t) with Some _ => net ++ replace_from (length mark - 1) mark net (u ++ mark ++ t) | None => b :: replace_from 0 mark net (u ++ mark ++ t) end).
    rewrite after_piece by (discriminate || exact O0). rewrite IH; [reflexivity|]. intros X. apply O0, occurs_tail, X.
Qed.
Lemma replace_last net u : ~ occurs mark u -> replace mark net u = u.
Proof.
  unfold replace. induction u as [|b u IH]; intros O0; [reflexivity|].
  change (replace_from 0 mark net (b :: u)) with (match after mark (b :: u) with Some _ => net ++ replace_from (length mark - 1) mark net u | None => b :: replace_from 0 mark net u end).
  destruct (after mark (b :: u)) as [r|] eqn:E.
  - exfalso. apply after_spec in E. apply O0. exists [], r. exact E.
  - rewrite IH; [reflexivity|]. intros X. apply O0, occurs_tail, X.
Qed.
Lemma replace_join net pieces : (forall p, In p pieces -> ~ occurs mark p) -> replace mark net (join_with mark pieces) = join_with net pieces.
Proof.
  induction pieces as [|p r IH]; intros F; [reflexivity|]. cbn [join_with]. destruct r as [|q r].
  - apply replace_last, F. left. reflexivity.
  - rewrite replace_piece by (apply F; left; reflexivity). rewrite IH; [reflexivity|]. intros x I. apply F. right. exact I.
Qed.
Lemma get_str_in s n v : NoDup (map fst s) -> In (n, FStr v) s -> get_str n s = v.
Proof. intros D I. unfold get_str. rewrite (in_assoc _ _ _ D I). reflexivity. Qed.
Lemma get_num_in s n v : NoDup (map fst s) -> In (n, FInt v) s -> get_num n s = Z.to_N v.
Proof. intros D I. unfold get_num. rewrite (in_assoc _ _ _ D I). reflexivity. Qed.
Lemma typed_nodup (s : settings) : well_typed local_table s -> NoDup (map fst s).
Proof. intros W. rewrite (typed_names _ _ W). exact local_nodup. Qed.

Lemma bootstrap_lemma s network id pieces : well_typed local_table s -> In (str "dns_bootstrap_id", FStr id) s ->
  id = join_with (str "<network>") pieces -> (forall p, In p pieces -> ~ occurs (str "<network>") p) ->
  id <> str "<network>.algorand.network" \/ ~ In network [str "devnet"; str "betanet"] ->
  dns_bootstrap s network = join_with network pieces.
Proof.
  intros W I -> F C. unfold dns_bootstrap. cbv zeta. rewrite (get_str_in _ _ _ (typed_nodup _ W) I). fold mark in *. rewrite (replace_join network pieces F).
  change (get_str (str "dns_bootstrap_id") default_local) with (str "<network>.algorand.network").
  destruct (bytes_eqb_reflect (join_with mark pieces) (str "<network>.algorand.network")) as [E|]; [|reflexivity].
  destruct C as [C|C]; [congruence|]. cbn [In] in C.
  rewrite (proj2 (bytes_eqb_neq network DEVNET)) by (intros ->; apply C; auto). rewrite (proj2 (bytes_eqb_neq network BETANET)) by (intros ->; apply C; auto). reflexivity.
Qed.
Lemma default_lemma s : well_typed local_table s -> In (str "dns_bootstrap_id", FStr (str "<network>.algorand.network")) s ->
  dns_bootstrap s (str "devnet") = str "devnet.algodev.network" /\ dns_bootstrap s (str "betanet") = str "betanet.algodev.network".
Proof. intros W I. unfold dns_bootstrap. cbv zeta. rewrite (get_str_in _ _ _ (typed_nodup _ W) I). split; reflexivity. Qed.
Lemma split_piece sep p t : ~ In sep p -> forall cur, split_at sep cur (p ++ sep :: t) = (rev cur ++ p) :: split_at sep [] t.
Proof.
  induction p as [|b p IH]; intros D cur; cbn [app split_at].
  - destruct (byte_eqb_reflect sep sep); [|congruence]. rewrite app_nil_r. reflexivity.
  - destruct (byte_eqb_reflect b sep) as [->|N0]; [exfalso; apply D; left; reflexivity|]. rewrite IH by (intros X; apply D; right; exact X). cbn [rev]. rewrite <- app_assoc. reflexivity.
Qed.
Lemma split_last sep p : ~ In sep p -> forall cur, split_at sep cur p = [rev cur ++ p].
Proof.
  induction p as [|b p IH]; intros D cur; cbn [split_at]; [rewrite app_nil_r; reflexivity|].
  destruct (byte_eqb_reflect b sep) as [->|N0]; [exfalso; apply D; left; reflexivity|]. rewrite IH by (intros X; apply D; right; exact X). cbn [rev]. rewrite <- app_assoc. reflexivity.
Qed.
Lemma split_join sep pieces : pieces <> [] -> (forall p, In p pieces -> ~ In sep p) -> split_at sep [] (join_with [sep] pieces) = pieces.
Proof.
  induction pieces as [|p r IH]; intros NE F; [congruence|]. cbn [join_with]. destruct r as [|q r]; [exact (split_last sep p (F p (or_introl eq_refl)) [])|].
  cbn [app]. rewrite (split_piece sep p _ (F p (or_introl eq_refl)) []). cbn [rev app]. f_equal. apply IH; [discriminate|]. intros x I. apply F. right. exact I.
Qed.
Lemma array_lemma s network pieces : dns_bootstrap s network = join_with (str ";") pieces -> (forall p, In p pieces -> ~ In x3b p) ->
  dns_bootstrap_array s network = filter (fun p => negb (bytes_eqb p [])) pieces.
Proof.
  intros E F. unfold dns_bootstrap_array. rewrite E. change (str ";") with [x3b].
  transitivity (filter (fun e : bytes => match e with [] => false | _ => true end) pieces).
  - destruct pieces as [|p r]; [reflexivity|]. rewrite split_join by (discriminate || exact F). reflexivity.
  - apply filter_ext. intros [|b r]; reflexivity.
Qed.

(** ** Flags *)
Lemma land_pow a i : negb (N.land a (2 ^ i) =? 0) = N.testbit a i.
Proof.
  destruct (N.testbit a i) eqn:E.
  - apply negb_true_iff, N.eqb_neq. intros X. assert (Y : N.testbit (N.land a (2 ^ i)) i = true) by (rewrite N.land_spec, E, N.pow2_bits_true; reflexivity). rewrite X, N.bits_0 in Y. discriminate.
  - apply negb_false_iff, N.eqb_eq. apply N.bits_inj. intros j. rewrite N.land_spec, N.bits_0, N.pow2_bits_eqb. destruct (N.eqb_spec i j) as [<-|]; [rewrite E; reflexivity|apply andb_false_r].
Qed.
Lemma flag_lemma s name z i : well_typed local_table s -> In (name, FInt z) s -> flag s name (2 ^ i) = N.testbit (Z.to_N z) i.
Proof. intros W I. unfold flag. rewrite (get_num_in _ _ _ (typed_nodup _ W) I). apply land_pow. Qed.
Lemma dnssec_lemma s z : well_typed local_table s -> In (str "dns_security_flags", FInt z) s ->
  dnssec_srv_enforced s = N.testbit (Z.to_N z) 0 /\ dnssec_relay_addr_enforced s = N.testbit (Z.to_N z) 1 /\ dnssec_telemetry_enforced s = N.testbit (Z.to_N z) 2.
Proof. intros W I. repeat split; [exact (flag_lemma _ _ _ 0 W I)|exact (flag_lemma _ _ _ 1 W I)|exact (flag_lemma _ _ _ 2 W I)]. Qed.
Lemma catchup_lemma s z : well_typed local_table s -> In (str "catchup_block_validate_mode", FInt z) s ->
  catchup_verify_certificate s = negb (N.testbit (Z.to_N z) 0) /\ catchup_verify_payset_hash s = negb (N.testbit (Z.to_N z) 1) /\
  catchup_verify_transaction_signatures s = N.testbit (Z.to_N z) 2 /\ catchup_verify_apply_data s = N.testbit (Z.to_N z) 3.
Proof.
  intros W I. repeat split; [unfold catchup_verify_certificate; f_equal; exact (flag_lemma _ _ _ 0 W I)|unfold catchup_verify_payset_hash; f_equal; exact (flag_lemma _ _ _ 1 W I)|
    exact (flag_lemma _ _ _ 2 W I)|exact (flag_lemma _ _ _ 3 W I)].
Qed.

(** ** Relays *)
Lemma struct_names {T V} (dec : T -> json -> option V) deny table v s : decode_struct dec deny table v = Some s -> map fst s = map fst table.
Proof.
  destruct v as [| | | | |l|m]; try discriminate; cbn [decode_struct].
  - revert l s. induction table as [|[n t] r IH]; intros [|v l] s; cbn [visit_seq]; try discriminate; [intros [= <-]; reflexivity|].
    destruct (dec t v) as [x|]; [|discriminate]. specialize (IH l). destruct (visit_seq dec r l) as [o|]; [|discriminate]. intros [= <-]. cbn [map fst]. f_equal. apply IH. reflexivity.
  - destruct (visit_entries dec deny table m []) as [acc|]; [|discriminate]. intros E. exact (proj1 (collect_ok _ _ _ E)).
Qed.
Lemma load_names c s : load c = Some s -> map fst s = map fst local_table.
Proof. unfold load. destruct (utf8 c); [|discriminate]. destruct (parse c) as [v|]; [|discriminate]. apply struct_names. Qed.
Lemma name_in n (s : settings) : map fst s = map fst local_table -> In n (map fst local_table) -> exists v, In (n, v) s.
Proof. intros <- I. apply in_map_iff in I. destruct I as [[n' v] [<- I]]. exists v. exact I. Qed.
Lemma member_ok (l : list bytes) n : existsb (bytes_eqb n) l = true -> In n l.
Proof. intros E. apply existsb_exists in E. destruct E as [x [I E]]. apply bytes_eqb_spec in E. subst. exact I. Qed.
Lemma relay_names n : relay_setting n -> In n (map fst local_table).
Proof. intros [<-|[<-|[<-|[]]]]; apply member_ok; vm_compute; reflexivity. Qed.
Lemma relay_lemma fs dir s' a : load_from_disk fs dir = Some s' -> In (str "net_address", FStr a) s' -> a <> [] ->
  forall n, relay_setting n -> In (n, FBool true) s'.
Proof.
  intros L I NE n R. destruct (content fs (path_join dir (str "config.json"))) as [c|] eqn:E.
  2: { unfold load_from_disk, load_from_file, merge_from_file in L. change CONFIG_FILENAME with (str "config.json") in L. rewrite E in L. discriminate. }
  destruct (disk_lemma _ _ _ _ E L) as [s [Ls [A [B C]]]]. pose proof (load_names _ _ Ls) as Ns.
  destruct (name_in _ _ Ns (relay_names n R)) as [v Iv]. specialize (C n v Iv R).
  destruct (name_in (str "net_address") s Ns) as [w Iw]; [apply member_ok; vm_compute; reflexivity|].
  pose proof (B _ _ Iw) as Iw'. assert (Ds : NoDup (map fst s')) by (rewrite A, Ns; exact local_nodup).
  assert (w = FStr a) as ->.
  { assert (X : ~ relay_setting (str "net_address")) by (vm_compute; intuition discriminate). specialize (Iw' X). apply (in_assoc _ _ _ Ds) in I. apply (in_assoc _ _ _ Ds) in Iw'. congruence. }
  rewrite (get_str_in s _ a) in C; [|rewrite Ns; exact local_nodup|exact Iw]. destruct a; [congruence|exact C].
Qed.
Lemma loaded_lemma fs dir c s : content fs (path_join dir (str "config.json")) = Some c -> load c = Some s ->
  exists s', load_from_disk fs dir = Some s' /\ with_relay_settings s s'.
Proof.
  intros E L. exists (relayed s). split; [|apply relayed_ok]. unfold load_from_disk, load_from_file. rewrite merge_relayed. change CONFIG_FILENAME with (str "config.json"). rewrite E, L. reflexivity.
Qed.
Lemma given_lemma fs dir c m : content fs (path_join dir (str "config.json")) = Some c -> utf8 c = true -> parse c = Some (JObj m) ->
  (load_from_disk fs dir <> None <-> forall n t, In (n, t) local_table -> exists v, values n m = [v] /\ decode_field t v <> None) /\
  (forall s', load_from_disk fs dir = Some s' ->
    exists s, with_relay_settings s s' /\ forall n t, In (n, t) local_table -> exists v x, values n m = [v] /\ decode_field t v = Some x /\ In (n, x) s).
Proof.
  intros E U P. split; [split|].
  - intros X n t I. destruct (load_from_disk fs dir) as [s'|] eqn:L; [|congruence]. destruct (disk_lemma _ _ _ _ E L) as [s [Ls _]]. apply (load_obj c m s U P) in Ls.
    destruct (proj2 Ls n t I) as [v [x [A [B _]]]]. exists v. split; [exact A|congruence].
  - intros F.
    assert (exists s, load c = Some s) as [s Ls].
    { unfold load. rewrite U, P. cbn [decode_struct].
      assert (X : visit_entries decode_field false local_table m [] <> None).
      { apply visit_total. intros k t Ht. right. destruct (F k t (assoc_in _ _ _ Ht)) as [v [A B]]. exists v. split; [exact A|]. split; [exact B|reflexivity]. }
      destruct (visit_entries decode_field false local_table m []) as [acc|] eqn:Ev; [|congruence].
      destruct (collect local_table acc) as [s|] eqn:Ec; [exists s; reflexivity|]. exfalso. revert Ec. apply collect_total. intros n I.
      apply in_map_iff in I. destruct I as [[n' t] [<- I]]. cbn [fst]. pose proof (visit_ok _ _ _ _ _ _ Ev n' t (in_assoc _ _ _ local_nodup I)) as Z.
      destruct (F n' t I) as [v [A B]]. rewrite A in Z. destruct Z as [_ [x [_ Z]]]. congruence. }
    destruct (loaded_lemma _ _ _ _ E Ls) as [s' [X _]]. congruence.
  - intros s' L. destruct (disk_lemma _ _ _ _ E L) as [s [Ls W]]. exists s. split; [exact W|]. exact (proj2 (proj1 (load_obj c m s U P) Ls)).
Qed.

(** ** Phonebook *)
Lemma path_nonempty dir n : n <> [] -> path_join dir n <> [].
Proof. intros NE. unfold path_join. destruct dir as [|b d]; [exact NE|]. destruct (Byte.eqb _ _); discriminate. Qed.
Lemma write_read fs p d fs' : write_file fs p d = Some fs' -> content fs' p = Some d /\ writable fs' = writable fs /\ forall q, q <> p -> content fs' q = content fs q.
Proof.
  unfold write_file. destruct (writable fs p); [|discriminate]. intros [= <-]. cbn [content writable]. rewrite bytes_eqb_refl. repeat split; auto.
  intros q Hq. rewrite (proj2 (bytes_eqb_neq _ _) Hq). reflexivity.
Qed.
Lemma phonebook_wf entries : wf_json (phonebook_json entries).
Proof. apply wf_obj. repeat constructor. cbn [snd]. apply wf_arr, Forall_map, Forall_forall. intros; exact I. Qed.
Lemma phonebook_utf8 entries : Forall (fun e => utf8 e = true) entries -> utf8_json (phonebook_json entries).
Proof. intros F. apply utf8_obj. repeat constructor. cbn [snd]. apply utf8_arr, Forall_map. exact F. Qed.
Lemma phonebook_not_null entries : parse (pretty 0 (phonebook_json entries)) <> Some JNull.
Proof.
  unfold parse. set (n := length _). unfold phonebook_json. cbn [pretty app read_value skip_ws]. change (is_ws x7b) with false. cbv iota zeta.
  change (Byte.to_N x7b =? 34) with false. change (Byte.to_N x7b =? 91) with false. change (Byte.to_N x7b =? 123) with true. cbv iota.
  destruct (read_sequence _ _ _) as [[m r]|]; [|discriminate]. destruct (skip_ws r); [|discriminate]. unfold object_json. destruct (keyed m); discriminate.
Qed.
Lemma phonebook_lost expand fs entries root fs' : expand (path_join root (str "phonebook.json")) = Some (path_join root (str "phonebook.json")) ->
  save_phonebook_to_disk expand fs entries root = (fs', Ok tt) -> load_phonebook fs' root = Err tt.
Proof.
  intros X. unfold save_phonebook_to_disk. change PHONEBOOK_FILENAME with (str "phonebook.json"). rewrite X. destruct (write_file _ _ _) as [fs1|] eqn:E; [|discriminate].
  intros [= <-]. apply write_read in E. destruct E as [E _]. unfold load_phonebook. change PHONEBOOK_FILENAME with (str "phonebook.json"). rewrite E.
  pose proof (phonebook_not_null entries) as NN. destruct (utf8 _); [|reflexivity]. destruct (parse _) as [[]|]; reflexivity || congruence.
Qed.
Lemma phonebook_empty fs root l : load_phonebook fs root = Ok l -> l = [].
Proof. unfold load_phonebook. destruct (content _ _); [|discriminate]. destruct (utf8 _); [|discriminate]. destruct (parse _) as [[]|]; try discriminate. intros [= <-]. reflexivity. Qed.
Lemma phonebook_text expand fs entries root p : Forall (fun e => utf8 e = true) entries -> expand (path_join root (str "phonebook.json")) = Some p -> writable fs p = true ->
  exists fs' c, save_phonebook_to_disk expand fs entries root = (fs', Ok tt) /\ content fs' p = Some c /\ utf8 c = true /\
    parse c = Some (JObj [(str "include", JArr (map JStr entries))]) /\ forall q, q <> p -> content fs' q = content fs q.
Proof.
  intros F X Wr. unfold save_phonebook_to_disk. change PHONEBOOK_FILENAME with (str "phonebook.json"). rewrite X.
  destruct (write_file fs p (pretty 0 (phonebook_json entries))) as [fs'|] eqn:E; [|unfold write_file in E; rewrite Wr in E; discriminate].
  apply write_read in E. destruct E as [A [_ B]]. eexists _, _. split; [reflexivity|]. split; [exact A|]. split; [apply (utf8_pretty _ _ 0%nat (le_n _)); [apply phonebook_wf|apply phonebook_utf8, F]|].
  split; [apply parse_pretty; [apply phonebook_wf|apply phonebook_utf8, F]|exact B].
Qed.

(** ** Configurable protocols *)
Lemma params_back p : params_of (params_fields p) = Some p.
Proof. destruct p. unfold params_fields, params_of, FNum. cbn. rewrite !N2Z.id. reflexivity. Qed.
Lemma entries_back t : forall acc, NoDup (map fst acc ++ map fst t) -> protocols_typed t ->
  decode_entries (map (fun e => (version_name (fst e), encode_struct (params_fields (snd e)))) t) acc = Some (acc ++ t).
Proof.
  induction t as [|[v p] t IH]; intros acc D F; cbn [map decode_entries fst snd]; [rewrite app_nil_r; reflexivity|].
  inversion F as [|? ? F1 F2]; subst. cbn [snd] in F1. unfold decode_params. rewrite name_back, (struct_back _ _ params_nodup F1), params_back.
  rewrite insert_fresh by (cbn [map fst] in D; apply NoDup_remove_2 in D; intros X; apply D, in_or_app; left; exact X).
  rewrite IH; [rewrite <- app_assoc; reflexivity| |exact F2]. rewrite map_app, <- app_assoc. exact D.
Qed.
Lemma protocols_back t : NoDup (map fst t) -> protocols_typed t -> decode_protocols (encode_protocols t) = Some t.
Proof. intros D F. unfold decode_protocols, encode_protocols. rewrite (entries_back t []); [reflexivity|exact D|exact F]. Qed.
Lemma protocols_wf t : protocols_typed t -> wf_json (encode_protocols t).
Proof. intros F. apply wf_obj, Forall_map. eapply Forall_impl; [|exact F]. intros e He. exact (struct_wf _ _ He). Qed.
Lemma protocols_utf8 t : protocols_typed t -> utf8_json (encode_protocols t).
Proof.
  intros F. apply utf8_obj, Forall_map. eapply Forall_impl; [|exact F]. intros e He. split; [apply name_utf8|]. exact (struct_utf8 _ _ (names_utf8 params_table eq_refl) He).
Qed.
Lemma preload_saved fs dir t cons : NoDup (map fst t) -> protocols_typed t -> content fs (path_join dir (str "consensus.json")) = Some (pretty 0 (encode_protocols t)) ->
  preload_configurable_consensus_protocols fs dir cons = match merge cons t with Some t' => Ok t' | None => Panic end.
Proof.
  intros D F E. unfold preload_configurable_consensus_protocols. change CONFIGURABLE_CONSENSUS_PROTOCOLS_FILENAME with (str "consensus.json"). rewrite E.
  pose proof (protocols_wf t F) as W. rewrite (parse_pretty _ W (protocols_utf8 t F)), (protocols_back t D F). reflexivity.
Qed.
Lemma save_lemma fs dir t : t <> [] -> writable fs (path_join dir (str "consensus.json")) = true ->
  exists fs', save_configurable_consensus fs dir t = (fs', Ok tt) /\ content fs' (path_join dir (str "consensus.json")) = Some (pretty 0 (encode_protocols t)) /\
    forall q, q <> path_join dir (str "consensus.json") -> content fs' q = content fs q.
Proof.
  intros NE Wr. unfold save_configurable_consensus. cbv zeta. change CONFIGURABLE_CONSENSUS_PROTOCOLS_FILENAME with (str "consensus.json").
  destruct t as [|e t]; [congruence|]. destruct (write_file fs _ _) as [fs'|] eqn:E; [|unfold write_file in E; rewrite Wr in E; discriminate].
  apply write_read in E. destruct E as [A [_ B]]. exists fs'. split; [reflexivity|]. split; [exact A|exact B].
Qed.
Lemma saved_protocols fs dir t cons : t <> [] -> NoDup (map fst t) -> protocols_typed t -> writable fs (path_join dir (str "consensus.json")) = true ->
  exists fs', save_configurable_consensus fs dir t = (fs', Ok tt) /\ (forall q, q <> path_join dir (str "consensus.json") -> content fs' q = content fs q) /\
    preload_configurable_consensus_protocols fs' dir cons = match merge cons t with Some t' => Ok t' | None => Panic end.
Proof.
  intros NE D F Wr. destruct (save_lemma fs dir t NE Wr) as [fs' [A [B C]]]. exists fs'. split; [exact A|]. split; [exact C|]. exact (preload_saved _ _ _ _ D F B).
Qed.
Lemma empty_lemma fs dir cons c : content fs (path_join dir (str "consensus.json")) = Some c -> writable fs (path_join dir (str "consensus.json")) = true ->
  exists fs', save_configurable_consensus fs dir [] = (fs', Ok tt) /\ content fs' (path_join dir (str "consensus.json")) = Some (str "{}") /\
    (forall q, q <> path_join dir (str "consensus.json") -> content fs' q = content fs q) /\
    preload_configurable_consensus_protocols fs' dir cons = Ok cons /\ load_configurable_consensus_protocols fs' dir cons = Ok cons.
Proof.
  intros E Wr. unfold save_configurable_consensus. cbv zeta. change CONFIGURABLE_CONSENSUS_PROTOCOLS_FILENAME with (str "consensus.json"). set (p := path_join dir (str "consensus.json")) in *.
  unfold remove_file. rewrite E, Wr. unfold write_file. cbn [writable]. rewrite Wr. eexists. split; [reflexivity|]. cbn [content]. rewrite bytes_eqb_refl.
  split; [reflexivity|]. split; [intros q Hq; rewrite (proj2 (bytes_eqb_neq _ _) Hq); reflexivity|].
  assert (X : forall fs', content fs' p = Some (pretty 0 (encode_protocols [])) -> preload_configurable_consensus_protocols fs' dir cons = Ok cons).
  { intros fs' Ef. rewrite (preload_saved fs' dir [] cons (NoDup_nil _) (Forall_nil _) Ef). reflexivity. }
  split; [apply X; cbn [content]; rewrite bytes_eqb_refl; reflexivity|]. unfold load_configurable_consensus_protocols. rewrite X by (cbn [content]; rewrite bytes_eqb_refl; reflexivity). destruct cons; reflexivity.
Qed.
Lemma empty_missing fs dir : content fs (path_join dir (str "consensus.json")) = None -> save_configurable_consensus fs dir [] = (fs, Err tt).
Proof.
  intros E. unfold save_configurable_consensus. cbv zeta. change CONFIGURABLE_CONSENSUS_PROTOCOLS_FILENAME with (str "consensus.json"). unfold remove_file. rewrite E. reflexivity.
Qed.
Lemma no_file fs dir cons : content fs (path_join dir (str "consensus.json")) = None ->
  preload_configurable_consensus_protocols fs dir cons = Ok cons /\ load_configurable_consensus_protocols fs dir cons = Ok cons.
Proof.
  intros E. assert (X : preload_configurable_consensus_protocols fs dir cons = Ok cons).
  { unfold preload_configurable_consensus_protocols. change CONFIGURABLE_CONSENSUS_PROTOCOLS_FILENAME with (str "consensus.json"). rewrite E. reflexivity. }
  split; [exact X|]. unfold load_configurable_consensus_protocols. rewrite X. destruct cons; reflexivity.
Qed.
