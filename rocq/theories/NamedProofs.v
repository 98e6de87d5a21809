(** Structs given by the names of their fields: proofs. *)
From Coq Require Import Permutation String.
From Verif Require Import Base BaseFacts MsgpackModel MsgpackProofs FormSpec FormProofs StructModel StructProofs TxDecodeModel DecodedSpec EntriesProofs NamedSpec.
From Verif Require Import Scheme OtsModel AccountModel AccountProofs RestoreProofs GenDecodeModel.
Local Open Scope list_scope.
Local Open Scope N_scope.

Lemma name_key_iff e : name_key e = true <-> has_name e.
Proof. unfold name_key, has_name. destruct (fst e); split; auto; try discriminate; contradiction. Qed.
Lemma named_has n e : named n e -> has_name e.
Proof. unfold named, has_name. intros [-> | ->]; exact I. Qed.
Lemma named_same a b e : named a e -> named b e -> a = b.
Proof. unfold named. intros [A|A] [B|B]; congruence. Qed.

Lemma values_app (n : string) a b : values_of n (a ++ b) = values_of n a ++ values_of n b.
Proof. unfold values_of. rewrite filter_app, map_app. reflexivity. Qed.
Lemma values_none (n : string) l : (forall e, In e l -> ~ named (str n) e) -> values_of n l = [].
Proof.
  intros H. unfold values_of. replace (filter (key_is (str n)) l) with (@nil (value * value)); [reflexivity|]. symmetry. induction l as [|e l IH]; [reflexivity|]. cbn [filter].
  destruct (key_is (str n) e) eqn:K; [apply key_is_iff in K; exfalso; apply (H e); [left; reflexivity|exact K]|]. apply IH. intros x I. apply H. right. exact I.
Qed.
Lemma values_one (n : string) e l : named (str n) e -> (forall x, In x l -> ~ named (str n) x) -> values_of n (e :: l) = [snd e].
Proof. intros N H. apply key_is_iff in N. unfold values_of. cbn [filter]. rewrite N. cbn [map]. f_equal. apply (values_none n l H). Qed.
Lemma need_perm {A} (n : string) (get : value -> option A) l l' : Permutation l l' -> need n get l = need n get l'.
Proof. intros P. unfold need. rewrite (field_perm n l l' P). reflexivity. Qed.
Lemma need_one {A} (n : string) (get : value -> option A) l v : values_of n l = [v] -> need n get l = get v.
Proof. intros E. unfold need, field_value. rewrite E. reflexivity. Qed.

Lemma named_values_perm names l l' : Permutation l l' -> named_values names l = named_values names l'.
Proof. intros P. induction names as [|n names IH]; [reflexivity|]. cbn [named_values]. rewrite (need_perm n Some l l' P), IH. reflexivity. Qed.
Lemma named_values_other names e l : (forall n, In n names -> ~ named (str n) e) -> named_values names (e :: l) = named_values names l.
Proof.
  intros H. induction names as [|n names IH]; [reflexivity|]. cbn [named_values]. rewrite IH by (intros m I; apply H; right; exact I).
  unfold need. rewrite field_skip by (apply H; left; reflexivity). reflexivity.
Qed.
Lemma carried names : NoDup (map str names) -> forall known others, Forall2 (fun n e => named (str n) e) names known ->
  (forall e n, In e others -> In n names -> ~ named (str n) e) -> named_values names (known ++ others) = Some (map snd known).
Proof.
  intros D known others F. revert D. induction F as [|n e names known N F IH]; intros D O; [reflexivity|]. cbn [map] in D. inversion D as [|? ? Ni D']; subst.
  cbn [named_values app map]. assert (K : forall x, In x (known ++ others) -> ~ named (str n) x).
  { intros x I Nx. apply in_app_or in I. destruct I as [I|I]; [|apply (O x n I); [left; reflexivity|exact Nx]].
    apply Ni. clear - F I Nx. induction F as [|m f names known M F IH]; [destruct I|]. destruct I as [-> | I]; [left; eapply named_same; eassumption|right; auto]. }
  rewrite (need_one n Some _ (snd e)) by (apply values_one; assumption).
  rewrite named_values_other.
  - rewrite IH; [reflexivity|exact D'|]. intros x m Ix Im. apply (O x m Ix). right. exact Im.
  - intros m Im M. apply Ni. rewrite (named_same _ _ _ N M). apply in_map. exact Im.
Qed.
Lemma carries_length names vs l : carries names vs l -> length vs = length names.
Proof. intros (k & o & _ & F & <- & _). rewrite map_length. clear - F. induction F; cbn; congruence. Qed.
Lemma fields_carried names vs l : NoDup (map str names) -> carries names vs l -> fields_of names (VMap l) = Some vs.
Proof.
  intros D (known & others & P & F & <- & O). cbn [fields_of]. rewrite (named_values_perm _ _ _ P).
  assert (N : names_only l = true).
  { apply forallb_forall. intros e I. apply name_key_iff. apply (Permutation_in _ P) in I. apply in_app_or in I. destruct I as [I|I].
    - clear - F I. induction F as [|n f names known N F IH]; [destruct I|]. destruct I as [-> | I]; [eapply named_has; exact N|auto].
    - rewrite Forall_forall in O. apply (O e I). }
  rewrite N. apply carried; [exact D|exact F|]. intros e n Ie In. rewrite Forall_forall in O. apply (O e Ie). exact In.
Qed.

(** The other way round: what is read was carried. *)
Lemma need_split (n : string) l v : need n Some l = Some v -> exists e r, Permutation l (e :: r) /\ named (str n) e /\ snd e = v /\ forall x, In x r -> ~ named (str n) x.
Proof.
  unfold need, field_value. destruct (values_of n l) as [|w [|]] eqn:E; try discriminate. intros F. injection F as ->. unfold values_of in E.
  induction l as [|e l IH]; [discriminate|]. cbn [filter] in E. destruct (key_is (str n) e) eqn:K.
  - cbn [map] in E. injection E as E1 E2. exists e, l. split; [apply Permutation_refl|]. split; [apply key_is_iff; exact K|]. split; [exact E1|].
    intros x I N. apply key_is_iff in N. assert (J : In x (filter (key_is (str n)) l)) by (apply filter_In; auto). apply map_eq_nil in E2. rewrite E2 in J. destruct J.
  - destruct (IH E) as (f & r & P & N & V & O). exists f, (e :: r). split; [eapply perm_trans; [apply perm_skip; exact P|apply perm_swap]|]. split; [exact N|]. split; [exact V|].
    intros x [<- | I] Nx; [apply key_is_iff in Nx; congruence|]. exact (O x I Nx).
Qed.
Lemma named_values_carry names : NoDup (map str names) -> forall l vs, names_only l = true -> named_values names l = Some vs -> carries names vs l.
Proof.
  intros D. induction names as [|n names IH]; intros l vs A E; cbn [named_values] in E.
  - injection E as <-. exists [], l. split; [apply Permutation_refl|]. split; [constructor|]. split; [reflexivity|]. apply Forall_forall. intros e I. split; [|intros ? []].
    apply name_key_iff. apply (proj1 (forallb_forall _ _) A e I).
  - destruct (need n Some l) as [v|] eqn:N; [|discriminate]. destruct (named_values names l) as [ws|] eqn:W; [|discriminate]. injection E as <-.
    cbn [map] in D. inversion D as [|? ? Ni D']; subst. apply need_split in N. destruct N as (e & r & P & N & V & O).
    rewrite (named_values_perm _ _ _ P), named_values_other in W by (intros m Im M; apply Ni; rewrite (named_same _ _ _ N M); apply in_map; exact Im).
    assert (Ar : names_only r = true). { apply forallb_forall. intros x I. apply (proj1 (forallb_forall _ _) A). eapply Permutation_in; [apply Permutation_sym, P|right; exact I]. }
    destruct (IH D' r ws Ar W) as (known & others & Pk & F & M & Oo).
    exists (e :: known), others. split; [eapply perm_trans; [exact P|]; cbn [app]; apply perm_skip; exact Pk|]. split; [constructor; assumption|]. split; [cbn [map]; congruence|].
    apply Forall_forall. intros x I. rewrite Forall_forall in Oo. destruct (Oo x I) as [Hx Nx]. split; [exact Hx|]. intros m [<- | Im]; [|apply Nx, Im].
    apply O. eapply Permutation_in; [apply Permutation_sym, Pk|]. apply in_or_app. right. exact I.
Qed.
Lemma fields_has names v vs : NoDup (map str names) -> fields_of names v = Some vs <-> struct_has names vs v.
Proof.
  intros D. unfold struct_has. split.
  - unfold fields_of. destruct v; try discriminate.
    + destruct (Nat.eqb_spec (length l) (length names)) as [L|]; [|discriminate]. intros E. injection E as <-. auto.
    + destruct (names_only l) eqn:N; [|discriminate]. intros E. apply named_values_carry in E; [|exact D|exact N]. split; [eapply carries_length; exact E|eauto].
  - intros [L [-> | (l & -> & C)]]; [|apply fields_carried; assumption]. cbn [fields_of]. rewrite L, Nat.eqb_refl. reflexivity.
Qed.

Fixpoint distinct (l : list bytes) : bool := match l with [] => true | x :: r => negb (existsb (bytes_eqb x) r) && distinct r end.
Lemma distinct_NoDup l : distinct l = true -> NoDup l.
Proof.
  induction l as [|x l IH]; cbn [distinct]; [constructor|]. intros E. apply andb_prop in E. destruct E as [E1 E2]. constructor; [|auto].
  intros I. apply negb_true_iff in E1. assert (X : existsb (bytes_eqb x) l = true) by (apply existsb_exists; exists x; split; [exact I|apply bytes_eqb_refl]). congruence.
Qed.
Ltac apart := apply distinct_NoDup; vm_compute; reflexivity.

(** The same fields give the same. *)
Section Same.
Variables (names : list string) (D : NoDup (map str names)).
Lemma same_fields vs v v' : struct_has names vs v -> struct_has names vs v' -> fields_of names v = fields_of names v'.
Proof. intros A B. apply (fields_has _ _ _ D) in A, B. congruence. Qed.
End Same.

Section Headers.
Variable bins : bool.
Lemma header_names_apart : NoDup (map str block_header_names). Proof. apart. Qed.
Lemma get_header_fields v v' : fields_of block_header_names v = fields_of block_header_names v' -> get_block_header bins v = get_block_header bins v'.
Proof. unfold get_block_header. change ["round"; "branch"; "seed"; "tx_root"; "timestamp"; "genesis_id"; "genesis_hash"; "rewards_state"; "upgrade_vote"; "tx_counter"; "compact_certs"]%string with block_header_names. intros ->. reflexivity. Qed.
Lemma decode_header_form v b rest : form v b -> decode_block_header bins (b ++ rest) = get_block_header bins v.
Proof. intros F. unfold decode_block_header. assert (D : decode (b ++ rest) = Some v) by (apply decode_form; eauto). rewrite D. reflexivity. Qed.
Lemma header_same vs v v' b b' rest rest' : struct_has block_header_names vs v -> struct_has block_header_names vs v' -> form v b -> form v' b' ->
  decode_block_header bins (b ++ rest) = decode_block_header bins (b' ++ rest').
Proof. intros A B F F'. rewrite (decode_header_form _ _ _ F), (decode_header_form _ _ _ F'). apply get_header_fields. exact (same_fields _ header_names_apart _ _ _ A B). Qed.
Lemma header_has v b rest h : form v b -> decode_block_header bins (b ++ rest) = Some h -> exists vs, struct_has block_header_names vs v.
Proof.
  intros F E. rewrite (decode_header_form _ _ _ F) in E. unfold get_block_header in E. fold block_header_names in E.
  destruct (fields_of block_header_names v) as [vs|] eqn:Ef; [|discriminate]. exists vs. apply (fields_has _ _ _ header_names_apart). exact Ef.
Qed.
End Headers.

Section Genesis.
Variables (valid_key : bytes -> bool) (bins : bool).
Lemma genesis_names_apart : NoDup (map str genesis_names). Proof. apart. Qed.
Lemma load_form v b rest : form v b -> load_genesis valid_key bins (Some (b ++ rest)) = match get_genesis valid_key bins v with Some g => Ok g | None => Panic end.
Proof. intros F. unfold load_genesis. assert (D : decode (b ++ rest) = Some v) by (apply decode_form; eauto). rewrite D. reflexivity. Qed.
Lemma genesis_same vs v v' b b' rest rest' : struct_has genesis_names vs v -> struct_has genesis_names vs v' -> form v b -> form v' b' ->
  load_genesis valid_key bins (Some (b ++ rest)) = load_genesis valid_key bins (Some (b' ++ rest')).
Proof.
  intros A B F F'. rewrite (load_form _ _ _ F), (load_form _ _ _ F'). pose proof (same_fields _ genesis_names_apart _ _ _ A B) as Q. unfold get_genesis. fold genesis_names. rewrite Q. reflexivity.
Qed.
Lemma genesis_has v b rest g : form v b -> load_genesis valid_key bins (Some (b ++ rest)) = Ok g -> exists vs, struct_has genesis_names vs v.
Proof.
  intros F E. rewrite (load_form _ _ _ F) in E. unfold get_genesis in E. fold genesis_names in E.
  destruct (fields_of genesis_names v) as [vs|] eqn:Ef; [|discriminate]. exists vs. apply (fields_has _ _ _ genesis_names_apart). exact Ef.
Qed.
End Genesis.

Section Keys.
Variables (sc : scheme) (is_point : bytes -> bool).
Lemma secrets_names_apart : NoDup (map str secrets_names). Proof. apart. Qed.
Lemma vrf_names_apart : NoDup (map str vrf_names). Proof. apart. Qed.
Lemma from_form {A} (of : value -> option A) v b rest : form v b -> from_bytes of (b ++ rest) = match of v with Some a => Ok a | None => Err DecodeError end.
Proof. intros F. unfold from_bytes. assert (D : decode (b ++ rest) = Some v) by (apply decode_form; eauto). rewrite D. reflexivity. Qed.
Lemma secrets_same vs v v' : struct_has secrets_names vs v -> struct_has secrets_names vs v' -> secrets_of sc is_point v = secrets_of sc is_point v'.
Proof. intros A B. pose proof (same_fields _ secrets_names_apart _ _ _ A B) as Q. unfold secrets_of. fold secrets_names. rewrite Q. reflexivity. Qed.
Lemma vrf_same vs v v' : struct_has vrf_names vs v -> struct_has vrf_names vs v' -> vrf_of v = vrf_of v'.
Proof. intros A B. pose proof (same_fields _ vrf_names_apart _ _ _ A B) as Q. unfold vrf_of. fold vrf_names. rewrite Q. reflexivity. Qed.
Lemma keys_same st st' fields vrf_fields v v' w w' b b' c c' rest rest' more more' :
  struct_has secrets_names fields v -> struct_has secrets_names fields v' -> struct_has vrf_names vrf_fields w -> struct_has vrf_names vrf_fields w' ->
  form v b -> form v' b' -> form w c -> form w' c' ->
  st (str "part-voting") = Some (b ++ rest) -> st' (str "part-voting") = Some (b' ++ rest') -> st (str "part-vrf") = Some (c ++ more) -> st' (str "part-vrf") = Some (c' ++ more') ->
  (forall k, k <> str "part-voting" -> k <> str "part-vrf" -> st k = st' k) -> restore sc is_point st = restore sc is_point st'.
Proof.
  intros A A' B B' F F' G G' S S' T T' O. unfold restore. rewrite S, S', T, T', !(O (str "part-parent")), !(O (str "part-first_valid")), !(O (str "part-last_valid")), !(O (str "part-key_dilution")) by (vm_compute; discriminate).
  cbn [stored]. rewrite (from_form _ _ _ _ F), (from_form _ _ _ _ F'), (from_form _ _ _ _ G), (from_form _ _ _ _ G'), (secrets_same _ _ _ A A'), (vrf_same _ _ _ B B'). reflexivity.
Qed.
Lemma keys_have st p : restore sc is_point st = Ok p -> exists fields vrf_fields v w b c rest more,
  st (str "part-voting") = Some (b ++ rest) /\ form v b /\ struct_has secrets_names fields v /\ st (str "part-vrf") = Some (c ++ more) /\ form w c /\ struct_has vrf_names vrf_fields w.
Proof.
  intros E. apply restore_fields in E. destruct E as (_ & V & O & _). apply stored_some in V, O. destruct V as (s & w & Es & Dw & V). destruct O as (t & v & Et & Dv & O).
  apply decode_form in Dw, Dv. destruct Dw as (c & more & Fw & ->). destruct Dv as (b & rest & Fv & ->).
  unfold vrf_of in V. fold vrf_names in V. destruct (fields_of vrf_names w) as [gs|] eqn:Eg; [|discriminate].
  unfold secrets_of in O. fold secrets_names in O. destruct (fields_of secrets_names v) as [fs|] eqn:Ef; [|discriminate].
  apply (fields_has _ _ _ vrf_names_apart) in Eg. apply (fields_has _ _ _ secrets_names_apart) in Ef.
  exists fs, gs, v, w, b, c, rest, more. auto 10.
Qed.
End Keys.
