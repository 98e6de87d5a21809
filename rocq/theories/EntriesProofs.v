(** Which entries of a map matter when a transaction is read. *)
From Coq Require Import Permutation String.
Local Open Scope list_scope.
From Verif Require Import Base BaseFacts MsgpackModel FormSpec FormProofs TxDecodeModel DecodedSpec.
Local Open Scope N_scope.

Lemma key_is_iff name e : key_is name e = true <-> named name e.
Proof.
  unfold key_is, named. destruct (fst e); try (split; [discriminate|intros [E|E]; discriminate]).
  - rewrite bytes_eqb_spec. split; [intros ->; auto|intros [E|E]; [injection E as ->; reflexivity|discriminate]].
  - rewrite bytes_eqb_spec. split; [intros ->; auto|intros [E|E]; [discriminate|injection E as ->; reflexivity]].
Qed.
Lemma plain_name e : has_name e -> plain_key e = true.
Proof. unfold plain_key, has_name. destruct (fst e); auto; contradiction. Qed.
Lemma filter_perm {A} (f : A -> bool) l l' : Permutation l l' -> Permutation (filter f l) (filter f l').
Proof.
  induction 1 as [|x l l' P IH|x y l|l l' l'' P1 IH1 P2 IH2]; cbn [filter]; [constructor| | |eapply perm_trans; eassumption].
  - destruct (f x); [constructor|]; exact IH.
  - destruct (f x), (f y); try apply Permutation_refl. constructor.
Qed.
Lemma field_perm (name : String.string) l l' : Permutation l l' -> field_value name l = field_value name l'.
Proof.
  intros P. assert (Q : Permutation (values_of name l) (values_of name l')) by (apply Permutation_map, filter_perm, P).
  unfold field_value. destruct (values_of name l) as [|v [|w r]].
  - apply Permutation_nil in Q. rewrite Q. reflexivity.
  - apply Permutation_length_1_inv in Q. rewrite Q. reflexivity.
  - pose proof (Permutation_length Q) as L. cbn in L. destruct (values_of name l') as [|? [|]]; try discriminate. reflexivity.
Qed.
Definition alike (l l' : list (value * value)) : Prop := forall name : String.string, In (str name) known_names -> field_value name l = field_value name l'.
Ltac known := let H := fresh in vm_compute; tauto.
Section Fix.
Variable valid_key : bytes -> bool.
Ltac same_fields A := unfold need, or_default; repeat match goal with |- context [field_value ?n ?l] => match type of A with alike l _ => rewrite (A n) by known end end; reflexivity.
Lemma header_alike l l' : alike l l' -> get_header l = get_header l'.
Proof. intros A. unfold get_header. same_fields A. Qed.
Lemma kind_alike l l' : alike l l' -> forall e, In e (kinds valid_key) -> snd e l = snd e l'.
Proof.
  intros A e I. cbn [In kinds] in I. repeat destruct I as [<-|I]; [| | | | | | |contradiction]; cbn [snd].
  - unfold get_keyreg. same_fields A. - unfold get_payment. same_fields A. - unfold get_asset_config. same_fields A. - unfold get_asset_transfer. same_fields A.
  - unfold get_asset_freeze. same_fields A. - unfold get_app_call. same_fields A. - unfold get_compact_cert. same_fields A.
Qed.
Lemma fields_alike l l' : names_only l = names_only l' -> alike l l' -> get_fields valid_key l = get_fields valid_key l'.
Proof.
  intros Q A. unfold get_fields, need. rewrite <- Q. destruct (names_only l); [|reflexivity]. rewrite <- (A "type"%string) by known. destruct (field_value "type" l) as [[v|]|]; [|reflexivity..].
  assert (F : forall s, (let o := match List.find (fun e => bytes_eqb (fst e) s) (kinds valid_key) with Some (_, a) => Some a | None => None end in match o with Some k => k l | None => None end = match o with Some k => k l' | None => None end)).
  { intros s. cbv zeta. destruct (List.find _ (kinds valid_key)) as [[n k]|] eqn:E; [|reflexivity]. apply find_some in E. exact (kind_alike l l' A _ (proj1 E)). }
  unfold get_variant. destruct v; try reflexivity; apply F.
Qed.
Lemma forallb_perm {A} (f : A -> bool) l l' : Permutation l l' -> forallb f l = forallb f l'.
Proof. intros P. apply eq_true_iff_eq. rewrite !forallb_forall. split; intros X e I; apply X; eapply Permutation_in; [apply Permutation_sym|..]; eassumption. Qed.
Lemma order_value l l' : Permutation l l' -> get_tx valid_key (VMap l) = get_tx valid_key (VMap l').
Proof.
  intros P. unfold get_tx. rewrite (forallb_perm _ _ _ P). destruct (forallb plain_key l'); [|reflexivity]. rewrite (header_alike l l') by (intros n _; apply field_perm, P). destruct (get_header l'); [|reflexivity].
  erewrite fields_alike; [reflexivity|apply forallb_perm, filter_perm, P|]. intros n _. apply field_perm, filter_perm, P.
Qed.
Lemma field_skip e l (name : String.string) : ~ named (str name) e -> field_value name (e :: l) = field_value name l.
Proof. intros N. unfold field_value, values_of. cbn [filter]. destruct (key_is (str name) e) eqn:K; [|reflexivity]. apply key_is_iff in K. contradiction. Qed.
Lemma unknown_value e l : has_name e -> (forall name, In name known_names -> ~ named name e) -> get_tx valid_key (VMap (e :: l)) = get_tx valid_key (VMap l).
Proof.
  intros N U. apply plain_name in N as S. unfold get_tx. cbn [forallb]. rewrite S. cbn [andb]. destruct (forallb plain_key l); [|reflexivity].
  rewrite (header_alike (e :: l) l) by (intros n I; apply field_skip, U, I). destruct (get_header l); [|reflexivity]. cbn [filter].
  destruct (negb (existsb (fun k => key_is k e) header_keys)); [|reflexivity].
  erewrite fields_alike; [reflexivity| |intros n I; apply field_skip, U, I].
  unfold names_only. cbn [forallb]. unfold name_key at 1. unfold has_name in N. destruct (fst e); try contradiction; reflexivity.
Qed.
Lemma field_twice (name : String.string) e f l : named (str name) e -> named (str name) f -> field_value name (e :: f :: l) = None.
Proof. intros E F. apply key_is_iff in E, F. unfold field_value, values_of. cbn [filter]. rewrite E, F. reflexivity. Qed.
Lemma twice_value e f l name : In name header_names -> named name e -> named name f -> get_tx valid_key (VMap (e :: f :: l)) = None.
Proof.
  intros I E F. unfold get_tx. destruct (forallb plain_key (e :: f :: l)); [|reflexivity].
  assert (X : forall n : String.string, str n = name -> field_value n (e :: f :: l) = None) by (intros n <-; apply field_twice; assumption).
  unfold header_names in I. cbn [map In] in I. repeat destruct I as [I|I]; [..|contradiction].
  1-10: assert (H0 : get_header (e :: f :: l) = None) by (unfold get_header, or_default; rewrite (X _ I); repeat first [progress cbv iota | reflexivity | match goal with |- match ?x with Some _ => _ | None => None end = None => destruct x; [|reflexivity] end]); rewrite H0; reflexivity.
  destruct (get_header (e :: f :: l)); [|reflexivity]. cbn [filter].
  assert (Y : forall g, named name g -> negb (existsb (fun k => key_is k g) header_keys) = true).
  { intros g G. subst name. apply negb_true_iff. destruct (existsb (fun k => key_is k g) header_keys) eqn:B; [|reflexivity]. apply existsb_exists in B. destruct B as (k & Ik & Hk).
    apply key_is_iff in Hk. exfalso. assert (Ek : k = str "type") by (destruct G as [G|G], Hk as [Hk|Hk]; congruence). subst k. vm_compute in Ik. repeat destruct Ik as [Ik|Ik]; try discriminate. contradiction. }
  rewrite (Y e E), (Y f F). unfold get_fields, need. rewrite field_twice by (rewrite I; assumption). destruct (names_only _); reflexivity.
Qed.

Lemma decode_tx_form v b rest : form v b -> decode_tx valid_key (b ++ rest) = get_tx valid_key v.
Proof. intros F. unfold decode_tx. assert (D : decode (b ++ rest) = Some v) by (apply decode_form; eauto). rewrite D. reflexivity. Qed.
Lemma order_lemma l l' b b' rest rest' : Permutation l l' -> form (VMap l) b -> form (VMap l') b' -> decode_tx valid_key (b ++ rest) = decode_tx valid_key (b' ++ rest').
Proof. intros P F F'. rewrite (decode_tx_form _ _ _ F), (decode_tx_form _ _ _ F'). apply order_value, P. Qed.
Lemma unknown_lemma e l b b' rest rest' : has_name e -> (forall name, In name known_names -> ~ named name e) -> form (VMap (e :: l)) b -> form (VMap l) b' ->
  decode_tx valid_key (b ++ rest) = decode_tx valid_key (b' ++ rest').
Proof. intros S U F F'. rewrite (decode_tx_form _ _ _ F), (decode_tx_form _ _ _ F'). apply unknown_value; assumption. Qed.
Lemma twice_lemma e f l l' b rest name : In name header_names -> named name e -> named name f -> Permutation (e :: f :: l) l' -> form (VMap l') b -> decode_tx valid_key (b ++ rest) = None.
Proof. intros I E F P G. rewrite (decode_tx_form _ _ _ G), <- (order_value _ _ P). exact (twice_value e f l name I E F). Qed.
Lemma keys_lemma e l b rest : In e l -> ~ has_name e -> (forall n, fst e <> VInt n) -> form (VMap l) b -> decode_tx valid_key (b ++ rest) = None.
Proof.
  intros I N _ F. rewrite (decode_tx_form _ _ _ F). unfold get_tx. destruct (forallb plain_key l); [|reflexivity]. destruct (get_header l); [|reflexivity].
  unfold get_fields. replace (names_only _) with false; [reflexivity|]. symmetry. unfold names_only. destruct (forallb _ _) eqn:E; [|reflexivity]. exfalso.
  assert (J : In e (filter (fun x => negb (existsb (fun k => key_is k x) header_keys)) l)).
  { apply filter_In. split; [exact I|]. apply negb_true_iff. destruct (existsb _ _) eqn:X; [|reflexivity]. apply existsb_exists in X. destruct X as (k & _ & K). apply key_is_iff in K.
    exfalso. apply N. unfold has_name. destruct K as [-> | ->]; exact Logic.I. }
  pose proof (proj1 (forallb_forall _ _) E e J) as K. unfold name_key in K. apply N. unfold has_name. destruct (fst e); try discriminate; exact Logic.I.
Qed.
End Fix.
