(** Forms of signed transactions and signatures: proofs. *)
From Coq Require Import Permutation String.
From Verif Require Import Base BaseFacts MsgpackModel AddressModel FormSpec FormProofs StructModel StructProofs TxDecodeModel TxDecodeSpec TxDecodeProofs DecodedSpec DecodedProofs EntriesProofs NamedSpec NamedProofs.
From Verif Require Import StibTypedProofs SigFormModel SigFormSpec.
Local Open Scope list_scope.
Local Open Scope N_scope.

Ltac apart := repeat constructor; cbn [In map]; intros H; repeat destruct H as [H|H]; try contradiction; vm_compute in H; discriminate H.
Lemma signed_apart : NoDup (map str signed_names). Proof. apart. Qed.
Lemma subsig_apart : NoDup (map str ["key"; "sig"]%string). Proof. apart. Qed.
Lemma multisig_apart : NoDup (map str multisig_names). Proof. apart. Qed.
Lemma lsig_apart : NoDup (map str lsig_names). Proof. apart. Qed.

(** Values among what is missing. *)
Lemma lacking (n : string) optional missing : Forall (fun e => exists m d, In (m, d) optional /\ e = (VStr (str m), d)) missing ->
  forall y, In y (values_of n missing) -> exists m, str m = str n /\ In (m, y) optional.
Proof.
  intros F y Hy. unfold values_of in Hy. apply in_map_iff in Hy. destruct Hy as (e & <- & He). apply filter_In in He. destruct He as [He K].
  rewrite Forall_forall in F. destruct (F e He) as (m & d & Hm & ->). exists m. split; [|exact Hm].
  apply key_is_iff in K. destruct K as [K|K]; cbn [fst] in K; congruence.
Qed.
Lemma lacks_not (n : string) optional missing : Forall (fun e => exists m d, In (m, d) optional /\ e = (VStr (str m), d)) missing ->
  ~ In (str n) (map (fun e => str (fst e)) optional) -> values_of n missing = [].
Proof.
  intros F N. destruct (values_of n missing) as [|y r] eqn:E; [reflexivity|]. exfalso. destruct (lacking n _ _ F y) as (m & K & Hm); [rewrite E; left; reflexivity|].
  apply N. apply in_map_iff. exists (m, y). split; [exact K|exact Hm].
Qed.
Ltac no_name := let H := fresh in intros H; vm_compute in H; repeat (destruct H as [H|H]; [discriminate H|]); exact H.

Section Read.
Variables (valid_key : bytes -> bool) (bins : bool) (valid_sig : bytes -> bool).

Lemma signed_form a b c d e v : signed_given [a; b; c; d; e] v ->
  get_signed_tx valid_key bins valid_sig v =
  match get_sig bins valid_sig a, get_option (get_multisig valid_key bins valid_sig) b, get_option (get_lsig valid_key bins valid_sig) c, get_tx valid_key d, get_fixed bins 32 e with
  | Some a, Some b, Some c, Some d, Some e => Some (mkSigned a b c d e)
  | _, _, _, _, _ => None
  end.
Proof.
  intros [_ [(l & m & -> & E & F)|(l & m & -> & C & M)]].
  - assert (Bad : forall n x r, ~ In n (map fst signed_trailing) -> Forall (fun e => In e signed_trailing) ((n, x) :: r) -> False).
    { intros n x r N G. apply N. inversion G as [|? ? G1 _]; subst. apply in_map_iff. exists (n, x). split; [reflexivity|exact G1]. }
    destruct l as [|a' l]; [exfalso; apply (Bad _ _ _) in F; [exact F|no_name]|]. destruct l as [|b' l]; [exfalso; apply (Bad _ _ _) in F; [exact F|no_name]|].
    destruct l as [|c' l]; [exfalso; apply (Bad _ _ _) in F; [exact F|no_name]|]. destruct l as [|d' l]; [exfalso; apply (Bad _ _ _) in F; [exact F|no_name]|].
    destruct l as [|e' l]; cbn [app] in E.
    + injection E as -> -> -> -> <-. cbn in F. inversion F as [|? ? F1 _]; subst. destruct F1 as [F1|[]]. injection F1 as <-.
      cbn [get_signed_tx]. rewrite (get_fixed_VBytes bins 32 zero32) by reflexivity. reflexivity.
    + injection E as -> -> -> -> -> E. symmetry in E. apply app_eq_nil in E. destruct E as [-> ->]. cbn [get_signed_tx].
      destruct (get_sig _ _ a'); [|reflexivity]. destruct (get_option _ b'); [|reflexivity]. destruct (get_option _ c'); [|reflexivity]. destruct (get_tx _ d'); reflexivity.
  - destruct (carried_values _ _ _ signed_apart C) as [No Va]. cbn [get_signed_tx]. rewrite (app_names _ _ No).
    rewrite (need_lacking "sig" _ _ m a); [|apply Va; left; reflexivity|eapply lacks_not; [exact M|no_name]].
    rewrite (need_lacking "tx" _ _ m d); [|apply Va; do 3 right; left; reflexivity|eapply lacks_not; [exact M|no_name]].
    rewrite (or_default_lacking "msig" _ _ l m b); [|apply Va; right; left; reflexivity|].
    2:{ intros y Hy. destruct (lacking _ _ _ M y Hy) as (k & K & [Hk|[Hk|[Hk|[]]]]); injection Hk as <- <-; try (vm_compute in K; discriminate K); reflexivity. }
    rewrite (or_default_lacking "lsig" _ _ l m c); [|apply Va; do 2 right; left; reflexivity|].
    2:{ intros y Hy. destruct (lacking _ _ _ M y Hy) as (k & K & [Hk|[Hk|[Hk|[]]]]); injection Hk as <- <-; try (vm_compute in K; discriminate K); reflexivity. }
    rewrite (or_default_lacking "auth_addr" _ _ l m e); [|apply Va; do 4 right; left; reflexivity|].
    2:{ intros y Hy. destruct (lacking _ _ _ M y Hy) as (k & K & [Hk|[Hk|[Hk|[]]]]); injection Hk as <- <-; try (vm_compute in K; discriminate K). apply get_fixed_VBytes. reflexivity. }
    destruct (get_sig _ _ a); [|reflexivity]. destruct (get_option _ b); [|reflexivity]. destruct (get_option _ c); [|reflexivity]. destruct (get_tx _ d); reflexivity.
Qed.
Lemma subsig_form a b v : subsig_given [a; b] v ->
  get_subsig valid_key bins valid_sig v =
  match get_key valid_key a, get_option (get_sig bins valid_sig) b with Some a, Some b => Some (MultisigModel.mkSubsig a b) | _, _ => None end.
Proof.
  intros [_ [(l & m & -> & E & F)|(l & m & -> & C & M)]].
  - destruct l as [|a' [|b' l]]; cbn [app] in E; [cbn in F; inversion F as [|? ? G _]; destruct G| |].
    + injection E as -> <-. cbn in F. inversion F as [|? ? G _]; destruct G.
    + injection E as -> -> E. symmetry in E. apply app_eq_nil in E. destruct E as [-> ->]. cbn [get_subsig]. destruct (get_key _ a'); reflexivity.
  - destruct (carried_values _ _ _ subsig_apart C) as [No Va]. cbn [get_subsig]. rewrite (app_names _ _ No).
    rewrite (need_lacking "key" _ _ m a); [|apply Va; left; reflexivity|eapply lacks_not; [exact M|no_name]].
    rewrite (or_default_lacking "sig" _ _ l m b); [|apply Va; right; left; reflexivity|].
    2:{ intros y Hy. destruct (lacking _ _ _ M y Hy) as (k & K & [Hk|[]]); injection Hk as <- <-. reflexivity. }
    destruct (get_key _ a); reflexivity.
Qed.
Lemma read_form v b rest : form v b -> decode (b ++ rest) = Some v.
Proof. intros F. apply decode_form. exists b, rest. split; [exact F|reflexivity]. Qed.
Lemma signed_same fields v v' b b' rest rest' : signed_given fields v -> signed_given fields v' -> form v b -> form v' b' ->
  decode_signed valid_key bins valid_sig (b ++ rest) = decode_signed valid_key bins valid_sig (b' ++ rest').
Proof.
  intros L L' F F'. unfold decode_signed. rewrite (read_form _ _ _ F), (read_form _ _ _ F').
  destruct fields as [|a [|x [|c [|d [|e [|]]]]]]; try (destruct L as [L _]; discriminate L).
  rewrite (signed_form _ _ _ _ _ _ L), (signed_form _ _ _ _ _ _ L'). reflexivity.
Qed.
Lemma subsig_same fields v v' b b' rest rest' : subsig_given fields v -> subsig_given fields v' -> form v b -> form v' b' ->
  decode_subsig valid_key bins valid_sig (b ++ rest) = decode_subsig valid_key bins valid_sig (b' ++ rest').
Proof.
  intros L L' F F'. unfold decode_subsig. rewrite (read_form _ _ _ F), (read_form _ _ _ F').
  destruct fields as [|a [|x [|]]]; try (destruct L as [L _]; discriminate L).
  rewrite (subsig_form _ _ _ L), (subsig_form _ _ _ L'). reflexivity.
Qed.
Lemma multisig_same fields v v' b b' rest rest' : struct_has multisig_names fields v -> struct_has multisig_names fields v' -> form v b -> form v' b' ->
  decode_multisig valid_key bins valid_sig (b ++ rest) = decode_multisig valid_key bins valid_sig (b' ++ rest').
Proof.
  intros L L' F F'. unfold decode_multisig. rewrite (read_form _ _ _ F), (read_form _ _ _ F').
  apply (fields_has _ _ _ multisig_apart) in L, L'. unfold get_multisig. unfold multisig_names in L, L'. rewrite L, L'. reflexivity.
Qed.
Lemma lsig_same fields v v' b b' rest rest' : struct_has lsig_names fields v -> struct_has lsig_names fields v' -> form v b -> form v' b' ->
  decode_lsig valid_key bins valid_sig (b ++ rest) = decode_lsig valid_key bins valid_sig (b' ++ rest').
Proof.
  intros L L' F F'. unfold decode_lsig. rewrite (read_form _ _ _ F), (read_form _ _ _ F').
  apply (fields_has _ _ _ lsig_apart) in L, L'. unfold get_lsig. unfold lsig_names in L, L'. rewrite L, L'. reflexivity.
Qed.
(** Nothing else is read. *)
Lemma signed_has v s : get_signed_tx valid_key bins valid_sig v = Some s -> exists fields, signed_given fields v.
Proof.
  intros E. destruct v as [| | | | | | |l|l]; try discriminate; cbn [get_signed_tx] in E.
  - destruct l as [|a [|b [|c [|d r]]]]; try discriminate. repeat next E. destruct r as [|e [|]]; [|next E|discriminate].
    + exists [a; b; c; d; VBytes zero32]. split; [reflexivity|left]. exists [a; b; c; d], [VBytes zero32]. split; [reflexivity|]. split; [reflexivity|]. cbn. constructor; [left; reflexivity|constructor].
    + exists [a; b; c; d; e]. split; [reflexivity|left]. exists [a; b; c; d; e], []. split; [reflexivity|]. split; [reflexivity|]. constructor.
  - destruct (names_only l) eqn:N; [|discriminate]. repeat next E.
    assert (V : forall A n (get : value -> option A) x, need n get l = Some x -> exists t, values_of n l = [t]).
    { intros A n get x. unfold need, field_value. destruct (values_of n l) as [|w [|]]; try discriminate. intros _. exists w. reflexivity. }
    destruct (V _ _ _ _ G) as [va Va]. destruct (V _ _ _ _ G2) as [vd Vd].
    destruct (filled_in "msig" _ _ VNil _ _ G0) as (x & m & M & Vx). destruct (filled_in "lsig" _ _ VNil _ _ G1) as (y & m' & M' & Vy).
    destruct (filled_in "auth_addr" _ _ (VBytes zero32) _ _ G3) as (z & m2 & M2 & Vz).
    exists [va; x; y; vd; z]. split; [reflexivity|right]. exists l, (m ++ m' ++ m2). split; [reflexivity|]. rewrite !values_app in *. split.
    + apply named_values_carry; [exact signed_apart| |].
      { rewrite !app_assoc. eapply names_filled; [|exact M2]. eapply names_filled; [|exact M']. eapply names_filled; [exact N|exact M]. }
      unfold signed_names. cbn [named_values].
      Ltac others M M' M2 n := rewrite !values_app; rewrite ?(values_filled n "msig" _ _ M) by reflexivity; rewrite ?(values_filled n "lsig" _ _ M') by reflexivity; rewrite ?(values_filled n "auth_addr" _ _ M2) by reflexivity; rewrite ?app_nil_r; cbn [app]; try assumption.
      rewrite (need_one "sig" Some _ va) by (others M M' M2 "sig"%string).
      rewrite (need_one "msig" Some _ x) by (rewrite !values_app, (values_filled "msig" "lsig" _ _ M'), (values_filled "msig" "auth_addr" _ _ M2) by reflexivity; rewrite !app_nil_r; exact Vx).
      rewrite (need_one "lsig" Some _ y) by (rewrite !values_app, (values_filled "lsig" "msig" _ _ M), (values_filled "lsig" "auth_addr" _ _ M2) by reflexivity; rewrite !app_nil_r; exact Vy).
      rewrite (need_one "tx" Some _ vd) by (others M M' M2 "tx"%string).
      rewrite (need_one "auth_addr" Some _ z) by (rewrite !values_app, (values_filled "auth_addr" "msig" _ _ M), (values_filled "auth_addr" "lsig" _ _ M') by reflexivity; exact Vz).
      reflexivity.
    + rewrite !Forall_app. repeat split.
      * destruct M as [-> | ->]; constructor; [|constructor]. exists "msig"%string, VNil. split; [left; reflexivity|reflexivity].
      * destruct M' as [-> | ->]; constructor; [|constructor]. exists "lsig"%string, VNil. split; [right; left; reflexivity|reflexivity].
      * destruct M2 as [-> | ->]; constructor; [|constructor]. exists "auth_addr"%string, (VBytes zero32). split; [do 2 right; left; reflexivity|reflexivity].
Qed.
Lemma subsig_has v s : get_subsig valid_key bins valid_sig v = Some s -> exists fields, subsig_given fields v.
Proof.
  intros E. destruct v as [| | | | | | |l|l]; try discriminate; cbn [get_subsig] in E.
  - destruct l as [|a [|b [|]]]; try discriminate. exists [a; b]. split; [reflexivity|left]. exists [a; b], []. split; [reflexivity|]. split; [reflexivity|]. constructor.
  - destruct (names_only l) eqn:N; [|discriminate]. repeat next E.
    assert (V : exists t, values_of "key" l = [t]). { unfold need, field_value in G. destruct (values_of "key" l) as [|t [|]]; try discriminate. exists t. reflexivity. }
    destruct V as [t Vt]. destruct (filled_in "sig" _ _ VNil _ _ G0) as (x & m & M & Vx).
    exists [t; x]. split; [reflexivity|right]. exists l, m. split; [reflexivity|]. split.
    + apply named_values_carry; [exact subsig_apart|exact (names_filled _ _ _ _ N M)|]. cbn [named_values].
      rewrite (need_one "key" Some _ t) by (rewrite values_app, Vt, (values_filled "key" "sig" _ _ M) by reflexivity; reflexivity).
      rewrite (need_one "sig" Some _ x Vx). reflexivity.
    + destruct M as [-> | ->]; constructor; [|constructor]. exists "sig"%string, VNil. split; [left; reflexivity|reflexivity].
Qed.
Lemma signed_only v b rest s : form v b -> decode_signed valid_key bins valid_sig (b ++ rest) = Some s -> exists fields, signed_given fields v.
Proof. intros F E. unfold decode_signed in E. rewrite (read_form _ _ _ F) in E. exact (signed_has _ _ E). Qed.
Lemma subsig_only v b rest s : form v b -> decode_subsig valid_key bins valid_sig (b ++ rest) = Some s -> exists fields, subsig_given fields v.
Proof. intros F E. unfold decode_subsig in E. rewrite (read_form _ _ _ F) in E. exact (subsig_has _ _ E). Qed.
Lemma multisig_only v b rest s : form v b -> decode_multisig valid_key bins valid_sig (b ++ rest) = Some s -> exists fields, struct_has multisig_names fields v.
Proof.
  intros F E. unfold decode_multisig in E. rewrite (read_form _ _ _ F) in E. unfold get_multisig in E. fold multisig_names in E.
  destruct (fields_of multisig_names v) as [l|] eqn:Ef; [|discriminate]. exists l. apply (fields_has _ _ _ multisig_apart). exact Ef.
Qed.
Lemma lsig_only v b rest s : form v b -> decode_lsig valid_key bins valid_sig (b ++ rest) = Some s -> exists fields, struct_has lsig_names fields v.
Proof.
  intros F E. unfold decode_lsig in E. rewrite (read_form _ _ _ F) in E. unfold get_lsig in E. fold lsig_names in E.
  destruct (fields_of lsig_names v) as [l|] eqn:Ef; [|discriminate]. exists l. apply (fields_has _ _ _ lsig_apart). exact Ef.
Qed.
(** What is meant is read. *)
Lemma signed_meant s v b rest : signed_in_memory valid_key valid_sig s -> ~ mentions_address (stx_tx s) -> signed_given (signed_fields s) v -> form v b ->
  decode_signed valid_key bins valid_sig (b ++ rest) = Some s.
Proof.
  intros ([L V] & Mm & Ml & T & A) N G F. unfold decode_signed. rewrite (read_form _ _ _ F). rewrite (signed_form _ _ _ _ _ _ G).
  rewrite get_sig_ok, get_tx_ok by assumption. rewrite (get_fixed_VBytes bins 32) by exact A.
  assert (E1 : get_option (get_multisig valid_key bins valid_sig) (match stx_msig s with Some m => multisig_value m | None => VNil end) = Some (stx_msig s)).
  { destruct (stx_msig s) as [m|]; [|reflexivity]. apply get_option_some; [discriminate|]. apply get_msig_ok. apply Mm. reflexivity. }
  assert (E2 : get_option (get_lsig valid_key bins valid_sig) (match stx_lsig s with Some l => lsig_value l | None => VNil end) = Some (stx_lsig s)).
  { destruct (stx_lsig s) as [l|]; [|reflexivity]. destruct (Ml l eq_refl) as (A1 & A2 & A3). apply get_option_some; [discriminate|]. apply get_lsig_ok; assumption. }
  rewrite E1, E2. destruct s. reflexivity.
Qed.
End Read.
