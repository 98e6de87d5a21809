(** What is read as transactions of blocks: proofs. *)
From Coq Require Import Permutation String.
From Verif Require Import Base BaseFacts MsgpackModel MsgpackProofs FormSpec FormProofs StructModel StructProofs TxDecodeModel DecodedSpec EntriesProofs NamedSpec NamedProofs.
From Verif Require Import GenDecodeModel GenDecodeSpec DecodedProofs StibDecodeModel StibDecodeSpec StibDecodeProofs StibTypedSpec TxCodecSpec TxDecodeSpec.
Local Open Scope list_scope.
Local Open Scope N_scope.

(** ** Nesting *)
Lemma nesting_entry k v l : In (k, v) l -> (nesting v < nesting (VMap l))%nat.
Proof.
  intros Hi. cbn [nesting]. apply Nat.lt_succ_r. induction l as [|x l IH]; [contradiction|]. cbn [map fold_right].
  destruct Hi as [->|Hi]; [cbn [fst snd]; lia|]. specialize (IH Hi). lia.
Qed.
Lemma need_value (n : string) l v : need n Some l = Some v <-> values_of n l = [v].
Proof. unfold need, field_value. destruct (values_of n l) as [|w [|]]; split; intros E; congruence || discriminate. Qed.
Lemma value_nesting (n : string) l v : In v (values_of n l) -> (nesting v < nesting (VMap l))%nat.
Proof. intros Hi. apply values_of_In in Hi. destruct Hi as [k Hi]. eapply nesting_entry. exact Hi. Qed.
Lemma fields_nesting names v l : fields_of names v = Some l -> forall x, In x l -> (nesting x < nesting v)%nat.
Proof.
  intros E. destruct v; try discriminate; cbn [fields_of] in E.
  - destruct (Nat.eqb _ _); [|discriminate]. injection E as ->. intros x. apply nesting_in.
  - destruct (names_only l0); [|discriminate]. revert l E. induction names as [|n names IH]; intros l E; cbn [named_values] in E; [injection E as <-; contradiction|].
    destruct (need n Some l0) as [w|] eqn:N; [|discriminate]. destruct (named_values names l0) as [ws|]; [|discriminate]. injection E as <-.
    intros x [->|Hx]; [|eapply IH; [reflexivity|exact Hx]]. apply need_value in N. apply (value_nesting n). rewrite N. left. reflexivity.
Qed.
Lemma get_all_ext {A} (f g : value -> option A) l : (forall x, In x l -> f x = g x) -> get_all f l = get_all g l.
Proof. induction l as [|x l IH]; intros E; cbn [get_all]; [reflexivity|]. rewrite (E x) by (left; reflexivity). rewrite IH; [reflexivity|]. intros y Hy. apply E. right. exact Hy. Qed.
Lemma or_default_ext {A} (n : string) (f g : value -> option A) d l : (forall x, In x (values_of n l) -> f x = g x) -> or_default n f d l = or_default n g d l.
Proof. intros E. unfold or_default, field_value. destruct (values_of n l) as [|w [|]]; try reflexivity. apply E. left. reflexivity. Qed.
Lemma need_ext {A} (n : string) (f g : value -> option A) l : (forall x, In x (values_of n l) -> f x = g x) -> need n f l = need n g l.
Proof. intros E. unfold need, field_value. destruct (values_of n l) as [|w [|]]; try reflexivity. apply E. left. reflexivity. Qed.

Section Read.
Variables (valid_key : bytes -> bool) (bins : bool) (valid_sig : bytes -> bool).
Local Notation get_ad := (get_ad valid_key bins valid_sig).
Local Notation get_stad := (get_stad valid_key bins valid_sig).
Local Notation get_stib := (get_stib valid_key bins valid_sig).

Lemma stad_ext f g v : (forall x, (nesting x < nesting v)%nat -> f x = g x) -> get_stad f v = get_stad g v.
Proof.
  intros E. destruct v as [| | | | | | |l|l]; try reflexivity; cbn [StibDecodeModel.get_stad].
  - destruct l as [|a [|b [|c l]]]; try reflexivity. rewrite (E b); [reflexivity|]. apply nesting_in. right. left. reflexivity.
  - rewrite (or_default_ext _ f g); [reflexivity|]. intros x Hx. apply E. eapply value_nesting. exact Hx.
Qed.
Lemma eval_delta_ext f g v : (forall x, (nesting x < nesting v)%nat -> f x = g x) -> get_eval_delta bins f v = get_eval_delta bins g v.
Proof.
  intros E. unfold get_eval_delta. destruct (fields_of _ v) as [l|] eqn:F; [|reflexivity]. pose proof (fields_nesting _ _ _ F) as N. clear F.
  destruct l as [|a l]; [reflexivity|]. destruct l as [|b l]; [reflexivity|]. destruct l as [|c l]; [reflexivity|]. destruct l as [|d l]; [reflexivity|].
  destruct l; [|reflexivity]. replace (get_vec f d) with (get_vec g d); [reflexivity|]. unfold get_vec. destruct d as [| | | | | | |i|]; try reflexivity.
  apply get_all_ext. intros x Hx. symmetry. apply E. assert (Ni := nesting_in x i Hx). assert (Nd : (nesting (VArr i) < nesting v)%nat) by (apply N; do 3 right; left; reflexivity). lia.
Qed.
Lemma get_ad_fuel : forall n m v, (nesting v <= n)%nat -> (nesting v <= m)%nat -> get_ad n v = get_ad m v.
Proof.
  induction n as [|n IH]; intros m v Hn Hm.
  - destruct m as [|m]; [reflexivity|]. destruct v; try reflexivity; cbn [nesting] in Hn; lia.
  - destruct m as [|m]; [destruct v; try reflexivity; cbn [nesting] in Hm; lia|]. cbn [StibDecodeModel.get_ad].
    destruct (fields_of _ v) as [l|] eqn:F; [|reflexivity]. pose proof (fields_nesting _ _ _ F) as N. clear F.
    destruct l as [|a l]; [reflexivity|]. destruct l as [|b l]; [reflexivity|]. destruct l as [|c l]; [reflexivity|]. destruct l as [|d l]; [reflexivity|].
    destruct l as [|e l]; [reflexivity|]. destruct l as [|f l]; [reflexivity|].
    rewrite (eval_delta_ext (get_stad (get_ad n)) (get_stad (get_ad m)) f); [reflexivity|]. intros x Hx.
    assert (Nf : (nesting f < nesting v)%nat) by (apply N; do 5 right; left; reflexivity).
    apply stad_ext. intros y Hy. apply IH; lia.
Qed.
Lemma get_stad_fuel n m v : (nesting v <= n)%nat -> (nesting v <= m)%nat -> get_stad (get_ad n) v = get_stad (get_ad m) v.
Proof. intros Hn Hm. apply stad_ext. intros x Hx. apply get_ad_fuel; lia. Qed.
Lemma get_eval_delta_fuel n m v : (nesting v <= n)%nat -> (nesting v <= m)%nat -> get_eval_delta bins (get_stad (get_ad n)) v = get_eval_delta bins (get_stad (get_ad m)) v.
Proof. intros Hn Hm. apply eval_delta_ext. intros x Hx. apply get_stad_fuel; lia. Qed.

(** ** Types *)
Lemma gives_value_delta : gives (get_value_delta bins) (fun d => n64 (delta_uint d)).
Proof.
  intros v q W E. unfold get_value_delta in E. fields E W l. destruct l as [|a [|b [|c [|]]]]; try discriminate.
  cbn [fold_right] in W. repeat next E. injection E as <-. cbn [delta_uint]. eapply gives_u64; [|eassumption]. tauto.
Qed.
Lemma gives_state_delta : gives (get_state_delta bins) delta_in_memory.
Proof.
  intros v m W E. eapply (gives_map _ _ _ is_utf8 (fun t => n64 (delta_uint t))) in E; [exact E|exact bytes_eqb_iff| |exact gives_value_delta|exact W].
  eapply gives_impl; [|exact gives_str]. cbv beta. tauto.
Qed.
Definition ad_typed (ad : apply_data) : Prop := forall s, signed_typed valid_key valid_sig s -> typed valid_key valid_sig (s, ad).
Lemma default_typed : ad_typed no_apply_data.
Proof. intros s S1. constructor; try reflexivity; try assumption; try constructor; try constructor. contradiction. Qed.
Lemma gives_stad get : gives get ad_typed -> gives (get_stad get) (typed valid_key valid_sig).
Proof.
  intros G v t W E. destruct v as [| | | | | | |l|l]; try discriminate; cbn [StibDecodeModel.get_stad] in E.
  - destruct W as [_ W]. destruct l as [|a [|b [|c l]]]; try discriminate; cbn [fold_right] in W; repeat next E; injection E as <-.
    + apply default_typed. eapply get_signed_typed; [|eassumption]. tauto.
    + match goal with H : get b = Some _ |- _ => apply (G _ _ (proj1 (proj2 W)) H) end. eapply get_signed_typed; [|eassumption]. tauto.
  - destruct W as [_ W]. assert (We : wf_entries l) by (intros k v I; eapply wf_In_map; eassumption). destruct (names_only l); [|discriminate]. repeat next E. injection E as <-.
    eapply or_default_gives in G1; [|exact G|exact default_typed|exact We]. apply G1. eapply need_gives in G0; [exact G0| |exact We]. apply get_signed_typed.
Qed.
Lemma gives_ad : forall fuel, gives (get_ad fuel) ad_typed.
Proof.
  induction fuel as [|fuel IH]; intros v t W E; [discriminate|]. cbn [StibDecodeModel.get_ad] in E. fields E W l.
  destruct l as [|a l]; [discriminate|]. destruct l as [|b l]; [discriminate|]. destruct l as [|c l]; [discriminate|]. destruct l as [|d l]; [discriminate|].
  destruct l as [|e l]; [discriminate|]. destruct l as [|f l]; [discriminate|]. destruct l as [|g l]; [discriminate|]. destruct l as [|h l]; [discriminate|].
  destruct l; [|discriminate]. cbn [fold_right] in W. repeat next E. injection E as <-. destruct W as (W1 & W2 & W3 & W4 & W5 & W6 & W7 & W8 & _).
  unfold get_eval_delta in G4. rename G4 into E. fields E W6 l. destruct l as [|p [|q [|r [|z [|]]]]]; try discriminate. cbn [fold_right] in W6. repeat next E. injection E as <-.
  intros sx Ss. constructor; try assumption; try (eapply gives_u64; [|eassumption]; assumption).
  - eapply gives_state_delta; [|eassumption]. tauto.
  - eapply (gives_map _ _ _ n64 delta_in_memory); [exact N.eqb_eq|exact gives_u64|exact gives_state_delta| |eassumption]. tauto.
  - eapply (gives_map _ _ _ n64 delta_in_memory); [exact N.eqb_eq|exact gives_u64|exact gives_state_delta| |eassumption]. tauto.
  - eapply (gives_vec get_str is_utf8); [|  |eassumption]; [eapply gives_impl; [|exact gives_str]; cbv beta; tauto|tauto].
  - apply Forall_forall. eapply (gives_vec (get_stad (get_ad fuel))); [apply gives_stad, IH| |eassumption]. tauto.
Qed.
Lemma gives_stib fuel : gives (get_stib fuel) (fun s => typed valid_key valid_sig (stib_tx s)).
Proof.
  assert (G := gives_stad _ (gives_ad fuel)). intros v t W E. destruct v as [| | | | | | |l|l]; try discriminate; cbn [StibDecodeModel.get_stib] in E.
  - destruct W as [_ W]. destruct l as [|a [|b [|c [|]]]]; try discriminate; cbn [fold_right] in W; repeat next E; injection E as <-; cbn [stib_tx]; (eapply G; [|eassumption]; tauto).
  - destruct W as [_ W]. assert (We : wf_entries l) by (intros k v I; eapply wf_In_map; eassumption). destruct (names_only l); [|discriminate]. repeat next E. injection E as <-.
    cbn [stib_tx]. eapply need_gives in G0; [exact G0|exact G|exact We].
Qed.
Lemma payset_typed s p : decode_payset valid_key bins valid_sig s = Some p -> Forall (fun t => typed valid_key valid_sig (stib_tx t)) p.
Proof.
  intros E. unfold decode_payset in E. next E. apply decode_lemma in G. eapply gives_vec in E; [apply E|apply gives_stib|tauto].
Qed.

(** ** Forms *)
Lemma carried_values names vs l : NoDup (map str names) -> carries names vs l ->
  names_only l = true /\ forall n v, In (n, v) (combine names vs) -> values_of n l = [v].
Proof.
  intros D C. apply fields_carried in C; [|exact D]. cbn [fields_of] in C. destruct (names_only l); [|discriminate]. split; [reflexivity|].
  clear D. revert vs C. induction names as [|n names IH]; intros vs C m v Hi; cbn [named_values] in C; [contradiction|].
  destruct (need n Some l) as [w|] eqn:N; [|discriminate]. destruct (named_values names l) as [ws|]; [|discriminate]. injection C as <-.
  cbn [combine] in Hi. destruct Hi as [E|Hi]; [injection E as <- <-; apply need_value; exact N|]. eapply IH; [reflexivity|exact Hi].
Qed.
Lemma or_default_lacking {A} (n : string) (get : value -> option A) d l missing x : values_of n (l ++ missing) = [x] ->
  (forall y, In y (values_of n missing) -> get y = Some d) -> or_default n get d l = get x.
Proof.
  rewrite values_app. unfold or_default, field_value. intros E M. destruct (values_of n l) as [|w [|]]; cbn [app] in E.
  - symmetry. apply M. rewrite E. left. reflexivity.
  - injection E as -> _. reflexivity.
  - discriminate.
Qed.
Lemma need_lacking {A} (n : string) (get : value -> option A) l missing x : values_of n (l ++ missing) = [x] -> values_of n missing = [] -> need n get l = get x.
Proof. rewrite values_app. intros E M. rewrite M, app_nil_r in E. apply need_one. exact E. Qed.
Lemma missing_values (n : string) names required defaults missing :
  Forall (fun e => exists m d, In (m, d) (combine (skipn required names) defaults) /\ e = (VStr (str m), d)) missing ->
  forall y, In y (values_of n missing) -> exists m, str m = str n /\ In (m, y) (combine (skipn required names) defaults).
Proof.
  intros F y Hy. unfold values_of in Hy. apply in_map_iff in Hy. destruct Hy as (e & <- & He). apply filter_In in He. destruct He as [He K].
  rewrite Forall_forall in F. destruct (F e He) as (m & d & Hm & ->). exists m. split; [|exact Hm].
  apply key_is_iff in K. destruct K as [K|K]; cbn [fst] in K; congruence.
Qed.
Ltac apart := repeat constructor; cbn [In map]; intros H; repeat destruct H as [H|H]; try contradiction; vm_compute in H; discriminate H.
Lemma stib_apart : NoDup (map str stib_names). Proof. apart. Qed.
Lemma stad_apart : NoDup (map str stad_names). Proof. apart. Qed.
Lemma ad_apart : NoDup (map str ad_names). Proof. apart. Qed.
Lemma eval_delta_apart : NoDup (map str eval_delta_names). Proof. apart. Qed.

Lemma app_names l missing : names_only (l ++ missing) = true -> names_only l = true.
Proof. unfold names_only. rewrite forallb_app. intros E. apply andb_true_iff in E. apply E. Qed.
Lemma default_fuel fuel : get_ad (S fuel) (ad_value no_apply_data) = Some no_apply_data.
Proof. reflexivity. Qed.

Lemma stad_form t x v : struct_may_lack stad_names 1 [ad_value no_apply_data] [t; x] v -> forall fuel, (nesting v <= fuel)%nat ->
  get_stad (get_ad fuel) v = match get_signed_tx valid_key bins valid_sig t, get_ad (nesting x) x with Some a, Some b => Some (a, b) | _, _ => None end.
Proof.
  intros [_ [(l & m & -> & E & L & M)|(l & m & -> & C & M)]] fuel Hf.
  - destruct l as [|a [|b [|c l]]]; cbn [length] in L; try lia; cbn [length Nat.sub skipn] in M; subst m; cbn [app] in E; try discriminate; try (injection E as -> ->).
    + cbn [StibDecodeModel.get_stad]. destruct (get_signed_tx _ _ _ a); reflexivity.
    + cbn [StibDecodeModel.get_stad]. destruct (get_signed_tx _ _ _ a); [|reflexivity].
      rewrite (get_ad_fuel fuel (nesting b)); [reflexivity| |lia]. assert (N := nesting_in b [a; b] (or_intror (or_introl eq_refl))). lia.
  - destruct (carried_values _ _ _ stad_apart C) as [No Va]. cbn [StibDecodeModel.get_stad]. rewrite (app_names _ _ No).
    rewrite (need_lacking _ _ _ m t); [|apply Va; left; reflexivity|].
    2:{ destruct (values_of "tx" m) as [|y r] eqn:Ey; [reflexivity|]. destruct (missing_values "tx"%string _ _ _ _ M y) as (k & K & Hk); [rewrite Ey; left; reflexivity|].
        cbn in Hk. destruct Hk as [Hk|[]]. injection Hk as <- _. vm_compute in K. discriminate K. }
    assert (Vx : values_of "ad" (l ++ m) = [x]) by (apply Va; right; left; reflexivity).
    rewrite (or_default_lacking _ _ _ l m x Vx).
    2:{ intros y Hy. destruct (missing_values _ _ _ _ _ M y Hy) as (k & K & Hk). cbn in Hk. destruct Hk as [Hk|[]]. injection Hk as _ <-.
        destruct fuel; [cbn [nesting] in Hf; lia|apply default_fuel]. }
    destruct (get_signed_tx _ _ _ t); [|reflexivity]. rewrite values_app in Vx. destruct (values_of "ad" l) as [|w r] eqn:El.
    + destruct (missing_values "ad"%string _ _ _ _ M x) as (k & K & Hk); [cbn [app] in Vx; rewrite Vx; left; reflexivity|]. cbn in Hk. destruct Hk as [Hk|[]]. injection Hk as _ <-.
      destruct fuel; [cbn [nesting] in Hf; lia|]. rewrite default_fuel. reflexivity.
    + cbn [app] in Vx. injection Vx as -> _. rewrite (get_ad_fuel fuel (nesting x)); [reflexivity| |lia].
      assert (N : (nesting x < nesting (VMap l))%nat) by (apply (value_nesting "ad"); rewrite El; left; reflexivity). lia.
Qed.
Lemma stib_form t x y v : struct_may_lack stib_names 1 [VBool false; VBool false] [t; x; y] v -> forall fuel, (nesting v <= fuel)%nat ->
  get_stib fuel v = match get_stad (get_ad (nesting t)) t, get_bool x, get_bool y with Some a, Some b, Some c => Some (mkStib a b c) | _, _, _ => None end.
Proof.
  intros [_ [(l & m & -> & E & L & M)|(l & m & -> & C & M)]] fuel Hf.
  - destruct l as [|a l]; cbn [length] in L; [lia|]. assert (N := nesting_in a (a :: l) (or_introl eq_refl)).
    destruct l as [|b [|c [|d l]]]; cbn [length Nat.sub skipn] in M; subst m; cbn [app] in E; try discriminate; try (injection E as -> -> ->);
      cbn [StibDecodeModel.get_stib]; rewrite (get_stad_fuel fuel (nesting a)) by lia; destruct (get_stad _ a); try reflexivity;
      destruct (get_bool b); try reflexivity; destruct (get_bool c); reflexivity.
  - destruct (carried_values _ _ _ stib_apart C) as [No Va]. cbn [StibDecodeModel.get_stib]. rewrite (app_names _ _ No).
    assert (Vt : values_of "tx" (l ++ m) = [t]) by (apply Va; left; reflexivity).
    assert (Vm : values_of "tx" m = []).
    { destruct (values_of "tx" m) as [|z r] eqn:Ez; [reflexivity|]. destruct (missing_values "tx"%string _ _ _ _ M z) as (k & K & Hk); [rewrite Ez; left; reflexivity|].
      cbn in Hk. destruct Hk as [Hk|[Hk|[]]]; injection Hk as <- _; vm_compute in K; discriminate K. }
    rewrite (need_lacking _ _ _ m t Vt Vm). rewrite values_app, Vm, app_nil_r in Vt.
    assert (N : (nesting t < nesting (VMap l))%nat) by (apply (value_nesting "tx"); rewrite Vt; left; reflexivity).
    rewrite (get_stad_fuel fuel (nesting t)) by lia. destruct (get_stad _ t); [|reflexivity].
    assert (D : forall n z, In z (values_of n m) -> get_bool z = Some false).
    { intros n z Hz. destruct (missing_values _ _ _ _ _ M z Hz) as (k & K & Hk). cbn in Hk. destruct Hk as [Hk|[Hk|[]]]; injection Hk as _ <-; reflexivity. }
    rewrite (or_default_lacking "has_genesis_id" _ _ l m x); [|apply Va; right; left; reflexivity|apply D].
    rewrite (or_default_lacking "has_genesis_hash" _ _ l m y); [|apply Va; right; right; left; reflexivity|apply D].
    destruct (get_bool x); [|reflexivity]. destruct (get_bool y); reflexivity.
Qed.
Lemma read_form v b rest : form v b -> decode (b ++ rest) = Some v.
Proof. intros F. apply decode_form. exists b, rest. split; [exact F|reflexivity]. Qed.
Lemma stib_same t x y v v' b b' rest rest' : struct_may_lack stib_names 1 [VBool false; VBool false] [t; x; y] v ->
  struct_may_lack stib_names 1 [VBool false; VBool false] [t; x; y] v' -> form v b -> form v' b' ->
  decode_stib valid_key bins valid_sig (b ++ rest) = decode_stib valid_key bins valid_sig (b' ++ rest').
Proof.
  intros L L' F F'. unfold decode_stib. rewrite (read_form _ _ _ F), (read_form _ _ _ F').
  rewrite (stib_form _ _ _ _ L), (stib_form _ _ _ _ L') by lia. reflexivity.
Qed.
Lemma stad_same t x v v' b b' rest rest' : struct_may_lack stad_names 1 [ad_value no_apply_data] [t; x] v ->
  struct_may_lack stad_names 1 [ad_value no_apply_data] [t; x] v' -> form v b -> form v' b' ->
  decode_stad valid_key bins valid_sig (b ++ rest) = decode_stad valid_key bins valid_sig (b' ++ rest').
Proof.
  intros L L' F F'. unfold decode_stad. rewrite (read_form _ _ _ F), (read_form _ _ _ F').
  rewrite (stad_form _ _ _ L), (stad_form _ _ _ L') by lia. reflexivity.
Qed.
Lemma eval_delta_same fields v v' b b' rest rest' : struct_has eval_delta_names fields v -> struct_has eval_delta_names fields v' -> form v b -> form v' b' ->
  decode_eval_delta valid_key bins valid_sig (b ++ rest) = decode_eval_delta valid_key bins valid_sig (b' ++ rest').
Proof.
  intros L L' F F'. unfold decode_eval_delta. rewrite (read_form _ _ _ F), (read_form _ _ _ F').
  rewrite (get_eval_delta_fuel (nesting v) (Nat.max (nesting v) (nesting v'))) by lia.
  rewrite (get_eval_delta_fuel (nesting v') (Nat.max (nesting v) (nesting v'))) by lia.
  apply (fields_has _ _ _ eval_delta_apart) in L, L'. unfold get_eval_delta. unfold eval_delta_names in L, L'. rewrite L, L'. reflexivity.
Qed.
Lemma ad_same fields v v' b b' rest rest' : struct_has ad_names fields v -> struct_has ad_names fields v' -> form v b -> form v' b' ->
  decode_ad valid_key bins valid_sig (b ++ rest) = decode_ad valid_key bins valid_sig (b' ++ rest').
Proof.
  intros L L' F F'. unfold decode_ad. rewrite (read_form _ _ _ F), (read_form _ _ _ F').
  rewrite (get_ad_fuel (nesting v) (S (Nat.max (nesting v) (nesting v')))) by lia.
  rewrite (get_ad_fuel (nesting v') (S (Nat.max (nesting v) (nesting v')))) by lia.
  apply (fields_has _ _ _ ad_apart) in L, L'. cbn [StibDecodeModel.get_ad]. unfold ad_names in L, L'. rewrite L, L'. reflexivity.
Qed.

(** Nothing else is read. *)
Lemma filled_in {A} (n : string) (get : value -> option A) d dv l a : or_default n get d l = Some a ->
  exists x m, (m = [] \/ m = [(VStr (str n), dv)]) /\ values_of n (l ++ m) = [x].
Proof.
  unfold or_default, field_value. destruct (values_of n l) as [|w [|]] eqn:E; intros G; try discriminate.
  - exists dv, [(VStr (str n), dv)]. split; [right; reflexivity|]. rewrite values_app, E. unfold values_of. cbn [filter].
    assert (K : key_is (str n) (VStr (str n), dv) = true) by (apply key_is_iff; left; reflexivity). rewrite K. reflexivity.
  - exists w, []. split; [left; reflexivity|]. rewrite app_nil_r. exact E.
Qed.
Lemma names_filled l n dv m : names_only l = true -> m = [] \/ m = [(VStr (str n), dv)] -> names_only (l ++ m) = true.
Proof. unfold names_only. intros N M. rewrite forallb_app, N. destruct M as [-> | ->]; reflexivity. Qed.
Lemma values_filled (n k : string) dv m : m = [] \/ m = [(VStr (str k), dv)] -> bytes_eqb (str k) (str n) = false -> values_of n m = [].
Proof. intros [-> | ->] E; [reflexivity|]. unfold values_of. cbn [filter key_is fst]. rewrite E. reflexivity. Qed.
Lemma stad_has get v s : get_stad get v = Some s -> exists t x, struct_may_lack stad_names 1 [ad_value no_apply_data] [t; x] v.
Proof.
  intros E. destruct v as [| | | | | | |l|l]; try discriminate; cbn [StibDecodeModel.get_stad] in E.
  - destruct l as [|a [|b [|c l]]]; try discriminate; [exists a, (ad_value no_apply_data)|exists a, b]; (split; [reflexivity|left]).
    + exists [a], [ad_value no_apply_data]. repeat split. cbn [length]. lia.
    + exists [a; b], []. repeat split. cbn [length]. lia.
  - destruct (names_only l) eqn:N; [|discriminate]. repeat next E.
    assert (V : exists t, values_of "tx" l = [t]). { unfold need, field_value in G. destruct (values_of "tx" l) as [|t [|]]; try discriminate. exists t. reflexivity. }
    destruct V as [t Vt]. destruct (filled_in "ad" _ _ (ad_value no_apply_data) _ _ G0) as (x & m & M & Vx).
    exists t, x. split; [reflexivity|right]. exists l, m. split; [reflexivity|]. split.
    + apply named_values_carry; [exact stad_apart|exact (names_filled _ _ _ _ N M)|]. unfold stad_names. cbn [named_values].
      rewrite (need_one "tx" Some _ t) by (rewrite values_app, Vt, (values_filled "tx" "ad" _ _ M) by reflexivity; reflexivity).
      rewrite (need_one "ad" Some _ x Vx). reflexivity.
    + destruct M as [-> | ->]; constructor; [|constructor]. exists "ad"%string, (ad_value no_apply_data). split; [left; reflexivity|reflexivity].
Qed.
Lemma stib_has fuel v s : get_stib fuel v = Some s -> exists t x y, struct_may_lack stib_names 1 [VBool false; VBool false] [t; x; y] v.
Proof.
  intros E. destruct v as [| | | | | | |l|l]; try discriminate; cbn [StibDecodeModel.get_stib] in E.
  - destruct l as [|a [|b [|c [|d l]]]]; try discriminate; [exists a, (VBool false), (VBool false)|exists a, b, (VBool false)|exists a, b, c]; (split; [reflexivity|left]).
    + exists [a], [VBool false; VBool false]. repeat split. cbn [length]. lia.
    + exists [a; b], [VBool false]. repeat split. cbn [length]. lia.
    + exists [a; b; c], []. repeat split. cbn [length]. lia.
  - destruct (names_only l) eqn:N; [|discriminate]. repeat next E.
    assert (V : exists t, values_of "tx" l = [t]). { unfold need, field_value in G. destruct (values_of "tx" l) as [|t [|]]; try discriminate. exists t. reflexivity. }
    destruct V as [t Vt]. destruct (filled_in "has_genesis_id" _ _ (VBool false) _ _ G0) as (x & m & M & Vx).
    destruct (filled_in "has_genesis_hash" _ _ (VBool false) _ _ G1) as (y & m' & M' & Vy).
    exists t, x, y. split; [reflexivity|right]. exists l, (m ++ m'). split; [reflexivity|]. rewrite !values_app in *. split.
    + apply named_values_carry; [exact stib_apart| |].
      { rewrite app_assoc. apply (names_filled _ "has_genesis_hash" (VBool false)); [|exact M']. exact (names_filled _ _ _ _ N M). }
      unfold stib_names. cbn [named_values].
      rewrite (need_one "tx" Some _ t) by (rewrite !values_app, Vt, (values_filled "tx" "has_genesis_id" _ _ M), (values_filled "tx" "has_genesis_hash" _ _ M') by reflexivity; reflexivity).
      rewrite (need_one "has_genesis_id" Some _ x) by (rewrite !values_app, (values_filled "has_genesis_id" "has_genesis_hash" _ _ M') by reflexivity; rewrite app_nil_r; exact Vx).
      rewrite (need_one "has_genesis_hash" Some _ y) by (rewrite !values_app, (values_filled "has_genesis_hash" "has_genesis_id" _ _ M) by reflexivity; exact Vy).
      reflexivity.
    + apply Forall_app. split.
      * destruct M as [-> | ->]; constructor; [|constructor]. exists "has_genesis_id"%string, (VBool false). split; [left; reflexivity|reflexivity].
      * destruct M' as [-> | ->]; constructor; [|constructor]. exists "has_genesis_hash"%string, (VBool false). split; [right; left; reflexivity|reflexivity].
Qed.
Lemma stib_only v b rest s : form v b -> decode_stib valid_key bins valid_sig (b ++ rest) = Some s ->
  exists t x y, struct_may_lack stib_names 1 [VBool false; VBool false] [t; x; y] v.
Proof. intros F E. unfold decode_stib in E. rewrite (read_form _ _ _ F) in E. exact (stib_has _ _ _ E). Qed.
Lemma stad_only v b rest s : form v b -> decode_stad valid_key bins valid_sig (b ++ rest) = Some s ->
  exists t x, struct_may_lack stad_names 1 [ad_value no_apply_data] [t; x] v.
Proof. intros F E. unfold decode_stad in E. rewrite (read_form _ _ _ F) in E. exact (stad_has _ _ _ E). Qed.
Lemma ad_only v b rest s : form v b -> decode_ad valid_key bins valid_sig (b ++ rest) = Some s -> exists fields, struct_has ad_names fields v.
Proof.
  intros F E. unfold decode_ad in E. rewrite (read_form _ _ _ F) in E. destruct (nesting v); [discriminate|]. cbn [StibDecodeModel.get_ad] in E. fold ad_names in E.
  destruct (fields_of ad_names v) as [l|] eqn:Ef; [|discriminate]. exists l. apply (fields_has _ _ _ ad_apart). exact Ef.
Qed.
Lemma eval_delta_only v b rest s : form v b -> decode_eval_delta valid_key bins valid_sig (b ++ rest) = Some s -> exists fields, struct_has eval_delta_names fields v.
Proof.
  intros F E. unfold decode_eval_delta in E. rewrite (read_form _ _ _ F) in E. unfold get_eval_delta in E. fold eval_delta_names in E.
  destruct (fields_of eval_delta_names v) as [l|] eqn:Ef; [|discriminate]. exists l. apply (fields_has _ _ _ eval_delta_apart). exact Ef.
Qed.
End Read.
