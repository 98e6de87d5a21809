(** Reading against the message-pack format. *)
From Verif Require Import Base BaseFacts MsgpackModel MsgpackProofs FormSpec.
Local Open Scope N_scope.

Scheme form_mut := Induction for form Sort Prop
  with forms_mut := Induction for forms Sort Prop
  with pair_forms_mut := Induction for pair_forms Sort Prop.
Combined Scheme form_all from form_mut, forms_mut, pair_forms_mut.

Lemma big_acc s : forall a, fold_left (fun a b => 256 * a + Byte.to_N b) s a = be_acc a s.
Proof. induction s as [|b s IH]; intros a; cbn [fold_left be_acc]; [reflexivity|]. rewrite IH. f_equal. lia. Qed.
Lemma big_be s : big s = be_val s.
Proof. apply big_acc. Qed.
Lemma be_acc_lt s : forall a, be_acc a s < (a + 1) * 256 ^ N.of_nat (length s).
Proof.
  induction s as [|b s IH]; intros a; cbn [be_acc length]; [rewrite N.pow_0_r; lia|].
  specialize (IH (a * 256 + Byte.to_N b)). rewrite Nat2N.inj_succ, N.pow_succ_r'.
  pose proof (Byte.to_N_bounded b). set (p := 256 ^ N.of_nat (length s)) in *. nia.
Qed.
Lemma big_lt s : big s < 256 ^ N.of_nat (length s).
Proof. rewrite big_be. unfold be_val. pose proof (be_acc_lt s 0). lia. Qed.

(** ** Headers *)
Inductive header_form : header -> bytes -> Prop :=
| hf_nil : header_form HNil [xc0]
| hf_false : header_form (HBool false) [xc2]
| hf_true : header_form (HBool true) [xc3]
| hf_small n : n < 128 -> header_form (HInt (Z.of_N n)) [b8 n]
| hf_negative n : 1 <= n <= 32 -> header_form (HInt (- Z.of_N n)) [b8 (256 - n)]
| hf_unsigned m d : In (m, length d) [(xcc, 1%nat); (xcd, 2%nat); (xce, 4%nat); (xcf, 8%nat)] -> header_form (HInt (Z.of_N (big d))) (m :: d)
| hf_signed m d : In (m, length d) [(xd0, 1%nat); (xd1, 2%nat); (xd2, 4%nat); (xd3, 8%nat)] -> header_form (HInt (twos (length d) (big d))) (m :: d)
| hf_str n c : announces 160 32 [(xd9, 1%nat); (xda, 2%nat); (xdb, 4%nat)] n c -> header_form (HStr n) c
| hf_bin n c : announces 0 0 [(xc4, 1%nat); (xc5, 2%nat); (xc6, 4%nat)] n c -> header_form (HBin n) c
| hf_float m n : In (m, n) [(xca, 4); (xcb, 8)] -> header_form (HFloat n) [m]
| hf_fixext m n : In (m, n) [(xd4, 1); (xd5, 2); (xd6, 4); (xd7, 8); (xd8, 16)] -> header_form (HExt n) [m]
| hf_ext n c : announces 0 0 [(xc7, 1%nat); (xc8, 2%nat); (xc9, 4%nat)] n c -> header_form (HExt n) c
| hf_arr n c : announces 144 16 [(xdc, 2%nat); (xdd, 4%nat)] n c -> header_form (HArr n) c
| hf_map n c : announces 128 16 [(xde, 2%nat); (xdf, 4%nat)] n c -> header_form (HMap n) c.

Lemma take_some n s d r : take n s = Some (d, r) -> s = d ++ r /\ length d = N.to_nat n.
Proof.
  unfold take. destruct (N.ltb_spec (N.of_nat (length s)) n) as [L|L]; [discriminate|]. intros E. injection E as <- <-.
  rewrite firstn_skipn, firstn_length. split; [reflexivity|lia].
Qed.
Lemma read_num_some k s f h r : read_num k s f = Some (h, r) -> exists d, s = d ++ r /\ length d = N.to_nat k /\ h = f (big d).
Proof.
  unfold read_num. destruct (take k s) as [[d r']|] eqn:E; [|discriminate]. intros F. injection F as <- <-.
  apply take_some in E. destruct E as [E L]. exists d. rewrite big_be. auto.
Qed.
Lemma signed_twos k n : (k = 1 \/ k = 2 \/ k = 4 \/ k = 8)%nat -> signed (256 ^ N.of_nat k) n = twos k n.
Proof.
  intros K. unfold signed, twos. destruct K as [-> | [-> | [-> | ->]]];
    match goal with |- context [256 ^ N.of_nat ?k] => let v := eval vm_compute in (256 ^ N.of_nat k) in change (256 ^ N.of_nat k) with v end;
    match goal with |- context [(256 ^ Z.of_nat ?k)%Z] => let v := eval vm_compute in (256 ^ Z.of_nat k)%Z in change (256 ^ Z.of_nat k)%Z with v end;
    match goal with |- context [n <? ?a / 2] => let v := eval vm_compute in (a / 2) in change (a / 2) with v end;
    repeat match goal with |- context [if ?a <? ?b then _ else _] => destruct (N.ltb_spec a b) | |- context [if (?a <? ?b)%Z then _ else _] => destruct (Z.ltb_spec a b) end; lia.
Qed.


Lemma read_header_form s h r : read_header s = Some (h, r) -> exists c, header_form h c /\ s = c ++ r.
Proof.
  destruct s as [|b t]; [discriminate|]. cbn [read_header]. cbv zeta. intros E.
  pose proof (Byte.to_N_bounded b) as B. pose proof (b8_to_N b) as Eb. set (m := Byte.to_N b) in *. clearbody m.
  repeat match type of E with
  | (if ?x <? ?y then _ else _) = _ => destruct (N.ltb_spec x y)
  | (if ?x =? ?y then _ else _) = _ => destruct (N.eqb_spec x y); [subst m; vm_compute in Eb; subst b|]
  end;
  try discriminate;
  try (match type of E with read_num _ _ _ = _ => apply read_num_some in E; destruct E as (d & -> & L & ->);
         eexists (_ :: d); split; [|reflexivity] end);
  try (injection E as <- <-; eexists [_]; split; [|reflexivity]).
  - rewrite <- Eb. apply hf_small. lia.
  - rewrite <- Eb. replace m with (128 + (m - 128)) at 2 by lia. apply hf_map, announces_short. lia.
  - rewrite <- Eb. replace m with (144 + (m - 144)) at 2 by lia. apply hf_arr, announces_short. lia.
  - rewrite <- Eb. replace m with (160 + (m - 160)) at 2 by lia. apply hf_str, announces_short. lia.
  - apply hf_nil.
  - apply hf_false.
  - apply hf_true.
  - apply hf_bin, announces_long. rewrite L. cbn. tauto.
  - apply hf_bin, announces_long. rewrite L. cbn. tauto.
  - apply hf_bin, announces_long. rewrite L. cbn. tauto.
  - apply hf_ext, announces_long. rewrite L. cbn. tauto.
  - apply hf_ext, announces_long. rewrite L. cbn. tauto.
  - apply hf_ext, announces_long. rewrite L. cbn. tauto.
  - apply hf_float. cbn. tauto.
  - apply hf_float. cbn. tauto.
  - apply hf_unsigned. rewrite L. cbn. tauto.
  - apply hf_unsigned. rewrite L. cbn. tauto.
  - apply hf_unsigned. rewrite L. cbn. tauto.
  - apply hf_unsigned. rewrite L. cbn. tauto.
  - rewrite (signed_twos 1) by tauto. change 1%nat with (N.to_nat 1). rewrite <- L. apply hf_signed. rewrite L. cbn. tauto.
  - rewrite (signed_twos 2) by tauto. change 2%nat with (N.to_nat 2). rewrite <- L. apply hf_signed. rewrite L. cbn. tauto.
  - rewrite (signed_twos 4) by tauto. change 4%nat with (N.to_nat 4). rewrite <- L. apply hf_signed. rewrite L. cbn. tauto.
  - rewrite (signed_twos 8) by tauto. change 8%nat with (N.to_nat 8). rewrite <- L. apply hf_signed. rewrite L. cbn. tauto.
  - apply hf_fixext. cbn. tauto.
  - apply hf_fixext. cbn. tauto.
  - apply hf_fixext. cbn. tauto.
  - apply hf_fixext. cbn. tauto.
  - apply hf_fixext. cbn. tauto.
  - apply hf_str, announces_long. rewrite L. cbn. tauto.
  - apply hf_str, announces_long. rewrite L. cbn. tauto.
  - apply hf_str, announces_long. rewrite L. cbn. tauto.
  - apply hf_arr, announces_long. rewrite L. cbn. tauto.
  - apply hf_arr, announces_long. rewrite L. cbn. tauto.
  - apply hf_map, announces_long. rewrite L. cbn. tauto.
  - apply hf_map, announces_long. rewrite L. cbn. tauto.
  - match goal with H : 224 <= m |- _ => pose proof H as M end. clear - B Eb M. rewrite <- Eb. pose proof (hf_negative (256 - m) ltac:(lia)) as F.
    replace (256 - (256 - m)) with m in F by lia. replace (Z.of_N m - 256)%Z with (- Z.of_N (256 - m))%Z by lia. exact F.
Qed.

Lemma read_negative m r : 224 <= m < 256 -> read_header (b8 m :: r) = Some (HInt (Z.of_N m - 256), r).
Proof.
  intros M. cbn [read_header]. rewrite to_N_b8, N.mod_small by lia. cbv zeta.
  repeat match goal with
  | |- context [if ?a <? ?b then _ else _] => replace (a <? b) with false by (symmetry; apply N.ltb_ge; lia)
  | |- context [if ?a =? ?b then _ else _] => replace (a =? b) with false by (symmetry; apply N.eqb_neq; lia)
  end.
  reflexivity.
Qed.
Lemma read_num_big k d f r : length d = k -> read_num (N.of_nat k) (d ++ r) f = Some (f (big d), r).
Proof. intros <-. unfold read_num. rewrite take_app, big_be. reflexivity. Qed.
Lemma form_read_header h c r : header_form h c -> read_header (c ++ r) = Some (h, r).
Proof.
  assert (Long : forall m k d f r, length d = k -> read_header (m :: d ++ r) = read_num (N.of_nat k) (d ++ r) f -> read_header (m :: d ++ r) = Some (f (big d), r)).
  { intros m k d f r' L ->. apply read_num_big. exact L. }
  intros F. inversion F as [| | |n Hn|n Hn|m d I|m d I|n c' A|n c' A|m n I|m n I|n c' A|n c' A|n c' A]; subst; try reflexivity.
  - small_header.
  - cbn [app]. rewrite read_negative by lia. do 3 f_equal. lia.
  - cbn [In] in I. repeat destruct I as [I|I]; try contradiction; injection I as <- L; cbn [app].
    all: match goal with L : ?k = length ?d |- _ => apply (Long _ k d (fun n => HInt (Z.of_N n)) r (eq_sym L)); reflexivity end.
  - cbn [In] in I. repeat destruct I as [I|I]; try contradiction; injection I as <- L; cbn [app]; rewrite <- L.
    all: match goal with L : ?k = length ?d |- _ => rewrite <- (signed_twos k) by tauto; apply (Long _ k d (fun n => HInt (signed (256 ^ N.of_nat k) n)) r (eq_sym L)); reflexivity end.
  - inversion A as [n' Hn|m d I]; subst; [small_header|]. cbn [In] in I. repeat destruct I as [I|I]; try contradiction; injection I as <- L; cbn [app].
    all: match goal with L : ?k = length ?d |- _ => apply (Long _ k d HStr r (eq_sym L)); reflexivity end.
  - inversion A as [n' Hn|m d I]; subst; [lia|]. cbn [In] in I. repeat destruct I as [I|I]; try contradiction; injection I as <- L; cbn [app].
    all: match goal with L : ?k = length ?d |- _ => apply (Long _ k d HBin r (eq_sym L)); reflexivity end.
  - cbn [In] in I. repeat destruct I as [I|I]; try contradiction; injection I as <- <-; reflexivity.
  - cbn [In] in I. repeat destruct I as [I|I]; try contradiction; injection I as <- <-; reflexivity.
  - inversion A as [n' Hn|m d I]; subst; [lia|]. cbn [In] in I. repeat destruct I as [I|I]; try contradiction; injection I as <- L; cbn [app].
    all: match goal with L : ?k = length ?d |- _ => apply (Long _ k d HExt r (eq_sym L)); reflexivity end.
  - inversion A as [n' Hn|m d I]; subst; [small_header|]. cbn [In] in I. repeat destruct I as [I|I]; try contradiction; injection I as <- L; cbn [app].
    all: match goal with L : ?k = length ?d |- _ => apply (Long _ k d HArr r (eq_sym L)); reflexivity end.
  - inversion A as [n' Hn|m d I]; subst; [small_header|]. cbn [In] in I. repeat destruct I as [I|I]; try contradiction; injection I as <- L; cbn [app].
    all: match goal with L : ?k = length ?d |- _ => apply (Long _ k d HMap r (eq_sym L)); reflexivity end.
Qed.

(** ** Values *)
Lemma read_many_forms read (P : value -> bytes -> Prop) n : (forall s v r, read s = Some (v, r) -> exists b, form v b /\ s = b ++ r) ->
  forall s l r, read_many read n s = Some (l, r) -> exists b, forms l b /\ s = b ++ r /\ length l = n.
Proof.
  intros IH. induction n as [|n IHn]; intros s l r E; cbn [read_many] in E.
  - injection E as <- <-. exists []. repeat split. constructor.
  - destruct (read s) as [[x r1]|] eqn:E1; [|discriminate]. destruct (read_many read n r1) as [[l1 r2]|] eqn:E2; [|discriminate].
    injection E as <- <-. apply IH in E1. destruct E1 as (b & F & ->). apply IHn in E2. destruct E2 as (b' & F' & -> & L).
    exists (b ++ b'). split; [constructor; assumption|]. rewrite app_assoc. cbn [length]. auto.
Qed.
Lemma read_many_pairs read n : (forall s v r, read s = Some (v, r) -> exists b, form v b /\ s = b ++ r) ->
  forall s l r, read_many (read_pair read) n s = Some (l, r) -> exists b, pair_forms l b /\ s = b ++ r /\ length l = n.
Proof.
  intros IH. induction n as [|n IHn]; intros s l r E; cbn [read_many] in E.
  - injection E as <- <-. exists []. repeat split. constructor.
  - unfold read_pair at 1 in E. destruct (read s) as [[k r0]|] eqn:E0; [|discriminate]. destruct (read r0) as [[x r1]|] eqn:E1; [|discriminate].
    destruct (read_many (read_pair read) n r1) as [[l1 r2]|] eqn:E2; [|discriminate].
    injection E as <- <-. apply IH in E0. destruct E0 as (b0 & F0 & ->). apply IH in E1. destruct E1 as (b & F & ->). apply IHn in E2. destruct E2 as (b' & F' & -> & L).
    exists (b0 ++ b ++ b'). split; [constructor; assumption|]. rewrite !app_assoc. cbn [length]. auto.
Qed.
Lemma read_value_form fuel : forall s v r, read_value fuel s = Some (v, r) -> exists b, form v b /\ s = b ++ r.
Proof.
  induction fuel as [|fuel IH]; intros s v r E; cbn [read_value] in E; [discriminate|].
  destruct (read_header s) as [[h t]|] eqn:Eh; [|discriminate]. apply read_header_form in Eh. destruct Eh as (c & F & ->).
  destruct h as [|b|z|n|n|n|n|n|n].
  - injection E as <- <-. exists c. split; [|reflexivity]. inversion F; subst; constructor.
  - injection E as <- <-. exists c. split; [|reflexivity]. inversion F; subst; constructor.
  - injection E as <- <-. exists c. split; [|reflexivity]. inversion F; subst; constructor; assumption.
  - destruct (take n t) as [[d r']|] eqn:T; [|discriminate]. injection E as <- <-. apply take_some in T. destruct T as [-> L].
    exists (c ++ d). rewrite app_assoc. split; [|reflexivity]. inversion F; subst. constructor. rewrite L, N2Nat.id. assumption.
  - destruct (take n t) as [[d r']|] eqn:T; [|discriminate]. injection E as <- <-. apply take_some in T. destruct T as [-> L].
    exists (c ++ d). rewrite app_assoc. split; [|reflexivity]. inversion F; subst. constructor. rewrite L, N2Nat.id. assumption.
  - destruct (take n t) as [[d r']|] eqn:T; [|discriminate]. injection E as <- <-. apply take_some in T. destruct T as [-> L].
    exists (c ++ d). rewrite app_assoc. split; [|reflexivity]. inversion F as [| | | | | | | | |m n' I| | | |]; subst. cbn [app]. constructor. rewrite L. cbn [In] in I |- *.
    repeat destruct I as [I|I]; try contradiction; injection I as <- <-; tauto.
  - destruct t as [|y t]; [discriminate|]. destruct (take n t) as [[d r']|] eqn:T; [|discriminate]. injection E as <- <-. apply take_some in T. destruct T as [-> L].
    exists (c ++ y :: d). rewrite <- app_assoc. split; [|reflexivity]. inversion F as [| | | | | | | | | |m n' I|n' c' A| |]; subst.
    + cbn [app]. apply form_fixext. rewrite L. cbn [In] in I |- *. repeat destruct I as [I|I]; try contradiction; injection I as <- <-; tauto.
    + apply form_ext. rewrite L, N2Nat.id. exact A.
  - destruct (read_many (read_value fuel) (N.to_nat n) t) as [[l r']|] eqn:T; [|discriminate]. injection E as <- <-.
    apply (read_many_forms _ form _ IH) in T. destruct T as (b & Fl & -> & L). exists (c ++ b). rewrite app_assoc. split; [|reflexivity].
    inversion F; subst. constructor; [rewrite L, N2Nat.id|]; assumption.
  - destruct (read_many (read_pair (read_value fuel)) (N.to_nat n) t) as [[l r']|] eqn:T; [|discriminate]. injection E as <- <-.
    apply (read_many_pairs _ _ IH) in T. destruct T as (b & Fl & -> & L). exists (c ++ b). rewrite app_assoc. split; [|reflexivity].
    inversion F; subst. constructor; [rewrite L, N2Nat.id|]; assumption.
Qed.

Lemma announces_pos b m l n c : announces b m l n c -> (1 <= length c)%nat.
Proof. intros A. inversion A; subst; cbn [length]; lia. Qed.
Lemma form_pos v b : form v b -> (1 <= length b)%nat.
Proof. intros F. inversion F; subst; rewrite ?app_length; cbn [length]; try lia; match goal with A : announces _ _ _ _ _ |- _ => apply announces_pos in A end; lia. Qed.

Lemma form_read_all :
  (forall v b, form v b -> forall fuel r, (length b <= fuel)%nat -> read_value fuel (b ++ r) = Some (v, r)) /\
  (forall l b, forms l b -> forall fuel r, (length b <= fuel)%nat -> read_many (read_value fuel) (length l) (b ++ r) = Some (l, r)) /\
  (forall l b, pair_forms l b -> forall fuel r, (length b <= fuel)%nat -> read_many (read_pair (read_value fuel)) (length l) (b ++ r) = Some (l, r)).
Proof.
  apply form_all.
  1-7: intros; destruct fuel as [|fuel]; [cbn [length] in *; lia|]; cbn [read_value]; erewrite form_read_header by (constructor; eassumption); reflexivity.
  - intros c s A fuel r L. rewrite app_length in L. pose proof (announces_pos _ _ _ _ _ A). destruct fuel as [|fuel]; [lia|].
    cbn [read_value]. rewrite <- app_assoc. rewrite (form_read_header (HStr (N.of_nat (length s)))) by (constructor; exact A). rewrite take_app. reflexivity.
  - intros c s A fuel r L. rewrite app_length in L. pose proof (announces_pos _ _ _ _ _ A). destruct fuel as [|fuel]; [lia|].
    cbn [read_value]. rewrite <- app_assoc. rewrite (form_read_header (HBin (N.of_nat (length s)))) by (constructor; exact A). rewrite take_app. reflexivity.
  - intros m s I fuel r L. destruct fuel as [|fuel]; [cbn [length] in L; lia|]. cbn [read_value].
    change ((m :: s) ++ r) with ([m] ++ s ++ r). rewrite (form_read_header (HFloat (N.of_nat (length s)))); [rewrite take_app; reflexivity|].
    constructor. cbn [In] in I |- *. repeat destruct I as [I|I]; try contradiction; injection I as <- <-; tauto.
  - intros m t s I fuel r L. destruct fuel as [|fuel]; [cbn [length] in L; lia|]. cbn [read_value].
    change ((m :: t :: s) ++ r) with ([m] ++ t :: s ++ r). rewrite (form_read_header (HExt (N.of_nat (length s)))); [rewrite take_app; reflexivity|].
    apply hf_fixext. cbn [In] in I |- *. repeat destruct I as [I|I]; try contradiction; injection I as <- <-; tauto.
  - intros c t s A fuel r L. rewrite app_length in L. pose proof (announces_pos _ _ _ _ _ A). destruct fuel as [|fuel]; [lia|].
    cbn [read_value]. rewrite <- app_assoc. rewrite (form_read_header (HExt (N.of_nat (length s)))) by (apply hf_ext; exact A). cbn [app]. rewrite take_app. reflexivity.
  - intros c l s A _ IH fuel r L. rewrite app_length in L. pose proof (announces_pos _ _ _ _ _ A). destruct fuel as [|fuel]; [lia|].
    cbn [read_value]. rewrite <- app_assoc. rewrite (form_read_header (HArr (N.of_nat (length l)))) by (constructor; exact A). rewrite Nat2N.id, IH by lia. reflexivity.
  - intros c l s A _ IH fuel r L. rewrite app_length in L. pose proof (announces_pos _ _ _ _ _ A). destruct fuel as [|fuel]; [lia|].
    cbn [read_value]. rewrite <- app_assoc. rewrite (form_read_header (HMap (N.of_nat (length l)))) by (constructor; exact A). rewrite Nat2N.id, IH by lia. reflexivity.
  - intros fuel r L. reflexivity.
  - intros v l s t _ IHv _ IHl fuel r L. rewrite app_length in L. cbn [length read_many]. rewrite <- app_assoc, IHv, IHl by lia. reflexivity.
  - intros fuel r L. reflexivity.
  - intros k v l s t u _ IHk _ IHv _ IHl fuel r L. rewrite !app_length in L. cbn [length read_many]. unfold read_pair at 1.
    rewrite <- !app_assoc, IHk, IHv, IHl by lia. reflexivity.
Qed.

Lemma decode_form s v : decode s = Some v <-> exists b r, form v b /\ s = b ++ r.
Proof.
  unfold decode. split.
  - destruct (read_value (S (length s)) s) as [[w r]|] eqn:E; [|discriminate]. intros F. injection F as <-.
    apply read_value_form in E. destruct E as (b & F & E). exists b, r. auto.
  - intros (b & r & F & ->). destruct form_read_all as [R _]. rewrite (R v b F); [reflexivity|]. rewrite app_length. lia.
Qed.
Lemma form_unambiguous v v' b b' r r' : form v b -> form v' b' -> b ++ r = b' ++ r' -> v = v' /\ b = b' /\ r = r'.
Proof.
  intros F F' E. destruct form_read_all as [R _]. pose proof (R v b F (length b + length b')%nat r ltac:(lia)) as R1.
  pose proof (R v' b' F' (length b + length b')%nat r' ltac:(lia)) as R2. rewrite E in R1. rewrite R1 in R2. injection R2 as -> ->.
  apply app_inv_tail in E. auto.
Qed.
Lemma encode_form v : wf v -> form v (encode v).
Proof.
  intros W. pose proof (read_encode v (length (encode v)) [] W (Nat.le_refl _)) as R. apply read_value_form in R.
  destruct R as (b & F & E). rewrite !app_nil_r in E. rewrite E. exact F.
Qed.

(** ** Sizes *)
Lemma announces_small base bound ms n c : (forall m k, In (m, k) ms -> (k <= 4)%nat) -> bound <= 32 -> announces base bound ms n c -> n < 2 ^ 32.
Proof.
  intros K B A. inversion A as [n' Hn|m d I]; subst; [lia|]. pose proof (big_lt d). specialize (K _ _ I).
  assert (256 ^ N.of_nat (length d) <= 256 ^ 4) by (apply N.pow_le_mono_r; lia). lia.
Qed.
Ltac widths := let I := fresh in intros ? ? I; cbn [In] in I; repeat destruct I as [I|I]; try contradiction; injection I as <- <-; lia.
Lemma form_wf_all :
  (forall v b, form v b -> wf v) /\ (forall l b, forms l b -> fold_right (fun x p => wf x /\ p) True l) /\
  (forall l b, pair_forms l b -> fold_right (fun '(k, x) p => (wf k /\ wf x) /\ p) True l).
Proof.
  apply form_all; try (intros; exact I).
  - intros n Hn. cbn [wf]. lia.
  - intros n Hn. cbn [wf]. lia.
  - intros m d I. cbn [wf]. pose proof (big_lt d). assert (256 ^ N.of_nat (length d) <= 256 ^ 8).
    { apply N.pow_le_mono_r; [lia|]. cbn [In] in I. repeat destruct I as [I|I]; try contradiction; injection I as _ <-; lia. } lia.
  - intros m d I. cbn [wf]. pose proof (big_lt d). unfold twos.
    cbn [In] in I. repeat destruct I as [I|I]; try contradiction; injection I as _ L; rewrite <- L in *.
    all: match goal with H : _ < 256 ^ N.of_nat ?k |- context [(256 ^ Z.of_nat ?k)%Z] => let v := eval vm_compute in (256 ^ Z.of_nat k)%Z in change (256 ^ Z.of_nat k)%Z with v; let v := eval vm_compute in (256 ^ N.of_nat k) in change (256 ^ N.of_nat k) with v in H end.
    all: match goal with |- context [if (?a <? ?b)%Z then _ else _] => destruct (Z.ltb_spec a b) end; lia.
  - intros c s A. cbn [wf]. eapply announces_small; [| |exact A]; [widths|lia].
  - intros c s A. cbn [wf]. eapply announces_small; [| |exact A]; [widths|lia].
  - intros m s I. cbn [wf]. cbn [In] in I. repeat destruct I as [I|I]; try contradiction; injection I as _ <-; tauto.
  - intros m t s I. cbn [wf]. cbn [In] in I. repeat destruct I as [I|I]; try contradiction; injection I as _ <-; lia.
  - intros c t s A. cbn [wf]. eapply announces_small; [| |exact A]; [widths|lia].
  - intros c l s A _ W. cbn [wf]. split; [|exact W]. eapply announces_small; [| |exact A]; [widths|lia].
  - intros c l s A _ W. cbn [wf]. split; [|exact W]. eapply announces_small; [| |exact A]; [widths|lia].
  - intros v l s t _ Wv _ Wl. cbn [fold_right]. auto.
  - intros k v l s t u _ Wk _ Wv _ Wl. cbn [fold_right]. auto.
Qed.

Ltac cases := repeat match goal with |- context [if ?a =? ?b then _ else _] => destruct (N.eqb_spec a b) | |- context [if ?a <? ?b then _ else _] => destruct (N.ltb_spec a b) | |- context [if (?a <=? ?b)%Z then _ else _] => destruct (Z.leb_spec a b) end.
Ltac pow_values := repeat match goal with H : context [256 ^ N.of_nat ?k] |- _ => let v := eval vm_compute in (256 ^ N.of_nat k) in change (256 ^ N.of_nat k) with v in H end.
Lemma header_shortest h c : header_form h c -> (length (write_header h) <= length c)%nat.
Proof.
  intros F. inversion F as [| | |n Hn|n Hn|m d I|m d I|n c' A|n c' A|m n I|m n I|n c' A|n c' A|n c' A]; subst; cbn [write_header length]; try lia.
  - unfold write_sint, write_uint. cases; cbn [length]; rewrite ?be_length; lia.
  - unfold write_sint, write_uint. cases; cbn [length]; rewrite ?be_length; lia.
  - pose proof (big_lt d). unfold write_sint, write_uint. cbn [In] in I. repeat destruct I as [I|I]; try contradiction; injection I as _ L; rewrite <- L in *; pow_values; cases; cbn [length]; rewrite ?be_length; lia.
  - pose proof (big_lt d). unfold write_sint, write_uint, twos. cbn [In] in I. repeat destruct I as [I|I]; try contradiction; injection I as _ L; rewrite <- L in *; pow_values;
    match goal with |- context [(256 ^ Z.of_nat ?k)%Z] => let v := eval vm_compute in (256 ^ Z.of_nat k)%Z in change (256 ^ Z.of_nat k)%Z with v end;
    match goal with |- context [if (?a <? ?b)%Z then _ else _] => destruct (Z.ltb_spec a b) end; cases; cbn [length]; rewrite ?be_length; lia.
  - inversion A as [n' Hn|m d I]; subst; [|pose proof (big_lt d); cbn [In] in I; repeat destruct I as [I|I]; try contradiction; injection I as _ L; rewrite <- L in *; pow_values; cbn [length]; rewrite <- ?L]; cases; cbn [length]; rewrite ?be_length; lia.
  - inversion A as [n' Hn|m d I]; subst; [|pose proof (big_lt d); cbn [In] in I; repeat destruct I as [I|I]; try contradiction; injection I as _ L; rewrite <- L in *; pow_values; cbn [length]; rewrite <- ?L]; cases; cbn [length]; rewrite ?be_length; lia.
  - cbn [In] in I. repeat destruct I as [I|I]; try contradiction; injection I as <- <-; cbn; lia.
  - inversion A as [n' Hn|m d I]; subst; [|pose proof (big_lt d); cbn [In] in I; repeat destruct I as [I|I]; try contradiction; injection I as _ L; rewrite <- L in *; pow_values; cbn [length]; rewrite <- ?L]; cases; cbn [length]; rewrite ?be_length; lia.
  - inversion A as [n' Hn|m d I]; subst; [|pose proof (big_lt d); cbn [In] in I; repeat destruct I as [I|I]; try contradiction; injection I as _ L; rewrite <- L in *; pow_values; cbn [length]; rewrite <- ?L]; cases; cbn [length]; rewrite ?be_length; lia.
  - inversion A as [n' Hn|m d I]; subst; [|pose proof (big_lt d); cbn [In] in I; repeat destruct I as [I|I]; try contradiction; injection I as _ L; rewrite <- L in *; pow_values; cbn [length]; rewrite <- ?L]; cases; cbn [length]; rewrite ?be_length; lia.
Qed.
Lemma shortest_all :
  (forall v b, form v b -> (length (encode v) <= length b)%nat) /\ (forall l b, forms l b -> (length (concat (map encode l)) <= length b)%nat) /\
  (forall l b, pair_forms l b -> (length (concat (map (fun '(k, x) => encode k ++ encode x) l)) <= length b)%nat).
Proof.
  apply form_all; intros; cbn [encode map concat]; rewrite ?app_length; try (eapply header_shortest; constructor; eassumption); try lia.
  all: lazymatch goal with
  | A : announces _ _ _ _ ?c |- context [write_header ?h] => assert ((length (write_header h) <= length c)%nat) by (apply header_shortest; constructor; exact A); cbn [length] in *; lia
  | I : In _ _ |- _ => cbn [In] in I; repeat destruct I as [I|I]; try contradiction; injection I as _ E; rewrite <- E; cbn [length] in *; try rewrite <- E; cbn; lia
  end.
Qed.
Lemma decode_lemma s v : decode s = Some v -> wf v /\ decode (encode v) = Some v /\ (length (encode v) <= length s)%nat.
Proof.
  intros E. apply decode_form in E. destruct E as (b & r & F & ->). destruct form_wf_all as [W _]. specialize (W v b F). split; [exact W|]. split.
  - rewrite <- (app_nil_r (encode v)). apply decode_encode. exact W.
  - destruct shortest_all as [S _]. specialize (S v b F). rewrite app_length. lia.
Qed.
