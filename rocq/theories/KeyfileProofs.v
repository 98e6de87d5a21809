From Verif Require Import Base BaseFacts KeyfileModel KeyfileSpec.
Local Open Scope N_scope.

(** ** Decimal numbers *)
Definition dval (s : bytes) (acc : N) : N := fold_left (fun v b => 10 * v + (Byte.to_N b - 48)) s acc.
Definition digits (s : bytes) : Prop := Forall (fun b => 48 <= Byte.to_N b <= 57) s.

Lemma digit_val d : d < 10 -> Byte.to_N (digit d) = 48 + d.
Proof. intros Hd. unfold digit. rewrite to_N_b8, N.mod_small by lia. reflexivity. Qed.

Lemma dval_app a b acc : dval (a ++ b) acc = dval b (dval a acc).
Proof. unfold dval. apply fold_left_app. Qed.
Lemma dval_acc s : forall acc, dval s acc = acc * 10 ^ N.of_nat (length s) + dval s 0.
Proof.
  unfold dval. induction s as [|b s IH]; intros acc; cbn [fold_left length].
  - rewrite N.pow_0_r. lia.
  - rewrite IH, (IH (10 * 0 + _)), Nat2N.inj_succ, N.pow_succ_r'. lia.
Qed.
Lemma dval_ge s acc : acc <= dval s acc.
Proof. rewrite dval_acc. pose proof (N.pow_nonzero 10 (N.of_nat (length s)) ltac:(lia)). nia. Qed.

Lemma dec_from_spec fuel : forall n, n < 10 ^ N.of_nat fuel ->
  (fuel = O \/ dec_from fuel n <> []) /\ digits (dec_from fuel n) /\ dval (rev (dec_from fuel n)) 0 = n /\
  (length (dec_from fuel n) > 1 -> last (dec_from fuel n) x00 <> x30)%nat.
Proof.
  induction fuel as [|k IH]; intros n Hn; cbn [dec_from].
  - rewrite N.pow_0_r in Hn. split; [left; reflexivity|]. split; [constructor|]. split; [cbn; lia|]. cbn. lia.
  - rewrite Nat2N.inj_succ, N.pow_succ_r' in Hn. split; [right; destruct (n <? 10); discriminate|].
    destruct (N.ltb_spec n 10) as [Hlt|Hge].
    + split; [constructor; [rewrite digit_val by exact Hlt; lia|constructor]|]. split; [cbn; rewrite digit_val by exact Hlt; lia|cbn; lia].
    + pose proof (N.mod_upper_bound n 10 ltac:(lia)) as Hm. pose proof (N.div_mod n 10 ltac:(lia)) as Hdm.
      assert (Hk : k <> O) by (intros ->; rewrite N.pow_0_r in Hn; lia).
      destruct (IH (n / 10)) as (I0 & I1 & I2 & I3); [apply N.div_lt_upper_bound; lia|].
      destruct I0 as [I0|I0]; [contradiction|].
      split; [constructor; [rewrite digit_val by exact Hm; lia|exact I1]|]. split.
      * cbn [rev]. rewrite dval_app, I2. unfold dval. cbn [fold_left]. rewrite digit_val by exact Hm. lia.
      * intros _. destruct (dec_from k (n / 10)) as [|x [|y r]] eqn:E.
        -- congruence.
        -- cbn [last]. cbn in I2. inversion I1 as [|? ? Hx _]; subst. intros ->. cbn in I2.
           assert (n / 10 <> 0) by (intros E0; apply N.div_small_iff in E0; lia). lia.
        -- change (last (digit (n mod 10) :: x :: y :: r) x00) with (last (x :: y :: r) x00). apply I3. cbn. lia.
Qed.

Lemma pow_fuel n : n < two64 -> n < 10 ^ N.of_nat 20.
Proof. unfold two64. intros Hn. eapply N.lt_trans; [exact Hn|]. reflexivity. Qed.
Lemma dec_digits n : n < two64 -> digits (dec n).
Proof. intros Hn. unfold dec, digits. apply Forall_rev. apply dec_from_spec. apply pow_fuel. exact Hn. Qed.
Lemma dec_nonempty n : n < two64 -> dec n <> [].
Proof.
  intros Hn E. apply (f_equal (@rev byte)) in E. unfold dec in E. rewrite rev_involutive in E.
  destruct (dec_from_spec 20 n (pow_fuel n Hn)) as ([H|H] & _); [discriminate|exact (H E)].
Qed.
Lemma dec_val n : n < two64 -> dval (dec n) 0 = n.
Proof. intros Hn. unfold dec. apply dec_from_spec. apply pow_fuel. exact Hn. Qed.
Lemma hd_rev (l : bytes) d : hd d (rev l) = last l d.
Proof.
  induction l as [|x l IH]; [reflexivity|]. cbn [rev]. destruct l as [|y l]; [reflexivity|].
  change (last (x :: y :: l) d) with (last (y :: l) d). rewrite <- IH. cbn [rev]. destruct (rev l); reflexivity.
Qed.
Lemma dec_is_decimal n : n < two64 -> is_decimal n (dec n).
Proof.
  intros Hn. split; [apply dec_nonempty; exact Hn|]. split; [apply dec_digits; exact Hn|]. split; [apply dec_val; exact Hn|].
  unfold dec. rewrite rev_length, hd_rev. apply dec_from_spec. apply pow_fuel. exact Hn.
Qed.

Lemma parse_digits_spec s : forall acc, digits s -> dval s acc < two64 -> parse_digits s acc = Some (dval s acc).
Proof.
  induction s as [|b s IH]; intros acc Hd Hv; [reflexivity|]. inversion Hd as [|? ? Hb Hs]; subst. cbn [parse_digits].
  unfold dval in *. cbn [fold_left] in *. fold (dval s (10 * acc + (Byte.to_N b - 48))) in *.
  destruct (N.leb_spec 48 (Byte.to_N b)); [|lia]. destruct (N.leb_spec (Byte.to_N b) 57); [|lia]. cbn [andb].
  replace (acc * 10 + (Byte.to_N b - 48)) with (10 * acc + (Byte.to_N b - 48)) by lia.
  pose proof (dval_ge s (10 * acc + (Byte.to_N b - 48))). destruct (N.ltb_spec (10 * acc + (Byte.to_N b - 48)) two64); [|lia].
  apply IH; assumption.
Qed.
Lemma parse_dec n : n < two64 -> parse_u64 (dec n) = Some n.
Proof.
  intros Hn. pose proof (dec_nonempty n Hn) as Hne. pose proof (dec_digits n Hn) as Hd. pose proof (dec_val n Hn) as Hv.
  unfold parse_u64. destruct (dec n) as [|b s]; [congruence|].
  destruct (byte_eqb_reflect b x2b) as [->|]; [inversion Hd as [|? ? Hb _]; subst; cbn in Hb; lia|].
  rewrite parse_digits_spec by (rewrite ?Hv; assumption). rewrite Hv. reflexivity.
Qed.
Lemma parse_u64_range s n : parse_u64 s = Some n -> n < two64.
Proof.
  assert (G : forall s acc n, acc < two64 -> parse_digits s acc = Some n -> n < two64).
  { clear. induction s as [|b s IH]; intros acc n Ha; cbn [parse_digits]; [intros [= <-]; exact Ha|].
    destruct (_ && _); [|discriminate]. destruct (N.ltb_spec (acc * 10 + (Byte.to_N b - 48)) two64); [|discriminate]. apply IH. assumption. }
  assert (H0 : 0 < two64) by reflexivity.
  unfold parse_u64. destruct s as [|b s]; [discriminate|]. destruct (Byte.eqb b x2b); [destruct s as [|c s]; [discriminate|]|]; apply G; exact H0.
Qed.
Lemma dec_inj a b : a < two64 -> b < two64 -> dec a = dec b -> a = b.
Proof. intros Ha Hb E. apply (f_equal parse_u64) in E. rewrite !parse_dec in E by assumption. congruence. Qed.

(** Decimal numerals are unique. *)
Lemma dval_lt s : digits s -> dval s 0 < 10 ^ N.of_nat (length s).
Proof.
  induction 1 as [|b s Hb Hs IH]; [reflexivity|]. unfold dval. cbn [fold_left length]. fold (dval s (10 * 0 + (Byte.to_N b - 48))).
  rewrite dval_acc, Nat2N.inj_succ, N.pow_succ_r'. nia.
Qed.
Lemma decimal_length_le n s t : is_decimal n s -> is_decimal n t -> (length s <= length t)%nat.
Proof.
  intros (Hne & Hd & Hv & Hz) (Hne' & Hd' & Hv' & Hz'). destruct (Nat.le_gt_cases (length s) (length t)) as [|Hgt]; [assumption|exfalso].
  fold (dval s 0) in Hv. fold (dval t 0) in Hv'.
  pose proof (dval_lt t Hd') as Hlt. rewrite Hv' in Hlt.
  destruct s as [|b s]; [congruence|]. destruct t as [|c t]; [congruence|].
  specialize (Hz ltac:(cbn in *; lia)). cbn [hd] in Hz. inversion Hd as [|? ? Hb _]; subst.
  assert (Hb0 : Byte.to_N b <> 48) by (intros E; apply Hz; apply to_N_inj; rewrite E; reflexivity).
  unfold dval in Hv'. cbn [fold_left] in Hv'.
  assert (Hge : 10 ^ N.of_nat (length s) <= dval (b :: s) 0).
  { unfold dval. cbn [fold_left]. fold (dval s (10 * 0 + (Byte.to_N b - 48))). rewrite dval_acc. nia. }
  assert (10 ^ N.of_nat (length (c :: t)) <= 10 ^ N.of_nat (length s)) by (apply N.pow_le_mono_r; cbn [length] in *; lia). lia.
Qed.
Lemma decimal_unique n s t : is_decimal n s -> is_decimal n t -> s = t.
Proof.
  intros Hs Ht. assert (Hl : length s = length t) by (apply Nat.le_antisymm; eapply decimal_length_le; eassumption).
  destruct Hs as (_ & Hd & Hv & _). destruct Ht as (_ & Hd' & Hv' & _). subst n. symmetry in Hv'.
  fold (dval s 0) in Hv'. fold (dval t 0) in Hv'. revert t Hl Hd' Hv'. induction s as [|b s IH]; intros [|c t] Hl Hd' E; try discriminate; [reflexivity|].
  cbn [length] in Hl. inversion Hd as [|? ? Hb Hs]; inversion Hd' as [|? ? Hc Ht]; subst.
  unfold dval in E. cbn [fold_left] in E. fold (dval s (10 * 0 + (Byte.to_N b - 48))) in E. fold (dval t (10 * 0 + (Byte.to_N c - 48))) in E.
  rewrite dval_acc, (dval_acc t) in E. pose proof (dval_lt s Hs) as Ls. pose proof (dval_lt t Ht) as Lt.
  injection Hl as Hl. rewrite Hl in *. set (p := 10 ^ N.of_nat (length t)) in *.
  assert (Byte.to_N b = Byte.to_N c) as Ebc by nia. f_equal; [apply to_N_inj; exact Ebc|]. apply IH; [exact Hs|reflexivity|exact Ht|]. rewrite Ebc in E. nia.
Qed.

(** ** Splitting *)
Definition dotless (s : bytes) : Prop := ~ In x2e s.
Lemma digits_dotless s : digits s -> dotless s.
Proof. intros Hd Hi. unfold digits in Hd. rewrite Forall_forall in Hd. specialize (Hd _ Hi). cbn in Hd. lia. Qed.
Lemma split_from_dotless s : forall cur, dotless s -> split_from cur s = [rev cur ++ s].
Proof.
  induction s as [|b s IH]; intros cur Hd; cbn [split_from]; [rewrite app_nil_r; reflexivity|].
  destruct (byte_eqb_reflect b x2e) as [->|]; [exfalso; apply Hd; left; reflexivity|].
  rewrite IH by (intros Hi; apply Hd; right; exact Hi). cbn [rev]. rewrite <- app_assoc. reflexivity.
Qed.
Lemma split_from_app s t : forall cur, split_from cur (s ++ x2e :: t) = split_from cur s ++ split t.
Proof.
  induction s as [|b s IH]; intros cur; cbn [app split_from].
  - rewrite byte_eqb_refl. reflexivity.
  - destruct (Byte.eqb b x2e); rewrite IH; reflexivity.
Qed.
Lemma split_app s t : split (s ++ x2e :: t) = split s ++ split t.
Proof. apply split_from_app. Qed.
Lemma split_nonempty s : split s <> [].
Proof. unfold split. generalize (@nil byte). induction s as [|b s IH]; intros cur; cbn [split_from]; [discriminate|]. destruct (Byte.eqb b x2e); [discriminate|apply IH]. Qed.

Lemma split_part_name a f l : dotless f -> dotless l ->
  split (a ++ str "." ++ f ++ str "." ++ l ++ str ".partkey") = split a ++ [f; l; str "partkey"].
Proof.
  intros Hf Hl. change (str ".partkey") with (x2e :: str "partkey"). change (str ".") with [x2e]. cbn [app].
  rewrite !split_app. unfold split at 2 3 4. rewrite !split_from_dotless; [reflexivity| |exact Hl|exact Hf].
  cbn. intros [H|[H|[H|[H|[H|[H|[H|[]]]]]]]]; discriminate.
Qed.
Lemma extract_part_name a first last : first < two64 -> last < two64 -> first <= last ->
  extract_part_valid_interval (part_key_filename a first last) = Some (first, last).
Proof.
  intros Hf Hl Hle. unfold extract_part_valid_interval, part_key_filename.
  rewrite split_part_name by (apply digits_dotless, dec_digits; assumption). cbv zeta.
  rewrite app_length. cbn [length]. pose proof (split_nonempty a) as Hne.
  assert (0 < length (split a))%nat by (destruct (split a); [congruence|cbn; lia]).
  destruct (Nat.ltb_spec (length (split a) + 3) 4); [lia|].
  rewrite !app_nth2 by lia.
  replace (length (split a) + 3 - 3 - length (split a))%nat with 0%nat by lia.
  replace (length (split a) + 3 - 2 - length (split a))%nat with 1%nat by lia. cbn [nth].
  rewrite !parse_dec by assumption. destruct (N.leb_spec first last); [reflexivity|lia].
Qed.
Lemma extract_range name f l : extract_part_valid_interval name = Some (f, l) -> f < two64 /\ l < two64 /\ f <= l.
Proof.
  unfold extract_part_valid_interval. cbv zeta. destruct (_ <? 4)%nat; [discriminate|].
  destruct (parse_u64 (nth (length (split name) - 3) _ _)) as [f'|] eqn:Ef; [|discriminate].
  destruct (parse_u64 (nth (length (split name) - 2) _ _)) as [l'|] eqn:El; [|discriminate].
  destruct (N.leb_spec f' l') as [Hle|]; [|discriminate]. intros E.
  assert (f = f') as -> by congruence. assert (l = l') as -> by congruence.
  apply parse_u64_range in Ef, El. auto.
Qed.

(** ** Trimming *)
Lemma ends_with_spec suffix s : ends_with suffix s = true <-> exists a, s = a ++ suffix.
Proof.
  unfold ends_with. rewrite andb_true_iff, Nat.leb_le, bytes_eqb_spec. split.
  - intros [Hl E]. exists (firstn (length s - length suffix) s). rewrite <- E at 2. symmetry. apply firstn_skipn.
  - intros [a ->]. rewrite app_length. split; [lia|]. replace (length a + length suffix - length suffix)%nat with (length a) by lia.
    rewrite skipn_app, skipn_all, Nat.sub_diag. reflexivity.
Qed.
Lemma trim_from_spec suffix fuel : forall s, suffix <> [] -> (length s <= fuel)%nat ->
  exists k, s = trim_from fuel suffix s ++ concat (repeat suffix k) /\ ends_with suffix (trim_from fuel suffix s) = false.
Proof.
  induction fuel as [|n IH]; intros s Hne Hf; cbn [trim_from].
  - destruct s; [|cbn in Hf; lia]. exists O. split; [reflexivity|]. unfold ends_with.
    destruct suffix; [congruence|reflexivity].
  - destruct (ends_with suffix s) eqn:E; [|exists O; cbn; rewrite app_nil_r; auto].
    pose proof E as E'. apply ends_with_spec in E' as [a Ea]. rewrite Ea, app_length.
    replace (length a + length suffix - length suffix)%nat with (length a) by lia.
    rewrite firstn_app, firstn_all, Nat.sub_diag. cbn [firstn]. rewrite app_nil_r.
    assert (0 < length suffix)%nat by (destruct suffix; [congruence|cbn; lia]).
    destruct (IH a Hne) as (k & Ek & Ee); [rewrite Ea, app_length in Hf; lia|].
    exists (S k). split; [|exact Ee]. replace (S k) with (k + 1)%nat by lia. rewrite repeat_app, concat_app. cbn [repeat concat].
    rewrite app_nil_r, app_assoc, <- Ek. reflexivity.
Qed.
Lemma trim_once suffix s : suffix <> [] -> ends_with suffix s = false -> trim_end_matches suffix (s ++ suffix) = s.
Proof.
  intros Hne E. unfold trim_end_matches. rewrite app_length.
  assert (0 < length suffix)%nat by (destruct suffix; [congruence|cbn; lia]).
  destruct (length s + length suffix)%nat as [|n] eqn:El; [lia|]. cbn [trim_from].
  rewrite (proj2 (ends_with_spec suffix (s ++ suffix))) by (exists s; reflexivity).
  rewrite app_length. replace (length s + length suffix - length suffix)%nat with (length s) by lia.
  rewrite firstn_app, firstn_all, Nat.sub_diag. cbn [firstn]. rewrite app_nil_r.
  destruct n; cbn [trim_from]; [reflexivity|]. rewrite E. reflexivity.
Qed.

(** ** Participation key files *)
Definition part_suffix (f l : N) : bytes := str "." ++ dec f ++ str "." ++ dec l ++ str ".partkey".
Lemma part_suffix_nonempty f l : part_suffix f l <> [].
Proof. discriminate. Qed.
Lemma part_name_suffix a f l : part_key_filename a f l = a ++ part_suffix f l.
Proof. reflexivity. Qed.

Lemma part_name_iff a f l name : f < two64 -> l < two64 -> is_part_name a f l name <-> name = part_key_filename a f l.
Proof.
  intros Hf Hl. split.
  - intros (tf & tl & Df & Dl & ->). rewrite (decimal_unique f tf (dec f)) by (auto using dec_is_decimal).
    rewrite (decimal_unique l tl (dec l)) by (auto using dec_is_decimal). reflexivity.
  - intros ->. exists (dec f), (dec l). auto using dec_is_decimal.
Qed.

Lemma part_name_inj a f l a' f' l' : f < two64 -> l < two64 -> f' < two64 -> l' < two64 ->
  part_key_filename a f l = part_key_filename a' f' l' -> a = a' /\ f = f' /\ l = l'.
Proof.
  intros Hf Hl Hf' Hl' E. pose proof (f_equal split E) as Es. unfold part_key_filename in Es.
  rewrite !split_part_name in Es by (apply digits_dotless, dec_digits; assumption).

  assert (Ed : [dec f; dec l; str "partkey"] = [dec f'; dec l'; str "partkey"]).
  { apply (f_equal (@rev _)) in Es. rewrite !rev_app_distr in Es. cbn [rev app] in Es. congruence. }
  assert (f = f') as <- by (apply dec_inj; [assumption..|congruence]).
  assert (l = l') as <- by (apply dec_inj; [assumption..|congruence]).
  rewrite !part_name_suffix in E. apply app_inv_tail in E. auto.
Qed.

Lemma part_recognised a f l : f < two64 -> l < two64 -> f <= l -> ends_with (part_suffix f l) a = false ->
  account_name_from_part_key_filename (part_key_filename a f l) = a /\ is_part_key_filename (part_key_filename a f l) = true /\
  extract_part_valid_interval (part_key_filename a f l) = Some (f, l).
Proof.
  intros Hf Hl Hle He.
  assert (Ea : account_name_from_part_key_filename (part_key_filename a f l) = a).
  { unfold account_name_from_part_key_filename. rewrite extract_part_name by assumption. fold (part_suffix f l).
    rewrite part_name_suffix. apply trim_once; [apply part_suffix_nonempty|exact He]. }
  split; [exact Ea|]. split; [|apply extract_part_name; assumption].
  unfold is_part_key_filename. rewrite Ea. unfold matches_part_key_filename. rewrite extract_part_name by assumption. apply bytes_eqb_refl.
Qed.
Lemma matches_part_lemma a name : matches_part_key_filename a name = true <->
  exists f l, f < two64 /\ l < two64 /\ f <= l /\ name = part_key_filename a f l.
Proof.
  split.
  - unfold matches_part_key_filename. destruct (extract_part_valid_interval name) as [[f l]|] eqn:E; [|discriminate].
    intros Hm. apply bytes_eqb_spec in Hm. apply extract_range in E as (Hf & Hl & Hle). exists f, l. auto.
  - intros (f & l & Hf & Hl & Hle & ->). unfold matches_part_key_filename. rewrite extract_part_name by assumption. apply bytes_eqb_refl.
Qed.

(** ** Root key files *)
Lemma app_tail_last (s t : bytes) x d : last (s ++ t ++ [x]) d = x.
Proof. rewrite app_assoc. apply last_last. Qed.
Lemma is_root_false name : is_root_key_filename name = false.
Proof.
  unfold is_root_key_filename, matches_root_key_filename, root_key_filename, account_name_from_part_key_filename.
  destruct (extract_part_valid_interval name) as [[f l]|] eqn:E.
  - fold (part_suffix f l). unfold trim_end_matches.
    destruct (trim_from_spec (part_suffix f l) (length name) name (part_suffix_nonempty f l) (Nat.le_refl _)) as (k & Ek & _).
    destruct (bytes_eqb_reflect (trim_from (length name) (part_suffix f l) name ++ str ".rootkey") name) as [Eq|]; [exfalso|reflexivity].
    rewrite <- Eq in Ek at 1. apply app_inv_head in Ek. destruct k as [|k]; [discriminate|].
    replace (S k) with (k + 1)%nat in Ek by lia. rewrite repeat_app, concat_app in Ek. cbn [repeat concat] in Ek. rewrite app_nil_r in Ek.
    unfold part_suffix in Ek. apply (f_equal (fun s => firstn 5 (rev s))) in Ek.
    rewrite !app_assoc, rev_app_distr in Ek. cbn in Ek.
    apply (f_equal (fun s => nth 4 s x00)) in Ek. cbn in Ek. discriminate.
  - destruct (bytes_eqb_reflect (name ++ str ".rootkey") name) as [Eq|]; [exfalso|reflexivity].
    apply (f_equal (@length byte)) in Eq. rewrite app_length in Eq. cbn in Eq. lia.
Qed.
Lemma root_account a : ends_with (str ".rootkey") a = false -> account_name_from_root_key_filename (root_key_filename a) = a.
Proof. intros E. apply trim_once; [discriminate|exact E]. Qed.
Lemma root_inj a b : root_key_filename a = root_key_filename b -> a = b.
Proof. apply app_inv_tail. Qed.
Lemma matches_root_lemma a name : matches_root_key_filename a name = true <-> name = a ++ str ".rootkey".
Proof. unfold matches_root_key_filename, root_key_filename. rewrite bytes_eqb_spec. split; congruence. Qed.
Lemma root_not_part a b f l : root_key_filename a <> part_key_filename b f l.
Proof.
  unfold root_key_filename, part_key_filename. rewrite !app_assoc. intros E. apply (f_equal (fun s => nth 4 (rev s) x00)) in E.
  rewrite !rev_app_distr in E. cbn in E. discriminate.
Qed.
