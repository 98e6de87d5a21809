(** Proofs about mistyped addresses and mnemonics. *)
From Verif Require Import Base BaseFacts Digits AddressModel AddressSpec AddressProofs MistakeSpec.
From Verif Require MnemonicModel MnemonicSpec MnemonicProofs.
Local Open Scope N_scope.

Lemma be_app b xs ys : be_value b (xs ++ ys) = be_value b xs * b ^ N.of_nat (length ys) + be_value b ys.
Proof. unfold be_value at 1. rewrite fold_left_app. apply AddressProofs.be_acc. Qed.
Lemma be_lt b ds : 0 < b -> digits_ok b ds -> be_value b ds < b ^ N.of_nat (length ds).
Proof. intros Hb Hd. rewrite be_le, <- (rev_length ds). apply le_val_lt; [exact Hb|apply Forall_rev; exact Hd]. Qed.
Lemma digit_char_inj d e : d < 32 -> e < 32 -> digit_char d = digit_char e -> d = e.
Proof. unfold digit_char. destruct (N.ltb_spec d 26), (N.ltb_spec e 26); lia. Qed.
Lemma digit_chars_inj ds : forall es, Forall (fun d => d < 32) ds -> Forall (fun d => d < 32) es -> map digit_char ds = map digit_char es -> ds = es.
Proof.
  induction ds as [|d ds IH]; intros [|e es] Hd He E; try discriminate; [reflexivity|]. cbn [map] in E.
  inversion Hd; inversion He; subst. f_equal; [apply digit_char_inj; congruence|apply IH; congruence].
Qed.

Lemma skipn_tl {A} k : forall l : list A, skipn (Datatypes.S k) l = tl (skipn k l).
Proof. induction k as [|k IH]; intros [|x l]; try reflexivity. cbn [skipn]. rewrite <- IH. reflexivity. Qed.

Definition bytes_num (l : bytes) : N := be_value 256 (map Byte.to_N l).
Lemma bytes_num_app a b : bytes_num (a ++ b) = bytes_num a * 256 ^ N.of_nat (length b) + bytes_num b.
Proof. unfold bytes_num. rewrite map_app, be_app, map_length. reflexivity. Qed.
Lemma bytes_num_lt a : bytes_num a < 256 ^ N.of_nat (length a).
Proof. unfold bytes_num. rewrite <- (map_length Byte.to_N a). apply be_lt; [lia|apply MnemonicProofs.bytes_digits]. Qed.
Lemma bytes_num_inj a b : length a = length b -> bytes_num a = bytes_num b -> a = b.
Proof.
  intros L E. apply map_to_N_inj. apply (be_inj 256) in E; [exact E|lia|apply MnemonicProofs.bytes_digits|apply MnemonicProofs.bytes_digits|rewrite !map_length; exact L].
Qed.

(** ** Addresses *)
Section Hash.
Variable H : bytes -> bytes.
Hypothesis H32 : hash32 H.

(** What the first [n] and the other [m] characters stand for. *)
Lemma text_parts n m text addr : (n + m = 58)%nat -> address_from_str H text = Ok addr ->
  length addr = 32%nat /\ length text = 58%nat /\ exists ds es, length ds = n /\ length es = m /\ Forall (fun d => d < 32) ds /\ Forall (fun d => d < 32) es /\
    map Byte.to_N (firstn n text) = map digit_char ds /\ map Byte.to_N (skipn n text) = map digit_char es /\
    4 * (2 ^ 32 * bytes_num addr + bytes_num (skipn 28 (H addr))) = be_value 32 ds * 32 ^ N.of_nat m + be_value 32 es.
Proof.
  intros Hnm E. apply (c33_lemma H text addr H32) in E. destruct E as [La (ds & z & Hz & Hl & Hd & Ht & Hv)].
  rewrite app_length, skipn_length, H32, La in Hl. assert (z = 2%nat /\ length ds = 58%nat) as [-> L58] by lia.
  split; [exact La|]. split; [apply (f_equal (@length N)) in Ht; rewrite !map_length in Ht; lia|].
  exists (firstn n ds), (skipn n ds). split; [rewrite firstn_length; lia|]. split; [rewrite skipn_length; lia|].
  split; [apply Forall_forall; intros x Hx; rewrite Forall_forall in Hd; apply Hd; rewrite <- (firstn_skipn n ds); apply in_or_app; left; exact Hx|].
  split; [apply Forall_forall; intros x Hx; rewrite Forall_forall in Hd; apply Hd; rewrite <- (firstn_skipn n ds); apply in_or_app; right; exact Hx|].
  split; [rewrite <- !firstn_map, Ht; reflexivity|]. split; [rewrite <- !skipn_map, Ht; reflexivity|].
  rewrite <- (firstn_skipn n ds) in Hv. rewrite be_app, skipn_length in Hv. replace (length ds - n)%nat with m in Hv by lia. rewrite Hv.
  fold (bytes_num (addr ++ skipn 28 (H addr))). rewrite bytes_num_app, skipn_length, H32.
  change (256 ^ N.of_nat (32 - 28)) with (2 ^ 32). change (2 ^ N.of_nat 2) with 4. lia.
Qed.
Lemma check_lt addr : bytes_num (skipn 28 (H addr)) < 2 ^ 32.
Proof. pose proof (bytes_num_lt (skipn 28 (H addr))) as L. rewrite skipn_length, H32 in L. exact L. Qed.

Lemma same_front text text' addr addr' : address_from_str H text = Ok addr -> address_from_str H text' = Ok addr' ->
  firstn 52 text = firstn 52 text' -> addr = addr'.
Proof.
  intros E E' F. destruct (text_parts 52 6 _ _ eq_refl E) as (La & _ & ds & es & Ld & Le & Hd & He & Td & Te & V).
  destruct (text_parts 52 6 _ _ eq_refl E') as (La' & _ & ds' & es' & Ld' & Le' & Hd' & He' & Td' & Te' & V').
  rewrite F in Td. assert (ds = ds') as <- by (apply digit_chars_inj; [exact Hd|exact Hd'|congruence]).
  pose proof (be_lt 32 es ltac:(lia) He) as B. pose proof (be_lt 32 es' ltac:(lia) He') as B'. rewrite Le in B. rewrite Le' in B'.
  pose proof (check_lt addr) as C. pose proof (check_lt addr') as C'.
  change (32 ^ N.of_nat 6) with 1073741824 in *. change (2 ^ 32) with 4294967296 in *.
  apply bytes_num_inj; [congruence|]. clear -B B' C C' V V'.
  generalize dependent (bytes_num addr). generalize dependent (bytes_num addr'). intros. lia.
Qed.
Lemma same_rest text text' addr addr' : address_from_str H text = Ok addr -> address_from_str H text' = Ok addr' ->
  skipn 51 text = skipn 51 text' -> skipn 28 (H addr) = skipn 28 (H addr').
Proof.
  intros E E' F. destruct (text_parts 51 7 _ _ eq_refl E) as (La & _ & ds & es & Ld & Le & Hd & He & Td & Te & V).
  destruct (text_parts 51 7 _ _ eq_refl E') as (La' & _ & ds' & es' & Ld' & Le' & Hd' & He' & Td' & Te' & V').
  rewrite F in Te. assert (es = es') as <- by (apply digit_chars_inj; [exact He|exact He'|congruence]).
  pose proof (check_lt addr) as C. pose proof (check_lt addr') as C'.
  change (32 ^ N.of_nat 7) with 34359738368 in *. change (2 ^ 32) with 4294967296 in *.
  apply bytes_num_inj; [rewrite !skipn_length, !H32; reflexivity|]. clear -C C' V V'.
  generalize dependent (bytes_num addr). generalize dependent (bytes_num addr'). intros. lia.
Qed.
Lemma same_last text text' addr addr' : address_from_str H text = Ok addr -> address_from_str H text' = Ok addr' ->
  skipn 52 text = skipn 52 text' -> skipn 29 (H addr) = skipn 29 (H addr').
Proof.
  intros E E' F. destruct (text_parts 52 6 _ _ eq_refl E) as (La & _ & ds & es & Ld & Le & Hd & He & Td & Te & V).
  destruct (text_parts 52 6 _ _ eq_refl E') as (La' & _ & ds' & es' & Ld' & Le' & Hd' & He' & Td' & Te' & V').
  rewrite F in Te. assert (es = es') as <- by (apply digit_chars_inj; [exact He|exact He'|congruence]).
  assert (S : forall a, exists b, skipn 28 (H a) = b :: skipn 29 (H a)).
  { intros a. pose proof (H32 a) as L. destruct (skipn 28 (H a)) as [|b r] eqn:X.
    - apply (f_equal (@length byte)) in X. rewrite skipn_length, L in X. discriminate.
    - exists b. f_equal. change 29%nat with (Datatypes.S 28). rewrite skipn_tl, X. reflexivity. }
  assert (N : forall a, exists b, bytes_num (skipn 28 (H a)) = b * 16777216 + bytes_num (skipn 29 (H a)) /\ bytes_num (skipn 29 (H a)) < 16777216).
  { intros a. destruct (S a) as [b ->]. exists (bytes_num [b]). change (b :: skipn 29 (H a)) with ([b] ++ skipn 29 (H a)).
    pose proof (bytes_num_lt (skipn 29 (H a))) as L. rewrite bytes_num_app. rewrite skipn_length, H32 in *. split; [reflexivity|exact L]. }
  destruct (N addr) as (b & Nb & Lb), (N addr') as (b' & Nb' & Lb'). rewrite Nb in V. rewrite Nb' in V'.
  change (32 ^ N.of_nat 6) with 1073741824 in *. change (2 ^ 32) with 4294967296 in *.
  apply bytes_num_inj; [rewrite !skipn_length, !H32; reflexivity|]. clear -V V' Lb Lb'.
  generalize dependent (bytes_num (skipn 29 (H addr))). generalize dependent (bytes_num (skipn 29 (H addr'))). intros. lia.
Qed.
Lemma same_address text text' addr : address_from_str H text = Ok addr -> address_from_str H text' = Ok addr -> text = text'.
Proof. intros E E'. apply (unique_lemma H H32) in E, E'. destruct E, E'. congruence. Qed.

Lemma nth_error_ext {A} (l : list A) : forall l', (forall j, nth_error l j = nth_error l' j) -> l = l'.
Proof.
  induction l as [|x l IH]; intros [|y l'] E; [reflexivity|specialize (E 0%nat); discriminate|specialize (E 0%nat); discriminate|].
  f_equal; [specialize (E 0%nat); cbn in E; congruence|]. apply IH. intros j. exact (E (Datatypes.S j)).
Qed.
Lemma nth_error_skip {A} k (l : list A) j : nth_error (skipn k l) j = nth_error l (k + j).
Proof.
  revert l. induction k as [|k IH]; intros l; [reflexivity|]. destruct l as [|x l]; [destruct j; reflexivity|]. apply IH.
Qed.
Lemma differ_skip {A} i k (l l' : list A) : differ_at i l l' -> (i < k)%nat -> skipn k l = skipn k l'.
Proof. intros [_ D] Hk. apply nth_error_ext. intros j. rewrite !nth_error_skip. apply D. lia. Qed.
Lemma nth_error_first {A} k : forall (l : list A) j, nth_error (firstn k l) j = if (j <? k)%nat then nth_error l j else None.
Proof.
  induction k as [|k IH]; intros l j; [destruct j; reflexivity|]. destruct l as [|x l]; [destruct j; destruct (Nat.ltb _ _); reflexivity|].
  destruct j as [|j]; [reflexivity|]. cbn [firstn nth_error]. rewrite IH. reflexivity.
Qed.
Lemma differ_first {A} i k (l l' : list A) : differ_at i l l' -> (k <= i)%nat -> firstn k l = firstn k l'.
Proof.
  intros [_ D] Hk. apply nth_error_ext. intros j. rewrite !nth_error_first. destruct (Nat.ltb_spec j k); [|reflexivity]. apply D. lia.
Qed.
Lemma differ_neq {A} i (l l' : list A) : differ_at i l l' -> (i < length l)%nat -> l <> l'.
Proof.
  intros [_ D] Hi <-. destruct (proj1 (D i) eq_refl) as [X|X]; [apply X; reflexivity|]. apply nth_error_None in X. lia.
Qed.

Lemma one_character i text text' addr addr' : address_from_str H text = Ok addr -> address_from_str H text' = Ok addr' ->
  (i < length text)%nat -> differ_at i text text' ->
  (i < 52)%nat /\ addr <> addr' /\ skipn 29 (H addr) = skipn 29 (H addr') /\ ((i < 51)%nat -> skipn 28 (H addr) = skipn 28 (H addr')).
Proof.
  intros E E' L D. pose proof (differ_neq i _ _ D L) as N.
  assert (Na : addr <> addr') by (intros <-; apply N; exact (same_address _ _ _ E E')).
  assert (I : (i < 52)%nat).
  { destruct (Nat.lt_ge_cases i 52) as [X|X]; [exact X|]. exfalso. apply Na. apply (same_front _ _ _ _ E E'). apply (differ_first i); assumption. }
  split; [exact I|]. split; [exact Na|]. split.
  - apply (same_last _ _ _ _ E E'). apply (differ_skip i); assumption.
  - intros X. apply (same_rest _ _ _ _ E E'). apply (differ_skip i); assumption.
Qed.
End Hash.

(** ** Mnemonics *)
Import MnemonicModel MnemonicSpec MnemonicProofs.
Section Words.
Variable H : bytes -> bytes.
Hypothesis H32 : hash32 H.

Lemma checksum_bits key : MnemonicModel.checksum H key = Some (check_bits (H key)).
Proof.
  unfold MnemonicModel.checksum. pose proof (H32 key) as L. destruct (H key) as [|a [|b r]]; [discriminate|discriminate|].
  cbn [length Nat.ltb Nat.leb firstn check_bits].
  destruct (to_base11_spec [a; b]) as (V & D & Ln). cbn [length] in Ln. change ((8 * N.of_nat 2 + 10) / 11) with 2 in Ln.
  destruct (to_base11 [a; b]) as [|x [|y [|? ?]]]; try discriminate.
  - cbn [nth_error]. f_equal.
    unfold byte_val in V. cbn [map le_val] in V. inversion D as [|? ? Dx Dr]. pose proof (to_N_lt a) as La. pose proof (to_N_lt b) as Lb.
    clear -V Dx La Lb. lia.
  - cbn [length] in Ln. lia.
Qed.

Lemma produced key ws : length key = 32%nat -> key_to_mnemonic H key = Some ws ->
  words_at WORDS (to_base11 key) = Some (firstn 24 ws) /\ word_at WORDS (check_bits (H key)) = nth_error ws 24 /\ length ws = 25%nat.
Proof.
  intros L E. destruct (key_to_mnemonic_spec WORDS words_length H H32 key L) as (ws' & chk & C & K & W & L24 & L25 & _).
  unfold key_to_mnemonic in E. rewrite E in K. injection K as <-.
  unfold key_to_mnemonic_in in E. rewrite checksum_bits in E. destruct (words_at WORDS (to_base11 key)) as [vs|] eqn:V; [|discriminate].
  pose proof (words_at_length WORDS _ _ V) as Lv. rewrite L24 in Lv.
  destruct (word_at WORDS (check_bits (H key))) as [w|]; [|discriminate]. injection E as <-.
  rewrite firstn_app, Lv, <- Lv, firstn_all, Nat.sub_diag, app_nil_r. split; [reflexivity|]. split; [|rewrite app_length; cbn; lia].
  rewrite nth_error_app2, Nat.sub_diag by lia. reflexivity.
Qed.
Lemma key_of_groups key key' : length key = 32%nat -> length key' = 32%nat -> to_base11 key = to_base11 key' -> key = key'.
Proof.
  intros L L' E. pose proof (base8_of_base11 key L) as B. rewrite E, (base8_of_base11 key' L') in B. apply app_inj_tail in B. destruct B; congruence.
Qed.

Lemma accepted t ws key : text_words t ws -> phrase_to_key H t = Ok key -> length key = 32%nat /\ key_to_mnemonic H key = Some ws.
Proof. intros T E. apply (proj1 (exact_mnemonic H H32 t ws T)). exact E. Qed.

Lemma last_word t t' ws ws' key key' : text_words t ws -> text_words t' ws' -> phrase_to_key H t = Ok key -> phrase_to_key H t' = Ok key' ->
  firstn 24 ws = firstn 24 ws' -> ws = ws' /\ key = key'.
Proof.
  intros T T' E E' F. destruct (accepted _ _ _ T E) as [L K], (accepted _ _ _ T' E') as [L' K'].
  destruct (produced _ _ L K) as (W & _ & _), (produced _ _ L' K') as (W' & _ & _). rewrite F in W.
  pose proof (lookup_words_at WORDS words_nodup words_length _ _ W) as X. rewrite (lookup_words_at WORDS words_nodup words_length _ _ W') in X.
  assert (key = key') as <- by (apply key_of_groups; [exact L|exact L'|congruence]). split; [congruence|reflexivity].
Qed.
Lemma other_words t t' ws ws' key key' : text_words t ws -> text_words t' ws' -> phrase_to_key H t = Ok key -> phrase_to_key H t' = Ok key' ->
  ws <> ws' -> key <> key' /\ (nth_error ws 24 = nth_error ws' 24 -> check_bits (H key) = check_bits (H key')).
Proof.
  intros T T' E E' N. destruct (accepted _ _ _ T E) as [L K], (accepted _ _ _ T' E') as [L' K'].
  split; [intros <-; apply N; congruence|]. intros F.
  destruct (produced _ _ L K) as (_ & W & L5), (produced _ _ L' K') as (_ & W' & _).
  rewrite F, <- W' in W. destruct (word_at WORDS (check_bits (H key'))) as [w|] eqn:X.
  - pose proof (position_word WORDS words_nodup words_length _ _ X) as P. rewrite (position_word WORDS words_nodup words_length _ _ W) in P. congruence.
  - exfalso. assert (nth_error ws 24 <> None) as Y by (apply nth_error_Some; lia). congruence.
Qed.
End Words.
