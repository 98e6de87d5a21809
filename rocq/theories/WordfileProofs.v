(** Proofs about texts, lines and the word list file. *)
From Verif Require Import Base BaseFacts MnemonicModel MnemonicSpec MnemonicProofs JsonModel WordfileModel WordfileSpec.
Local Open Scope N_scope.

(** ** Characters *)
Lemma known n : n < 256 -> Byte.to_N (b8 n) = n.
Proof. intros H. rewrite to_N_b8. apply N.mod_small. exact H. Qed.
Ltac tests :=
  repeat match goal with
  | |- context [?a <? ?b] => first [replace (a <? b) with true by lia | replace (a <? b) with false by lia]
  | |- context [?a <=? ?b] => first [replace (a <=? b) with true by lia | replace (a <=? b) with false by lia]
  | |- context [?a =? ?b] => first [replace (a =? b) with true by lia | replace (a =? b) with false by lia]
  end.
Lemma from_utf8_char c p s : utf8_char c p -> from_utf8 (p ++ s) = then_char c (from_utf8 s).
Proof.
  destruct 1 as [c Hc|c a b Hc E Hb|c a b d Hc Hs E Hb Hd|c a b d e Hc E Hb Hd He]; cbn [app from_utf8];
    unfold cont, between, low6; rewrite !known by lia.
  - tests. reflexivity.
  - tests. cbn [andb]. f_equal. lia.
  - tests. destruct (N.eqb_spec (224 + a) 224) as [Ea|Na]; [|destruct (N.eqb_spec (224 + a) 237) as [Ea|Nb]];
      unfold scalar in Hs; tests; cbn [andb]; f_equal; lia.
  - tests. destruct (N.eqb_spec (240 + a) 240) as [Ea|Na]; [|destruct (N.eqb_spec (240 + a) 244) as [Ea|Nb]];
      tests; cbn [andb]; f_equal; lia.
Qed.
Lemma from_utf8_complete t s : utf8_text t s -> from_utf8 s = Some t.
Proof. induction 1 as [|c t p s Hc _ IH]; [reflexivity|]. rewrite (from_utf8_char c p s Hc), IH. reflexivity. Qed.

Lemma then_some c o t : then_char c o = Some t -> exists t', o = Some t' /\ t = c :: t'.
Proof. destruct o as [t'|]; cbn; [|discriminate]. intros E. injection E as <-. eauto. Qed.
Lemma named (b : byte) : exists n, n < 256 /\ b = b8 n.
Proof. exists (Byte.to_N b). split; [apply to_N_lt|symmetry; apply b8_to_N]. Qed.
Ltac name_byte b n H := let E := fresh in destruct (named b) as (n & H & E); subst b.
Lemma from_utf8_sound s : forall t, from_utf8 s = Some t -> utf8_text t s.
Proof.
  enough (Hg : forall k s t, (length s <= k)%nat -> from_utf8 s = Some t -> utf8_text t s) by (intros t; apply (Hg (length s)); lia).
  clear s. induction k as [|k IH]; intros s t L E.
  - destruct s; [|cbn in L; lia]. injection E as <-. constructor.
  - destruct s as [|a r]; [injection E as <-; constructor|]. cbn [from_utf8] in E. cbn [length] in L.
    name_byte a n Hn. rewrite known in E by exact Hn.
    destruct (N.ltb_spec n 128) as [H1|H1].
    { apply then_some in E as (t' & E & ->). apply (more_chars n t' [b8 n] r); [constructor; exact H1|]. apply IH; [lia|exact E]. }
    destruct (N.ltb_spec n 194) as [H2|H2]; [discriminate|].
    destruct (N.ltb_spec n 224) as [H3|H3].
    { destruct r as [|b r]; [discriminate|]. name_byte b m Hm. unfold cont, low6 in E. rewrite !known in E by exact Hm.
      destruct ((128 <=? m) && (m <=? 191)) eqn:Eb; [|discriminate]. apply andb_prop in Eb as [B1 B2]. cbn [length] in L.
      apply then_some in E as (t' & E & ->). apply (more_chars _ t' [b8 n; b8 m] r); [|apply IH; [lia|exact E]].
      replace n with (192 + (n - 192)) at 2 by lia. replace m with (128 + (m - 128)) at 2 by lia.
      apply (two_bytes _ (n - 192) (m - 128)); lia. }
    destruct (N.ltb_spec n 240) as [H4|H4].
    { destruct r as [|b [|d r]]; try discriminate. name_byte b m Hm. name_byte d p Hp. unfold cont, between, low6 in E.
      rewrite !known in E by assumption. cbn [length] in L.
      match type of E with (if ?x then _ else _) = _ => destruct x eqn:Eb; [|discriminate] end.
      apply andb_prop in Eb as [Eb B2].
      apply then_some in E as (t' & E & ->). apply (more_chars _ t' [b8 n; b8 m; b8 p] r); [|apply IH; [lia|exact E]].
      assert (B : 128 <= m <= 191 /\ (n = 224 -> 160 <= m) /\ (n = 237 -> m <= 159)).
      { destruct (N.eqb_spec n 224); [lia|]. destruct (N.eqb_spec n 237); lia. }
      replace n with (224 + (n - 224)) at 2 by lia. replace m with (128 + (m - 128)) at 2 by lia.
      replace p with (128 + (p - 128)) at 2 by lia.
      apply (three_bytes _ (n - 224) (m - 128) (p - 128)); unfold scalar; lia. }
    destruct (N.ltb_spec n 245) as [H5|H5]; [|discriminate].
    { destruct r as [|b [|d [|e r]]]; try discriminate. name_byte b m Hm. name_byte d p Hp. name_byte e q Hq. unfold cont, between, low6 in E.
      rewrite !known in E by assumption. cbn [length] in L.
      match type of E with (if ?x then _ else _) = _ => destruct x eqn:Eb; [|discriminate] end.
      apply andb_prop in Eb as [Eb B3]. apply andb_prop in Eb as [Eb B2].
      apply then_some in E as (t' & E & ->). apply (more_chars _ t' [b8 n; b8 m; b8 p; b8 q] r); [|apply IH; [lia|exact E]].
      assert (B : 128 <= m <= 191 /\ (n = 240 -> 144 <= m) /\ (n = 244 -> m <= 143)).
      { destruct (N.eqb_spec n 240); [lia|]. destruct (N.eqb_spec n 244); lia. }
      replace n with (240 + (n - 240)) at 2 by lia. replace m with (128 + (m - 128)) at 2 by lia.
      replace p with (128 + (p - 128)) at 2 by lia. replace q with (128 + (q - 128)) at 2 by lia.
      apply (four_bytes _ (n - 240) (m - 128) (p - 128) (q - 128)); lia. }
Qed.
Lemma from_utf8_exact s t : from_utf8 s = Some t <-> utf8_text t s.
Proof. split; [apply from_utf8_sound|apply from_utf8_complete]. Qed.

(** The check used by the other decoders is the same. *)
Lemma then_none c o : then_char c o = None <-> o = None.
Proof. destruct o; cbn; split; congruence. Qed.
Lemma utf8_from s : utf8 s = match from_utf8 s with Some _ => true | None => false end.
Proof.
  enough (Hg : forall k s, (length s <= k)%nat -> utf8 s = match from_utf8 s with Some _ => true | None => false end) by (apply (Hg (length s)); lia).
  clear s. induction k as [|k IH]; intros s L; [destruct s; [reflexivity|cbn in L; lia]|].
  destruct s as [|a r]; [reflexivity|]. cbn [from_utf8 utf8]. cbn [length] in L.
  assert (Hc : forall c s, (length s <= k)%nat -> utf8 s = match then_char c (from_utf8 s) with Some _ => true | None => false end).
  { intros c s Ls. rewrite (IH s Ls). destruct (from_utf8 s); reflexivity. }
  destruct (Byte.to_N a <? 128); [apply Hc; lia|]. destruct (Byte.to_N a <? 194); [reflexivity|].
  destruct (Byte.to_N a <? 224).
  { destruct r as [|b r]; [reflexivity|]. cbn [length] in L. destruct (cont b); [apply Hc; lia|reflexivity]. }
  destruct (Byte.to_N a <? 240).
  { destruct r as [|b [|c r]]; try reflexivity. cbn [length] in L.
    match goal with |- ?x && _ && _ = _ => destruct x; [|reflexivity] end. destruct (cont c); [apply Hc; lia|reflexivity]. }
  destruct (Byte.to_N a <? 245); [|reflexivity].
  destruct r as [|b [|c [|d r]]]; try reflexivity. cbn [length] in L.
  match goal with |- ?x && _ && _ && _ = _ => destruct x; [|reflexivity] end. destruct (cont c); [|reflexivity]. destruct (cont d); [apply Hc; lia|reflexivity].
Qed.
Lemma utf8_exact s : utf8 s = true <-> exists t, utf8_text t s.
Proof.
  rewrite utf8_from. split.
  - destruct (from_utf8 s) as [t|] eqn:E; [|discriminate]. intros _. exists t. apply from_utf8_sound. exact E.
  - intros [t T]. rewrite (from_utf8_complete t s T). reflexivity.
Qed.

(** ** Ends of texts *)
Lemma utf8_text_app t s t' s' : utf8_text t s -> utf8_text t' s' -> utf8_text (t ++ t') (s ++ s').
Proof. induction 1 as [|c t p s Hc _ IH]; intros H; [exact H|]. rewrite <- app_assoc. cbn. constructor; [exact Hc|]. apply IH. exact H. Qed.
Lemma utf8_text_last t s : utf8_text t s ->
  (t = [] /\ s = []) \/ exists t' s' c p, t = t' ++ [c] /\ s = s' ++ p /\ utf8_text t' s' /\ utf8_char c p.
Proof.
  induction 1 as [|c t p s Hc H IH]; [left; auto|]. right. destruct IH as [[-> ->]|(t' & s' & c' & p' & -> & -> & T & C)].
  - exists [], [], c, p. cbn. rewrite app_nil_r. repeat split; [constructor|exact Hc].
  - exists (c :: t'), (p ++ s'), c', p'. rewrite app_assoc. repeat split; [|exact C]. constructor; assumption.
Qed.
Lemma char_last c p s n s' : utf8_char c p -> s ++ [b8 n] = s' ++ p -> n < 128 -> c = n /\ p = [b8 n] /\ s = s'.
Proof.
  intros C E Hn. destruct C as [c Hc|c a b Hc Ec Hb|c a b d Hc Hs Ec Hb Hd|c a b d e Hc Ec Hb Hd He].
  - apply app_inj_tail in E as [-> E]. apply b8_inj in E; [|lia|lia]. subst n. auto.
  - exfalso. change (s' ++ [b8 (192 + a); b8 (128 + b)]) with (s' ++ [b8 (192 + a)] ++ [b8 (128 + b)]) in E. rewrite app_assoc in E.
    apply app_inj_tail in E as [_ E]. apply b8_inj in E; lia.
  - exfalso. change (s' ++ [b8 (224 + a); b8 (128 + b); b8 (128 + d)]) with (s' ++ [b8 (224 + a); b8 (128 + b)] ++ [b8 (128 + d)]) in E. rewrite app_assoc in E.
    apply app_inj_tail in E as [_ E]. apply b8_inj in E; lia.
  - exfalso. change (s' ++ [b8 (240 + a); b8 (128 + b); b8 (128 + d); b8 (128 + e)]) with (s' ++ [b8 (240 + a); b8 (128 + b); b8 (128 + d)] ++ [b8 (128 + e)]) in E. rewrite app_assoc in E.
    apply app_inj_tail in E as [_ E]. apply b8_inj in E; lia.
Qed.
Lemma text_snoc t s n : n < 128 -> utf8_text t (s ++ [b8 n]) -> exists t', t = t' ++ [n] /\ utf8_text t' s.
Proof.
  intros Hn T. apply utf8_text_last in T as [[_ E]|(t' & s' & c & p & -> & E & T & C)]; [destruct s; discriminate|].
  destruct (char_last c p s n s' C E Hn) as (-> & _ & ->). eauto.
Qed.
Lemma text_snoc_from s n : n < 128 ->
  from_utf8 (s ++ [b8 n]) = match from_utf8 s with Some t => Some (t ++ [n]) | None => None end.
Proof.
  intros Hn. destruct (from_utf8 s) as [t|] eqn:E.
  - apply from_utf8_complete, utf8_text_app; [apply from_utf8_sound; exact E|].
    change [b8 n] with ([b8 n] ++ []). constructor; [constructor; exact Hn|constructor].
  - destruct (from_utf8 (s ++ [b8 n])) as [t|] eqn:E'; [|reflexivity]. apply from_utf8_sound, text_snoc in E' as (t' & _ & T); [|exact Hn].
    apply from_utf8_complete in T. congruence.
Qed.
Lemma text_end t s n : n < 128 -> utf8_text (t ++ [n]) s -> exists s', s = s' ++ [b8 n].
Proof.
  intros Hn T. apply utf8_text_last in T as [[E _]|(t' & s' & c & p & E & -> & T & C)]; [destruct t; discriminate|].
  apply app_inj_tail in E as [-> ->]. exists s'. destruct C; try lia. reflexivity.
Qed.
Lemma last_is_snoc c t x : last_is c (t ++ [x]) = (x =? c).
Proof. unfold last_is. rewrite rev_app_distr. reflexivity. Qed.
Lemma last_is_spec c t : last_is c t = true <-> exists t', t = t' ++ [c].
Proof.
  split.
  - destruct t as [|x t _] using rev_ind; [discriminate|]. rewrite last_is_snoc. intros E. apply N.eqb_eq in E. subst. eauto.
  - intros [t' ->]. rewrite last_is_snoc. apply N.eqb_refl.
Qed.

(** ** Lines *)
Lemma without_decided w : exists l, without_return w l.
Proof.
  destruct w as [|b w _] using rev_ind.
  - exists []. constructor. intros k E. destruct k; discriminate.
  - destruct (byte_eqb_reflect b x0d) as [->|N].
    + exists w. constructor.
    + exists (w ++ [b]). constructor. intros k E. apply app_inj_tail in E as [_ E]. contradiction.
Qed.
(** An ended line that is read. *)
Lemma ended_read w l : without_return w l ->
  match from_utf8 (w ++ [x0a]) with
  | Some t => utf8_text (chomp t) l
  | None => forall t, ~ utf8_text t l
  end.
Proof.
  intros W. change x0a with (b8 10). rewrite (text_snoc_from w 10) by lia. destruct W as [l|l Hl].
  - change x0d with (b8 13). rewrite (text_snoc_from l 13) by lia. destruct (from_utf8 l) as [t|] eqn:E.
    + unfold chomp. rewrite last_is_snoc, N.eqb_refl, removelast_last, last_is_snoc, N.eqb_refl, removelast_last. apply from_utf8_sound. exact E.
    + intros t T. apply from_utf8_complete in T. congruence.
  - destruct (from_utf8 l) as [t|] eqn:E.
    + unfold chomp. rewrite last_is_snoc, N.eqb_refl, removelast_last. apply from_utf8_sound in E.
      destruct (last_is 13 t) eqn:El; [|exact E]. exfalso. apply last_is_spec in El as [t' ->].
      apply text_end in E as [s' E]; [|lia]. exact (Hl s' E).
    + intros t T. apply from_utf8_complete in T. congruence.
Qed.
(** A line without an end. *)
Lemma plain_read l : ~ In x0a l ->
  match from_utf8 l with
  | Some t => utf8_text (chomp t) l
  | None => forall t, ~ utf8_text t l
  end.
Proof.
  intros N. destruct (from_utf8 l) as [t|] eqn:E.
  - apply from_utf8_sound in E. unfold chomp. destruct (last_is 10 t) eqn:El; [|exact E]. exfalso.
    apply last_is_spec in El as [t' ->]. apply text_end in E as [s' ->]; [|lia]. apply N. apply in_or_app. right. left. reflexivity.
  - intros t T. apply from_utf8_complete in T. congruence.
Qed.
Lemma readable_line l raw ls ws :
  match from_utf8 raw with
  | Some t => utf8_text (chomp t) l
  | None => forall t, ~ utf8_text t l
  end -> texts ls ws -> texts (l :: ls) (readable [raw] ++ ws).
Proof.
  cbn [readable]. destruct (from_utf8 raw); intros H T; cbn [app]; [apply good_line|apply bad_line]; assumption.
Qed.
Lemma readable_cons raw r : readable (raw :: r) = readable [raw] ++ readable r.
Proof. cbn [readable]. destruct (from_utf8 raw); reflexivity. Qed.
Lemma lines_read s : forall cur, ~ In x0a cur -> exists ls, file_lines (cur ++ s) ls /\ texts ls (readable (raw_lines s cur)).
Proof.
  induction s as [|b s IH]; intros cur Hc; cbn [raw_lines].
  - rewrite app_nil_r. destruct cur as [|x cur]; [exists []; split; constructor|].
    exists [x :: cur]. split; [constructor; [discriminate|exact Hc]|].
    rewrite <- (app_nil_r (readable _)). apply readable_line; [apply plain_read; exact Hc|constructor].
  - destruct (byte_eqb_reflect b x0a) as [->|Nb].
    + destruct (IH [] (fun x => x)) as (ls & F & T). cbn [app] in F. destruct (without_decided cur) as [l W].
      exists (l :: ls). split; [constructor; assumption|]. rewrite readable_cons. apply readable_line; [apply ended_read; exact W|exact T].
    + destruct (IH (cur ++ [b])) as (ls & F & T).
      { intros Hi. apply in_app_or in Hi as [Hi|[E|[]]]; [exact (Hc Hi)|]. congruence. }
      rewrite <- app_assoc in F. cbn [app] in F. eauto.
Qed.
Lemma raw_ended w : forall cur r, ~ In x0a w -> raw_lines (w ++ x0a :: r) cur = (cur ++ w ++ [x0a]) :: raw_lines r [].
Proof.
  induction w as [|b w IH]; intros cur r N; cbn [app raw_lines].
  - rewrite byte_eqb_refl. reflexivity.
  - destruct (byte_eqb_reflect b x0a) as [->|_]; [exfalso; apply N; left; reflexivity|].
    rewrite IH by (intros Hi; apply N; right; exact Hi). rewrite <- app_assoc. reflexivity.
Qed.
Lemma raw_last w : forall cur, ~ In x0a w -> cur ++ w <> [] -> raw_lines w cur = [cur ++ w].
Proof.
  induction w as [|b w IH]; intros cur N Hn; cbn [app raw_lines].
  - rewrite app_nil_r in *. destruct cur; [contradiction|reflexivity].
  - destruct (byte_eqb_reflect b x0a) as [->|_]; [exfalso; apply N; left; reflexivity|].
    rewrite IH; [rewrite <- app_assoc; reflexivity|intros Hi; apply N; right; exact Hi|]. destruct cur; discriminate.
Qed.
Lemma readable_back raw l ls ws r :
  match from_utf8 raw with
  | Some t => utf8_text (chomp t) l
  | None => forall t, ~ utf8_text t l
  end -> (forall ws, texts ls ws -> r = ws) -> texts (l :: ls) ws -> readable [raw] ++ r = ws.
Proof.
  intros H IH T. cbn [readable]. inversion T as [|l0 t ls0 ws0 U T' E1 E2|l0 ls0 ws0 U T' E1 E2]; subst; destruct (from_utf8 raw) as [x|] eqn:E; cbn [app].
  - apply from_utf8_complete in H, U. assert (chomp x = t) as -> by congruence. f_equal. apply IH. exact T'.
  - exfalso. exact (H t U).
  - exfalso. exact (U _ H).
  - apply IH. exact T'.
Qed.
Lemma read_lines s ls : file_lines s ls -> forall ws, texts ls ws -> readable (raw_lines s []) = ws.
Proof.
  induction 1 as [|l Hl N|w l r ls N W F IH]; intros ws T.
  - inversion T. reflexivity.
  - rewrite (raw_last l []) by assumption. cbn [app]. rewrite <- (app_nil_r (readable [l])).
    apply (readable_back l l [] ws []); [apply plain_read; exact N|intros v V; inversion V; reflexivity|exact T].
  - rewrite raw_ended by exact N. cbn [app]. rewrite readable_cons.
    apply (readable_back (w ++ [x0a]) l ls ws); [apply ended_read; exact W|exact IH|exact T].
Qed.

(** ** The file *)
Lemma load_exact file ws : load_mnemonic_file file = Some ws <->
  exists s ls, file = Some s /\ file_lines s ls /\ texts ls ws /\ N.of_nat (length ws) = 2048.
Proof.
  unfold load_mnemonic_file. split.
  - destruct file as [s|]; [|discriminate]. destruct (N.eqb_spec (N.of_nat (length (readable (raw_lines s [])))) (2 ^ 11)) as [L|]; [|discriminate].
    intros E. injection E as <-. destruct (lines_read s [] (fun x => x)) as (ls & F & T). cbn [app] in F. exists s, ls. repeat split; assumption.
  - intros (s & ls & -> & F & T & L). rewrite (read_lines s ls F ws T). rewrite L. reflexivity.
Qed.
Lemma texts_all ls ws : texts ls ws -> (forall l, In l ls -> exists t, utf8_text t l) -> Forall2 utf8_text ws ls.
Proof.
  induction 1 as [|l t ls ws U _ IH|l ls ws U _ IH]; intros A; [constructor|constructor; [exact U|apply IH; intros k Hk; apply A; right; exact Hk]|].
  destruct (A l (or_introl eq_refl)) as [t T]. destruct (U t T).
Qed.
Lemma own_lines ls : Forall writable ls -> file_lines (one_per_line ls) ls.
Proof.
  induction 1 as [|l ls [N R] _ IH]; [constructor|]. cbn. rewrite <- app_assoc. cbn [app].
  constructor; [exact N|constructor; exact R|exact IH].
Qed.
Lemma texts_of ls ws : Forall2 utf8_text ws ls -> texts ls ws.
Proof. induction 1; [constructor|constructor; assumption]. Qed.
Lemma load_written ls ws : Forall writable ls -> Forall2 utf8_text ws ls -> N.of_nat (length ws) = 2048 ->
  load_mnemonic_file (Some (one_per_line ls)) = Some ws.
Proof. intros W T L. apply load_exact. exists (one_per_line ls), ls. split; [reflexivity|]. split; [apply own_lines; exact W|]. split; [apply texts_of; exact T|exact L]. Qed.
Lemma load_all s ls ws : file_lines s ls -> (forall l, In l ls -> exists t, utf8_text t l) ->
  load_mnemonic_file (Some s) = Some ws <-> Forall2 utf8_text ws ls /\ N.of_nat (length ls) = 2048.
Proof.
  intros F A. rewrite load_exact. split.
  - intros (s' & ls' & E & F' & T & L). injection E as <-.
    destruct (lines_read s [] (fun x => x)) as (k & _ & _).
    assert (T' : exists vs, texts ls vs).
    { clear - A. induction ls as [|l ls IH]; [exists []; constructor|]. destruct (A l (or_introl eq_refl)) as [t Ht].
      destruct IH as [vs V]; [intros x Hx; apply A; right; exact Hx|]. exists (t :: vs). constructor; assumption. }
    destruct T' as [vs V]. pose proof (read_lines s ls F vs V) as E1. pose proof (read_lines s ls' F' ws T) as E2.
    assert (vs = ws) as -> by congruence. pose proof (texts_all ls ws V A) as X. split; [exact X|].
    rewrite <- L. f_equal. clear - X. induction X; cbn; congruence.
  - intros [X L]. exists s, ls. split; [reflexivity|]. split; [exact F|]. split; [apply texts_of; exact X|].
    rewrite <- L. f_equal. clear - X. induction X; cbn; congruence.
Qed.
Lemma loaded_count file ws : load_mnemonic_file file = Some ws -> N.of_nat (length ws) = 2048.
Proof. intros E. apply load_exact in E as (s & ls & _ & _ & _ & L). exact L. Qed.

(** ** Conversions with any list *)
Lemma any_words words H key : N.of_nat (length words) = 2048 -> hash32 H -> length key = 32%nat ->
  exists m, key_to_mnemonic_in words H key = Some m /\ length m = 25%nat /\ Forall (fun w => In w words) m.
Proof.
  intros L Hh Hk. destruct (key_to_mnemonic_spec words L H Hh key Hk) as (m & chk & _ & E & _ & _ & Lm & Hw). eauto.
Qed.
Lemma any_phrase words H t m : N.of_nat (length words) = 2048 -> hash32 H -> text_words t m ->
  phrase_to_key_in words H t <> Panic /\
  forall key, phrase_to_key_in words H t = Ok key -> length key = 32%nat /\ key_to_mnemonic_in words H key = Some m.
Proof.
  intros L Hh Ht. unfold phrase_to_key_in. rewrite (split_text t m Ht). pose proof (decode_spec words L H Hh m) as D. split.
  - intros E. rewrite E in D. exact D.
  - intros key E. rewrite E in D. exact D.
Qed.
