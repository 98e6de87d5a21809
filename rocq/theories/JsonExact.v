(** Reading accepts exactly the JSON texts. *)
From Verif Require Import Base BaseFacts KeyfileModel KeyfileSpec KeyfileProofs JsonModel MnemonicModel WordfileModel WordfileSpec WordfileProofs JsonSpec JsonProofs.
Local Open Scope N_scope.

Lemma some_pair {A B} (a c : A) (b d : B) : Some (a, b) = Some (c, d) -> a = c /\ b = d.
Proof. intros E. split; congruence. Qed.

(** *** White space *)
Lemma is_ws_blank b : is_ws b = true <-> In b [x20; x09; x0a; x0d].
Proof. destruct b; cbn; intuition discriminate. Qed.
Lemma skip_sound s : exists w, blanks w /\ s = w ++ skip_ws s /\ match skip_ws s with [] => True | b :: _ => is_ws b = false end.
Proof.
  induction s as [|b s [w [A [B C]]]]; [exists []; repeat split; constructor|]. cbn [skip_ws]. destruct (is_ws b) eqn:E.
  - exists (b :: w). split; [constructor; [apply is_ws_blank, E|exact A]|]. split; [cbn [app]; f_equal; exact B|exact C].
  - exists []. split; [constructor|]. split; [reflexivity|exact E].
Qed.
Lemma skip_blanks w s : blanks w -> skip_ws (w ++ s) = skip_ws s.
Proof. induction 1 as [|b w Hb F IH]; [reflexivity|]. cbn [app skip_ws]. rewrite (proj2 (is_ws_blank b) Hb). exact IH. Qed.
Lemma skip_all w : blanks w -> skip_ws w = [].
Proof. intros B. rewrite <- (app_nil_r w), (skip_blanks w [] B). reflexivity. Qed.

(** *** Numbers *)
Lemma digit_is b : is_digit b = true <-> exists d, digit b d.
Proof.
  split.
  - intros E. unfold is_digit in E. exists (Byte.to_N b - 48). split; [lia|]. replace (48 + (Byte.to_N b - 48)) with (Byte.to_N b) by lia. symmetry. apply b8_to_N.
  - intros [d [A ->]]. unfold is_digit. rewrite known by lia. lia.
Qed.
Lemma digit_val b d : digit b d -> Byte.to_N b - 48 = d /\ is_digit b = true.
Proof. intros D. split; [|apply digit_is; exists d; exact D]. destruct D as [A ->]. rewrite known by lia. lia. Qed.
Lemma value_snoc s b : digits_value (s ++ [b]) = digits_value s * 10 + (Byte.to_N b - 48).
Proof. unfold digits_value. rewrite fold_left_app. reflexivity. Qed.
Lemma digits_exact s n : digits s n <-> s <> [] /\ forallb is_digit s = true /\ digits_value s = n.
Proof.
  split.
  - induction 1 as [b d D|s n b d S0 IH D].
    + destruct (digit_val b d D) as [A B]. split; [discriminate|]. cbn [forallb]. rewrite B. split; [reflexivity|]. unfold digits_value. cbn [fold_left]. lia.
    + destruct IH as (A & B & C). destruct (digit_val b d D) as [E F]. split; [destruct s; discriminate|]. rewrite forallb_app, B. cbn [forallb]. rewrite F. split; [reflexivity|].
      rewrite value_snoc, C, E. reflexivity.
  - revert n. induction s as [|b s IH] using rev_ind; intros n (A & B & C); [congruence|]. rewrite forallb_app in B. cbn [forallb] in B. rewrite andb_true_r in B. apply andb_prop in B. destruct B as [B1 B2].
    assert (D : digit b (Byte.to_N b - 48)) by (apply digit_is in B2; destruct B2 as [d D]; rewrite (proj1 (digit_val b d D)); exact D).
    rewrite value_snoc in C. destruct s as [|c s].
    + cbn [app]. replace n with (Byte.to_N b - 48) by (rewrite <- C; unfold digits_value; cbn [fold_left]; lia). constructor. exact D.
    + rewrite <- C. constructor; [|exact D]. apply IH. split; [discriminate|]. auto.
Qed.
Lemma span_sound s : forall d r, span_digits s = (d, r) -> s = d ++ r /\ forallb is_digit d = true /\ match r with [] => True | b :: _ => is_digit b = false end.
Proof.
  induction s as [|b s IH]; intros d r E; cbn [span_digits] in E; [injection E as <- <-; repeat split|].
  destruct (is_digit b) eqn:D.
  - destruct (span_digits s) as [d' r'] eqn:F. injection E as <- <-. destruct (IH _ _ eq_refl) as (A & B & C). cbn [app forallb]. rewrite D. rewrite A at 1. auto.
  - injection E as <- <-. repeat split. exact D.
Qed.
Lemma span_app d r : forallb is_digit d = true -> match r with [] => True | b :: _ => is_digit b = false end -> span_digits (d ++ r) = (d, r).
Proof.
  induction d as [|b d IH]; intros F S0; cbn [app].
  - destruct r as [|b r]; [reflexivity|]. cbn [span_digits]. rewrite S0. reflexivity.
  - cbn [forallb] in F. apply andb_prop in F. destruct F as [F1 F2]. cbn [span_digits]. rewrite F1, (IH F2 S0). reflexivity.
Qed.

Lemma byte_is b n : Byte.to_N b =? n = true -> n < 256 -> b = b8 n.
Proof. intros E _. apply N.eqb_eq in E. rewrite <- E. symmetry. apply b8_to_N. Qed.
Ltac byte_eq H := apply byte_is in H; [|reflexivity]; cbn in H; match type of H with ?b = _ => subst b end.

Definition maybe (P : bytes -> Prop) (s : bytes) : Prop := missing s \/ P s.
Definition not_digit (r : bytes) : Prop := match r with [] => True | b :: _ => is_digit b = false end.
Lemma fraction_sound s f r : not_digit s -> read_fraction s = Some (f, r) -> exists t, s = t ++ r /\ (if f then fraction t else t = []) /\ not_digit r.
Proof.
  intros ND E. destruct s as [|b s]; cbn [read_fraction] in E; [injection E as <- <-; exists []; auto|].
  destruct (Byte.to_N b =? 46) eqn:B.
  - byte_eq B. destruct (span_digits s) as [d r'] eqn:S0. destruct (span_sound _ _ _ S0) as (A & F & G). destruct d as [|c d]; [discriminate|]. injection E as <- <-.
    exists (x2e :: c :: d). split; [cbn [app]; f_equal; exact A|]. split; [|exact G]. apply (a_fraction _ (digits_value (c :: d))). apply digits_exact. split; [discriminate|]. auto.
  - injection E as <- <-. exists []. auto.
Qed.
Lemma exponent_sound s e r : not_digit s -> read_exponent s = Some (e, r) -> exists t, s = t ++ r /\ (if e then exponent t else t = []) /\ not_digit r.
Proof.
  intros ND E. destruct s as [|b s]; cbn [read_exponent] in E; [injection E as <- <-; exists []; auto|].
  destruct ((Byte.to_N b =? 101) || (Byte.to_N b =? 69)) eqn:B.
  - assert (Hb : In b [x65; x45]) by (apply orb_prop in B; destruct B as [B|B]; byte_eq B; cbn; auto).
    assert (exists sign t, s = sign ++ t /\ In sign [[]; [x2b]; [x2d]] /\ match s with c :: t => if (Byte.to_N c =? 43) || (Byte.to_N c =? 45) then t else s | [] => s end = t) as (sign & t & Hs & Hi & Ht).
    { destruct s as [|c s]; [exists [], []; cbn; auto|]. destruct ((Byte.to_N c =? 43) || (Byte.to_N c =? 45)) eqn:C; [|exists [], (c :: s); cbn; auto].
      exists [c], s. apply orb_prop in C. destruct C as [C|C]; byte_eq C; (split; [reflexivity|split; [cbn; tauto|reflexivity]]). }
    rewrite Ht in E. cbv zeta in E. destruct (span_digits t) as [d r'] eqn:S0. destruct (span_sound _ _ _ S0) as (A & F & G). destruct d as [|c d]; [discriminate|]. injection E as <- <-.
    exists (b :: sign ++ c :: d). split; [cbn [app]; rewrite <- app_assoc; f_equal; rewrite Hs, A; reflexivity|]. split; [|exact G].
    apply (an_exponent b sign _ (digits_value (c :: d)) Hb Hi). apply digits_exact. split; [discriminate|]. auto.
  - injection E as <- <-. exists []. auto.
Qed.
Lemma whole_of s : s <> [] -> forallb is_digit s = true -> (match s with d :: more => (Byte.to_N d =? 48) && negb (match more with [] => true | _ => false end) | [] => false end) = false -> whole s (digits_value s).
Proof.
  intros NE F Z. split; [apply digits_exact; auto|]. destruct s as [|d more]; [congruence|]. destruct more as [|m more].
  - destruct (Byte.eqb d x30) eqn:E; [apply Byte.byte_dec_bl in E; subst; left; reflexivity|]. right. intros r X. injection X as -> <-. discriminate E.
  - cbn [negb] in Z. rewrite andb_true_r in Z. right. intros r X. injection X as -> _. discriminate Z.
Qed.
Lemma unsigned_sound neg s v r : read_unsigned neg s = Some (v, r) -> exists t, s = t ++ r /\ number ((if neg then [x2d] else []) ++ t) v.
Proof.
  intros E. unfold read_unsigned in E. destruct (span_digits s) as [ds s2] eqn:S0. destruct (span_sound _ _ _ S0) as (A & F & G).
  destruct ds as [|d more] eqn:Eds; [discriminate|]. rewrite <- Eds in *.
  destruct (_ && _) eqn:Z; [discriminate|].
  destruct (read_fraction s2) as [[f s3]|] eqn:RF; [|discriminate]. destruct (fraction_sound _ _ _ G RF) as (tf & E1 & Ff & G1).
  destruct (read_exponent s3) as [[e s4]|] eqn:RE; [|discriminate]. destruct (exponent_sound _ _ _ G1 RE) as (te & E2 & Fe & _).
  cbv zeta in E. apply some_pair in E. destruct E as [Ev <-].
  assert (W : whole ds (digits_value ds)) by (apply whole_of; [subst; discriminate|exact F|subst; exact Z]).
  exists (ds ++ tf ++ te). split; [rewrite A, E1, E2, <- !app_assoc; reflexivity|].
  destruct (f || e) eqn:FE; subst v.
  - apply (fractional (if neg then [x2d] else []) ds (digits_value ds) tf te); [destruct neg; cbn; auto|exact W|]. unfold missing. destruct f, e; try discriminate FE; auto.
  - apply orb_false_elim in FE. destruct FE as [-> ->]. subst tf te. rewrite !app_nil_r. destruct neg.
    + cbn [app]. destruct ((digits_value ds =? 0) || (2 ^ 63 <? digits_value ds)) eqn:C.
      * apply (small ds (digits_value ds) W). lia.
      * apply (negative ds (digits_value ds) W). lia.
    + cbn [app]. destruct (digits_value ds <? two64) eqn:C.
      * apply (positive ds _ W). apply N.ltb_lt, C.
      * apply (large ds _ W). apply N.ltb_ge, C.
Qed.
Lemma number_sound s v r : read_number s = Some (v, r) -> exists t, s = t ++ r /\ number t v.
Proof.
  destruct s as [|b s]; [discriminate|]. cbn [read_number]. destruct (Byte.to_N b =? 45) eqn:B.
  - byte_eq B. intros E. destruct (unsigned_sound _ _ _ _ E) as (t & -> & N0). exists (x2d :: t). split; [reflexivity|exact N0].
  - intros E. destruct (unsigned_sound _ _ _ _ E) as (t & -> & N0). exists t. split; [reflexivity|exact N0].
Qed.

Lemma whole_read s n : whole s n -> s <> [] /\ forallb is_digit s = true /\ digits_value s = n /\
  (match s with d :: more => (Byte.to_N d =? 48) && negb (match more with [] => true | _ => false end) | [] => false end) = false.
Proof.
  intros [D Z]. apply digits_exact in D. destruct D as (A & B & C). repeat split; try assumption. destruct s as [|d more]; [congruence|]. destruct Z as [Z|Z].
  - injection Z as -> ->. reflexivity.
  - replace (Byte.to_N d =? 48) with false; [reflexivity|]. symmetry. apply N.eqb_neq. intros X. apply (Z more). f_equal. rewrite <- (b8_to_N d), X. reflexivity.
Qed.
Lemma stop_not_digit r : stop r -> not_digit r.
Proof. destruct r as [|b r]; [trivial|]. intros [A _]. exact A. Qed.
Lemma fraction_read f r : fraction f -> not_digit r -> read_fraction (f ++ r) = Some (true, r).
Proof.
  intros [s n D] ND. apply digits_exact in D. destruct D as (A & B & _). cbn [app read_fraction]. change (Byte.to_N x2e =? 46) with true. cbv iota.
  rewrite (span_app s r B ND). destruct s; [congruence|reflexivity].
Qed.
Lemma exponent_read e r : exponent e -> not_digit r -> read_exponent (e ++ r) = Some (true, r).
Proof.
  intros [b sign s n Hb Hs D] ND. apply digits_exact in D. destruct D as (A & B & _). cbn [app read_exponent].
  replace ((Byte.to_N b =? 101) || (Byte.to_N b =? 69)) with true by (destruct Hb as [<-|[<-|[]]]; reflexivity). cbv zeta.
  replace (match (sign ++ s) ++ r with c :: t => if (Byte.to_N c =? 43) || (Byte.to_N c =? 45) then t else (sign ++ s) ++ r | [] => (sign ++ s) ++ r end) with (s ++ r).
  - rewrite (span_app s r B ND). destruct s; [congruence|reflexivity].
  - destruct Hs as [<-|[<-|[<-|[]]]]; [|reflexivity|reflexivity]. cbn [app]. destruct s as [|c s]; [congruence|]. cbn [app]. cbn [forallb] in B. apply andb_prop in B. destruct B as [B _]. unfold is_digit in B.
    replace ((Byte.to_N c =? 43) || (Byte.to_N c =? 45)) with false by lia. reflexivity.
Qed.
(** Ends of the parts of a number. *)
Lemma fraction_front f r : fraction f -> not_digit (f ++ r).
Proof. intros [s n D]. reflexivity. Qed.
Lemma exponent_front e r : exponent e -> not_digit (e ++ r) /\ read_fraction (e ++ r) = Some (false, e ++ r).
Proof. intros [b sign s n Hb Hs D]. destruct Hb as [<-|[<-|[]]]; split; reflexivity. Qed.
Lemma number_read t v r : number t v -> stop r -> read_number (t ++ r) = Some (v, r).
Proof.
  intros N0 S0.
  assert (G : forall (neg : bool) s n f e v, whole s n -> maybe fraction f -> maybe exponent e ->
    v = (if match f, e with [], [] => false | _, _ => true end then JOther
         else if neg then (if (n =? 0) || (2 ^ 63 <? n) then JOther else JInt (- Z.of_N n))
         else if n <? two64 then JInt (Z.of_N n) else JOther) ->
    read_unsigned neg (s ++ f ++ e ++ r) = Some (v, r)).
  { clear N0 t v. intros neg s n f e v W Mf Me Hv. destruct (whole_read s n W) as (A & B & C & D).
    assert (Re : read_exponent (e ++ r) = Some (match e with [] => false | _ => true end, r)).
    { destruct Me as [->|Me]; [apply (no_exponent r S0)|]. rewrite (exponent_read e r Me (stop_not_digit r S0)). destruct Me. reflexivity. }
    assert (Ne : not_digit (e ++ r)) by (destruct Me as [->|Me]; [exact (stop_not_digit r S0)|exact (proj1 (exponent_front e r Me))]).
    assert (Rf : read_fraction (f ++ e ++ r) = Some (match f with [] => false | _ => true end, e ++ r)).
    { destruct Mf as [->|Mf].
      - cbn [app]. destruct Me as [->|Me]; [apply (no_fraction r S0)|exact (proj2 (exponent_front e r Me))].
      - rewrite (fraction_read f _ Mf Ne). destruct Mf. reflexivity. }
    assert (Nf : not_digit (f ++ e ++ r)) by (destruct Mf as [->|Mf]; [exact Ne|exact (fraction_front f _ Mf)]).
    unfold read_unsigned. rewrite (span_app s _ B Nf). destruct s as [|d more]; [congruence|]. rewrite D, Rf, Re. cbv zeta. rewrite C, Hv.
    destruct f, e; reflexivity. }
  assert (P : forall s n x, whole s n -> read_number (s ++ x) = read_unsigned false (s ++ x)).
  { intros s n x W. destruct (whole_read s n W) as (A & B & _). destruct s as [|d more]; [congruence|]. cbn [app read_number]. cbn [forallb] in B. apply andb_prop in B. destruct B as [B _]. unfold is_digit in B.
    replace (Byte.to_N d =? 45) with false by lia. reflexivity. }
  destruct N0 as [s n W Hn|s n W Hn|s n W Hn|s n W Hn|sign s n f e Hs W FE].
  - rewrite (P s n r W). apply (G false s n [] [] _ W (or_introl eq_refl) (or_introl eq_refl)). unfold two64. replace (n <? 2 ^ 64) with true by (symmetry; apply N.ltb_lt; exact Hn). reflexivity.
  - cbn [app read_number]. change (Byte.to_N x2d =? 45) with true. cbv iota. apply (G true s n [] [] _ W (or_introl eq_refl) (or_introl eq_refl)).
    replace ((n =? 0) || (2 ^ 63 <? n)) with false by lia. reflexivity.
  - rewrite (P s n r W). apply (G false s n [] [] _ W (or_introl eq_refl) (or_introl eq_refl)). unfold two64. replace (n <? 2 ^ 64) with false by (symmetry; apply N.ltb_ge; exact Hn). reflexivity.
  - cbn [app read_number]. change (Byte.to_N x2d =? 45) with true. cbv iota. apply (G true s n [] [] _ W (or_introl eq_refl) (or_introl eq_refl)).
    replace ((n =? 0) || (2 ^ 63 <? n)) with true by lia. reflexivity.
  - assert (Q : maybe fraction f /\ maybe exponent e /\ match f, e with [], [] => false | _, _ => true end = true).
    { unfold maybe. destruct FE as [[A [B|B]]|[A B]]; (split; [auto|split; [auto|]]); [destruct A; reflexivity|destruct A; reflexivity|]. rewrite A. destruct B. reflexivity. }
    destruct Q as (Mf & Me & Q). destruct Hs as [<-|[<-|[]]].
    + cbn [app]. rewrite <- !app_assoc. rewrite (P s n _ W). apply (G false s n f e _ W Mf Me). rewrite Q. reflexivity.
    + cbn [app read_number]. change (Byte.to_N x2d =? 45) with true. cbv iota. rewrite <- !app_assoc. apply (G true s n f e _ W Mf Me). rewrite Q. reflexivity.
Qed.

(** *** Strings *)
Lemma utf8_of_char n p : utf8_char n p -> p = utf8_of n.
Proof.
  intros [c H|c a b H E Hb|c a b d H Sc E Hb Hd|c a b d e H E Hb Hd He]; unfold utf8_of.
  - rewrite (proj2 (N.ltb_lt _ _) H). reflexivity.
  - replace (c <? 128) with false by lia. replace (c <? 2048) with true by lia. repeat f_equal; lia.
  - replace (c <? 128) with false by lia. replace (c <? 2048) with false by lia. replace (c <? 65536) with true by lia. repeat f_equal; lia.
  - replace (c <? 128) with false by lia. replace (c <? 2048) with false by lia. replace (c <? 65536) with false by lia. repeat f_equal; lia.
Qed.
Lemma char_utf8_of n : scalar n -> utf8_char n (utf8_of n).
Proof.
  unfold scalar. intros S0. unfold utf8_of. destruct (n <? 128) eqn:A; [constructor; lia|]. destruct (n <? 2048) eqn:B; [apply two_bytes; lia|].
  destruct (n <? 65536) eqn:C; [apply three_bytes; [lia|exact S0|lia|lia|lia]|apply four_bytes; lia].
Qed.
Lemma char_scalar n p : utf8_char n p -> scalar n.
Proof. unfold scalar. intros [c H|c a b H E Hb|c a b d H Sc E Hb Hd|c a b d e H E Hb Hd He]; try lia. exact Sc. Qed.

Lemma hex_exact b d : hex_value b = Some d <-> hexadecimal b d.
Proof.
  unfold hex_value, hexadecimal. split.
  - intros E. destruct (_ && _) eqn:A in E; [injection E as <-; left; split; [lia|]; rewrite <- (b8_to_N b) at 1; f_equal; lia|].
    destruct (_ && _) eqn:B in E; [injection E as <-; right; split; [lia|left]; rewrite <- (b8_to_N b) at 1; f_equal; lia|].
    destruct (_ && _) eqn:C in E; [injection E as <-; right; split; [lia|right]; rewrite <- (b8_to_N b) at 1; f_equal; lia|discriminate].
  - intros [[A ->]|[A [-> | ->]]]; rewrite known by lia.
    + replace ((48 <=? 48 + d) && (48 + d <=? 57)) with true by lia. f_equal. lia.
    + replace ((48 <=? 97 + (d - 10)) && (97 + (d - 10) <=? 57)) with false by lia. replace ((97 <=? 97 + (d - 10)) && (97 + (d - 10) <=? 102)) with true by lia. f_equal. lia.
    + replace ((48 <=? 65 + (d - 10)) && (65 + (d - 10) <=? 57)) with false by lia. replace ((97 <=? 65 + (d - 10)) && (65 + (d - 10) <=? 102)) with false by lia.
      replace ((65 <=? 65 + (d - 10)) && (65 + (d - 10) <=? 70)) with true by lia. f_equal. lia.
Qed.
Lemma hex4_four a b c d n : hex4 a b c d = Some n <-> four [a; b; c; d] n.
Proof.
  unfold hex4. split.
  - destruct (hex_value a) as [p|] eqn:A; [|discriminate]. destruct (hex_value b) as [q|] eqn:B; [|discriminate]. destruct (hex_value c) as [r|] eqn:C; [|discriminate]. destruct (hex_value d) as [t|] eqn:D; [|discriminate].
    intros E. injection E as <-. apply hex_exact in A, B, C, D. replace (((p * 16 + q) * 16 + r) * 16 + t) with (p * 4096 + q * 256 + r * 16 + t) by lia. constructor; assumption.
  - intros F. inversion F as [a' b' c' d' p q r t A B C D E1 E2]; subst. apply hex_exact in A, B, C, D. rewrite A, B, C, D. f_equal. lia.
Qed.
Lemma four_shape h n : four h n -> exists a b c d, h = [a; b; c; d] /\ hex4 a b c d = Some n.
Proof. intros F. destruct F as [a b c d p q r t A B C D]. exists a, b, c, d. split; [reflexivity|]. apply hex4_four. constructor; assumption. Qed.
Lemma hex_bound b d : hex_value b = Some d -> d < 16.
Proof. intros E. apply hex_exact in E. destruct E as [[A _]|[A _]]; lia. Qed.
Lemma escape_exact e c : simple_escape e = Some c <-> In (e, c) escapes.
Proof.
  split.
  - destruct e; intros E; try discriminate E; injection E as <-; cbn; tauto.
  - unfold escapes. cbn [In]. intros I. repeat (destruct I as [I|I]; [injection I as <- <-; reflexivity|]). destruct I.
Qed.
Lemma plain_exact b : unescaped b <-> (Byte.to_N b =? 34) = false /\ (Byte.to_N b =? 92) = false /\ (Byte.to_N b <? 32) = false.
Proof.
  unfold unescaped. split.
  - intros (A & B & C). repeat split; [apply N.eqb_neq; intros X; apply B; rewrite <- (b8_to_N b), X; reflexivity|apply N.eqb_neq; intros X; apply C; rewrite <- (b8_to_N b), X; reflexivity|apply N.ltb_ge; exact A].
  - intros (A & B & C). repeat split; [apply N.ltb_ge; exact C|intros ->; discriminate A|intros ->; discriminate B].
Qed.

Inductive pieces : bytes -> list piece -> Prop :=
| p_end : pieces [] []
| p_plain b s ps : unescaped b -> pieces s ps -> pieces (b :: s) (Plain b :: ps)
| p_escape e c s ps : In (e, c) escapes -> pieces s ps -> pieces (x5c :: e :: s) (Plain c :: ps)
| p_code h n s ps : four h n -> pieces s ps -> pieces (x5c :: x75 :: h ++ s) (Code n :: ps).
Lemma then_some_piece p o ps r : then_piece p o = Some (ps, r) -> exists ps', o = Some (ps', r) /\ ps = p :: ps'.
Proof. destruct o as [[ps' r']|]; [|discriminate]. cbn. intros E. injection E as <- <-. exists ps'. auto. Qed.
Lemma pieces_sound n : forall s ps r, (length s <= n)%nat -> read_pieces s = Some (ps, r) -> exists t, s = t ++ x22 :: r /\ pieces t ps.
Proof.
  induction n as [|n IH]; intros s ps r L E; (destruct s as [|b s]; [discriminate E|]); cbn [length] in L; [lia|]. cbn [read_pieces] in E.
  destruct (Byte.to_N b =? 34) eqn:Q; [byte_eq Q; injection E as <- <-; exists []; split; [reflexivity|constructor]|].
  destruct (Byte.to_N b =? 92) eqn:B.
  - byte_eq B. destruct s as [|e s]; [discriminate|]. destruct (Byte.to_N e =? 117) eqn:U.
    + byte_eq U. destruct s as [|h1 [|h2 [|h3 [|h4 s]]]]; try discriminate. destruct (hex4 h1 h2 h3 h4) as [k|] eqn:H; [|discriminate].
      apply then_some_piece in E. destruct E as (ps' & E & ->). cbn [length] in L. destruct (IH s _ _ ltac:(lia) E) as (t & -> & P). exists (x5c :: x75 :: [h1; h2; h3; h4] ++ t). split; [reflexivity|].
      constructor; [apply hex4_four, H|exact P].
    + destruct (simple_escape e) as [c|] eqn:S0; [|discriminate]. apply then_some_piece in E. destruct E as (ps' & E & ->). cbn [length] in L. destruct (IH s _ _ ltac:(lia) E) as (t & -> & P).
      exists (x5c :: e :: t). split; [reflexivity|]. constructor; [apply escape_exact, S0|exact P].
  - destruct (Byte.to_N b <? 32) eqn:C; [discriminate|]. apply then_some_piece in E. destruct E as (ps' & E & ->). destruct (IH s _ _ ltac:(lia) E) as (t & -> & P).
    exists (b :: t). split; [reflexivity|]. constructor; [apply plain_exact; auto|exact P].
Qed.
Lemma pieces_read t ps r : pieces t ps -> read_pieces (t ++ x22 :: r) = Some (ps, r).
Proof.
  induction 1 as [|b s ps U P IH|e c s ps I P IH|h n s ps F P IH].
  - reflexivity.
  - apply plain_exact in U. destruct U as (A & B & C). cbn [app read_pieces]. rewrite A, B, C, IH. reflexivity.
  - cbn [app read_pieces]. change (Byte.to_N x5c =? 34) with false. change (Byte.to_N x5c =? 92) with true. cbv iota.
    replace (Byte.to_N e =? 117) with false; [rewrite (proj2 (escape_exact e c) I), IH; reflexivity|].
    apply escape_exact in I. destruct (Byte.to_N e =? 117) eqn:U; [byte_eq U; discriminate I|reflexivity].
  - destruct (four_shape h n F) as (a & b & c & d & -> & H). cbn [app read_pieces]. change (Byte.to_N x5c =? 34) with false. change (Byte.to_N x5c =? 92) with true. change (Byte.to_N x75 =? 117) with true. cbv iota.
    rewrite H, IH. reflexivity.
Qed.
Lemma pieces_unique t ps qs : pieces t ps -> pieces t qs -> ps = qs.
Proof. intros A B. pose proof (pieces_read t ps [] A) as X. rewrite (pieces_read t qs [] B) in X. congruence. Qed.
Lemma pieces_quotable t : quotable t <-> exists ps, pieces t ps.
Proof.
  split.
  - induction 1 as [|b s U P [ps IH]|e c s I P [ps IH]|h n s F P [ps IH]]; eexists; econstructor; eassumption.
  - intros [ps P]. induction P; econstructor; eassumption.
Qed.
Lemma map_some {A B} (f : A -> B) o b : option_map f o = Some b -> exists a, o = Some a /\ b = f a.
Proof. destruct o as [a|]; [|discriminate]. cbn. intros E. injection E as <-. exists a. auto. Qed.
Lemma join_spells n : forall t ps u, (length ps <= n)%nat -> pieces t ps -> join_pieces ps = Some u -> spells t u.
Proof.
  induction n as [|n IH]; intros t ps u L P E; (destruct ps as [|p ps]; [inversion P; subst; injection E as <-; constructor|]); cbn [length] in L; [lia|].
  inversion P as [|b s ps' U P'|e c s ps' I P'|h k s ps' F P']; subst.
  - cbn [join_pieces] in E. apply map_some in E. destruct E as (u' & E & ->). constructor; [exact U|]. apply (IH s ps); [lia|exact P'|exact E].
  - cbn [join_pieces] in E. apply map_some in E. destruct E as (u' & E & ->). apply s_escape; [exact I|]. apply (IH s ps); [lia|exact P'|exact E].
  - cbn [join_pieces] in E. destruct (low_surrogate k) eqn:Lo; [discriminate|]. unfold low_surrogate in Lo. destruct (high_surrogate k) eqn:Hi; unfold high_surrogate in Hi.
    + destruct ps as [|[b|m] ps]; try discriminate. destruct (low_surrogate m) eqn:Lm; [|discriminate]. unfold low_surrogate in Lm. apply map_some in E. destruct E as (u' & E & ->).
      inversion P' as [| | |h' m' s' ps' F' P'']; subst. cbn [length] in L.
      replace ((k - 55296) * 1024 + (m - 56320) + 65536) with (65536 + (k - 55296) * 1024 + (m - 56320)) by lia.
      apply (s_pair h (k - 55296) h' (m - 56320)); [replace (55296 + (k - 55296)) with k by lia; exact F|replace (56320 + (m - 56320)) with m by lia; exact F'|lia|lia| |].
      * apply char_utf8_of. unfold scalar. lia.
      * apply (IH s' ps); [lia|exact P''|exact E].
    + apply map_some in E. destruct E as (u' & E & ->). apply (s_code h k); [exact F| |apply (IH s ps); [lia|exact P'|exact E]]. apply char_utf8_of. unfold scalar.
      destruct (four_shape h k F) as (a & b & c & d & -> & H). unfold hex4 in H.
      destruct (hex_value a) as [p|] eqn:A; [|discriminate]. destruct (hex_value b) as [q|] eqn:B; [|discriminate]. destruct (hex_value c) as [r|] eqn:C; [|discriminate]. destruct (hex_value d) as [t|] eqn:D; [|discriminate].
      apply hex_bound in A, B, C, D. injection H as <-. lia.
Qed.
Lemma spells_join t u : spells t u -> exists ps, pieces t ps /\ join_pieces ps = Some u.
Proof.
  induction 1 as [|b s t U S0 [ps [A B]]|e c s t I S0 [ps [A B]]|h n p s t F C S0 [ps [A B]]|h n k m p s t F G Hn Hm C S0 [ps [A B]]].
  - exists []. split; [constructor|reflexivity].
  - exists (Plain b :: ps). split; [constructor; assumption|]. cbn [join_pieces]. rewrite B. reflexivity.
  - exists (Plain c :: ps). split; [constructor; assumption|]. cbn [join_pieces]. rewrite B. reflexivity.
  - exists (Code n :: ps). split; [constructor; assumption|]. cbn [join_pieces]. rewrite B. rewrite (utf8_of_char n p C). apply char_scalar in C. unfold scalar in C. unfold low_surrogate, high_surrogate.
    replace ((56320 <=? n) && (n <=? 57343)) with false by lia. replace ((55296 <=? n) && (n <=? 56319)) with false by lia. reflexivity.
  - exists (Code (55296 + n) :: Code (56320 + m) :: ps). split; [constructor; [exact F|constructor; assumption]|]. cbn [join_pieces]. rewrite B. rewrite (utf8_of_char _ p C). unfold low_surrogate, high_surrogate.
    replace ((56320 <=? 55296 + n) && (55296 + n <=? 57343)) with false by lia. replace ((55296 <=? 55296 + n) && (55296 + n <=? 56319)) with true by lia. replace ((56320 <=? 56320 + m) && (56320 + m <=? 57343)) with true by lia.
    cbn [option_map]. do 3 f_equal. lia.
Qed.
Lemma text_exact t ps o : pieces t ps -> (string_text t o <-> text_of ps = o).
Proof.
  intros P. unfold text_of. split.
  - intros X. inversion X as [s u S0 T E1 E2|s Q N0 E1 E2]; subst.
    + destruct (spells_join _ _ S0) as (qs & A & B). rewrite (pieces_unique _ _ _ P A), B. apply utf8_exact in T. rewrite T. reflexivity.
    + destruct (join_pieces ps) as [u|] eqn:J; [|reflexivity]. destruct (utf8 u) eqn:U; [|reflexivity]. destruct (N0 u (join_spells _ _ _ _ (le_n _) P J)). apply utf8_exact, U.
  - intros <-. destruct (join_pieces ps) as [u|] eqn:J.
    + destruct (utf8 u) eqn:U.
      * apply has_text; [exact (join_spells _ _ _ _ (le_n _) P J)|apply utf8_exact, U].
      * apply has_no_text; [apply pieces_quotable; exists ps; exact P|]. intros u' S0 T. apply utf8_exact in T. destruct (spells_join _ _ S0) as (qs & A & B).
        rewrite (pieces_unique _ _ _ A P) in B. congruence.
    + apply has_no_text; [apply pieces_quotable; exists ps; exact P|]. intros u' S0 T. destruct (spells_join _ _ S0) as (qs & A & B). rewrite (pieces_unique _ _ _ A P) in B. congruence.
Qed.
Lemma string_sound s o r : read_string s = Some (o, r) -> exists t, s = t ++ x22 :: r /\ string_text t o.
Proof.
  unfold read_string. destruct (read_pieces s) as [[ps r']|] eqn:E; [|discriminate]. intros X. apply some_pair in X. destruct X as [<- <-].
  destruct (pieces_sound _ _ _ _ (le_n _) E) as (t & -> & P). exists t. split; [reflexivity|]. apply (text_exact t ps); [exact P|reflexivity].
Qed.
Lemma spells_quotable t u : spells t u -> quotable t.
Proof. intros S0. destruct (spells_join _ _ S0) as (ps & P & _). apply pieces_quotable. exists ps. exact P. Qed.
Lemma string_read t o r : string_text t o -> read_string (t ++ x22 :: r) = Some (o, r).
Proof.
  intros S0. assert (Q : quotable t) by (destruct S0 as [s u A _|s A _]; [exact (spells_quotable _ _ A)|exact A]).
  apply pieces_quotable in Q. destruct Q as [ps P]. unfold read_string. rewrite (pieces_read t ps r P). apply (text_exact t ps o P) in S0. rewrite S0. reflexivity.
Qed.

(** *** Sequences *)
Lemma items_sound {A} (read : bytes -> option (A * bytes)) (Q : bytes -> A -> Prop) (cb : byte) :
  (forall s a r, read s = Some (a, r) -> exists w t, blanks w /\ s = w ++ t ++ r /\ Q t a) ->
  forall fuel s l r, read_items read (Byte.to_N cb) fuel s = Some (l, r) -> exists body, s = body ++ cb :: r /\ separated Q body l.
Proof.
  intros R. induction fuel as [|k IH]; intros s l r E; [discriminate|]. cbn [read_items] in E.
  destruct (read s) as [[a r1]|] eqn:Ra; [|discriminate]. destruct (R _ _ _ Ra) as (w & t & Bw & -> & Qa).
  destruct (skip_sound r1) as (w' & Bw' & Es & _). destruct (skip_ws r1) as [|b r2]; [discriminate|]. rewrite Es.
  destruct (Byte.to_N b =? 44) eqn:B.
  - byte_eq B. destruct (read_items read (Byte.to_N cb) k r2) as [[l' r3]|] eqn:I; [|discriminate]. injection E as <- <-.
    destruct (IH _ _ _ I) as (body & -> & S0). exists (w ++ t ++ w' ++ x2c :: body). split; [rewrite <- !app_assoc; cbn [app]; rewrite <- ?app_assoc; reflexivity|]. apply one_more; assumption.
  - destruct (Byte.to_N b =? Byte.to_N cb) eqn:C; [|discriminate]. apply N.eqb_eq, to_N_inj in C. subst b. injection E as <- <-.
    exists (w ++ t ++ w'). split; [rewrite <- !app_assoc; reflexivity|]. apply last_one; assumption.
Qed.
Lemma sequence_sound {A} (read : bytes -> option (A * bytes)) (Q : bytes -> A -> Prop) (cb : byte) :
  (forall s a r, read s = Some (a, r) -> exists w t, blanks w /\ s = w ++ t ++ r /\ Q t a) ->
  forall s l r, read_sequence read (Byte.to_N cb) s = Some (l, r) -> exists body, s = body ++ cb :: r /\ ((l = [] /\ blanks body) \/ separated Q body l).
Proof.
  intros R s l r E. unfold read_sequence in E. destruct (skip_sound s) as (w & Bw & Es & _). destruct (skip_ws s) as [|b r1]; [discriminate|].
  destruct (Byte.to_N b =? Byte.to_N cb) eqn:C.
  - apply N.eqb_eq, to_N_inj in C. subst b. injection E as <- <-. exists w. auto.
  - destruct (items_sound read Q cb R _ _ _ _ E) as (body & -> & S0). exists body. auto.
Qed.
(** What may follow a value. *)
Lemma stop_blanks w b r : blanks w -> stop (b :: r) -> stop (w ++ b :: r).
Proof. intros B S0. destruct B as [|c w Hc _]; [exact S0|]. cbn [app stop]. destruct Hc as [<-|[<-|[<-|[<-|[]]]]]; repeat split; discriminate. Qed.
Lemma stop_all w : blanks w -> stop w.
Proof. intros B. destruct B as [|c w Hc _]; [exact I|]. cbn [stop]. destruct Hc as [<-|[<-|[<-|[<-|[]]]]]; repeat split; discriminate. Qed.
Lemma separated_length {A} (Q : bytes -> A -> Prop) s l : (forall t a, Q t a -> t <> []) -> separated Q s l -> (length l <= length s)%nat.
Proof.
  intros NE. induction 1 as [w s w' a _ H _|w s w' a r l _ H _ S0 IH].
  - apply NE in H. destruct s; [congruence|]. rewrite !app_length. cbn [length]. lia.
  - rewrite !app_length. cbn [length]. lia.
Qed.
Lemma items_read {A} (read : bytes -> option (A * bytes)) (Q : bytes -> A -> Prop) (cb : byte) (k : nat) :
  is_ws cb = false -> Byte.to_N cb <> 44 -> stop [cb] ->
  (forall t a w r, Q t a -> (length t <= k)%nat -> blanks w -> stop r -> read (w ++ t ++ r) = Some (a, r)) ->
  forall body l, separated Q body l -> (length body <= k)%nat -> forall fuel r, (length l <= fuel)%nat -> read_items read (Byte.to_N cb) fuel (body ++ cb :: r) = Some (l, r).
Proof.
  intros Hw Hn Hs R body l S0. induction S0 as [w s w' a Bw Qa Bw'|w s w' a rest l Bw Qa Bw' S0 IH]; intros L fuel r F; (destruct fuel as [|fuel]; [cbn [length] in F; lia|]); rewrite !app_length in L; cbn [length] in L, F; cbn [read_items].
  - rewrite <- !app_assoc. rewrite (R s a w _ Qa ltac:(lia) Bw); [|apply stop_blanks; [exact Bw'|exact Hs]]. rewrite (skip_blanks w' _ Bw'). cbn [skip_ws]. rewrite Hw.
    rewrite (proj2 (N.eqb_neq _ _) Hn), N.eqb_refl. reflexivity.
  - rewrite <- !app_assoc. cbn [app]. rewrite (R s a w _ Qa ltac:(lia) Bw); [|apply stop_blanks; [exact Bw'|apply stop_comma]]. rewrite (skip_blanks w' _ Bw'). cbn [skip_ws]. change (is_ws x2c) with false. cbv iota.
    change (Byte.to_N x2c =? 44) with true. cbv iota. rewrite (IH ltac:(lia) fuel r ltac:(lia)). reflexivity.
Qed.
Lemma separated_front {A} (Q : bytes -> A -> Prop) s l : (forall t a, Q t a -> opens t) -> separated Q s l -> exists b t, is_ws b = false /\ Byte.to_N b <> 93 /\ Byte.to_N b <> 125 /\ forall r, skip_ws (s ++ r) = b :: t ++ r.
Proof.
  intros O. assert (G : forall w s x a, blanks w -> Q s a -> exists b t, is_ws b = false /\ Byte.to_N b <> 93 /\ Byte.to_N b <> 125 /\ forall r, skip_ws ((w ++ s ++ x) ++ r) = b :: t ++ r).
  { intros w t x a Bw Qa. apply O in Qa. destruct t as [|b t]; [destruct Qa|]. destruct Qa as (A1 & A2 & A3). exists b, (t ++ x). repeat split; try assumption.
    intros r. rewrite <- !app_assoc. rewrite (skip_blanks w _ Bw). cbn [app skip_ws]. rewrite A1. rewrite <- ?app_assoc. reflexivity. }
  intros [w t w' a Bw Qa _|w t w' a r l' Bw Qa _ _]; apply (G _ _ _ a); assumption.
Qed.
Lemma sequence_read {A} (read : bytes -> option (A * bytes)) (Q : bytes -> A -> Prop) (cb : byte) (k : nat) :
  In cb [x5d; x7d] -> (forall t a, Q t a -> opens t) ->
  (forall t a w r, Q t a -> (length t <= k)%nat -> blanks w -> stop r -> read (w ++ t ++ r) = Some (a, r)) ->
  forall body l r, separated Q body l -> (length body <= k)%nat -> read_sequence read (Byte.to_N cb) (body ++ cb :: r) = Some (l, r).
Proof.
  intros Hc O R body l r S0 L. unfold read_sequence. destruct (separated_front Q _ _ O S0) as (b & t & A1 & A2 & A3 & A4). rewrite A4.
  replace (Byte.to_N b =? Byte.to_N cb) with false by (symmetry; apply N.eqb_neq; destruct Hc as [<-|[<-|[]]]; assumption).
  apply (items_read read Q cb k); try assumption; try (destruct Hc as [<-|[<-|[]]]; [reflexivity|reflexivity]).
  - destruct Hc as [<-|[<-|[]]]; discriminate.
  - destruct Hc as [<-|[<-|[]]]; repeat split; discriminate.
  - rewrite app_length. pose proof (separated_length Q body l (fun t a H X => match eq_ind_r (fun t => opens t) (eq_rect _ opens (O t a H) _ X) eq_refl with end) S0). lia.
Qed.
Lemma empty_read {A} (read : bytes -> option (A * bytes)) (cb : byte) w r : In cb [x5d; x7d] -> blanks w -> read_sequence read (Byte.to_N cb) (w ++ cb :: r) = Some ([], r).
Proof.
  intros Hc B. unfold read_sequence. rewrite (skip_blanks w _ B). cbn [skip_ws]. replace (is_ws cb) with false by (destruct Hc as [<-|[<-|[]]]; reflexivity). rewrite N.eqb_refl. reflexivity.
Qed.

(** *** Values *)
Lemma after_sound p : forall s r, after p s = Some r -> s = p ++ r.
Proof.
  induction p as [|a p IH]; intros s r E; cbn [after] in E; [injection E as <-; reflexivity|]. destruct s as [|b s]; [discriminate|].
  destruct (Byte.eqb a b) eqn:B; [|discriminate]. apply Byte.byte_dec_bl in B. subst b. cbn [app]. f_equal. apply IH, E.
Qed.
Lemma after_app p r : after p (p ++ r) = Some r.
Proof. induction p as [|a p IH]; [reflexivity|]. cbn [app after]. rewrite Byte.byte_dec_lb by reflexivity. exact IH. Qed.
Lemma keyed_sound m m' : keyed m = Some m' -> m = map (fun e => (Some (fst e), snd e)) m'.
Proof.
  revert m'. induction m as [|[[k|] v] m IH]; intros m' E; cbn [keyed] in E; [injection E as <-; reflexivity| |discriminate].
  apply map_some in E. destruct E as (m1 & E & ->). cbn [map fst snd]. f_equal. apply IH, E.
Qed.
Lemma keyed_none m : keyed m = None <-> exists v, In (None, v) m.
Proof.
  induction m as [|[[k|] v] m IH]; cbn [keyed].
  - split; [discriminate|intros [v []]].
  - destruct (keyed m) as [m'|]; cbn [option_map].
    + split; [discriminate|]. intros [v' [X|X]]; [discriminate X|]. discriminate (proj2 IH (ex_intro _ v' X)).
    + split; [|reflexivity]. intros _. destruct (proj1 IH eq_refl) as [v' X]. exists v'. right. exact X.
  - split; [|reflexivity]. intros _. exists v. left. reflexivity.
Qed.
Lemma member_sound (read : bytes -> option (json * bytes)) (Q : bytes -> json -> Prop) :
  (forall s a r, read s = Some (a, r) -> exists w t, blanks w /\ s = w ++ t ++ r /\ Q t a) ->
  forall s a r, read_member read s = Some (a, r) -> exists w t, blanks w /\ s = w ++ t ++ r /\ member Q t a.
Proof.
  intros R s a r E. unfold read_member in E. destruct (skip_sound s) as (w & Bw & Es & _). destruct (skip_ws s) as [|b r0]; [discriminate|].
  destruct (Byte.to_N b =? 34) eqn:B; [|discriminate]. byte_eq B. destruct (read_string r0) as [[k r1]|] eqn:K; [|discriminate]. destruct (string_sound _ _ _ K) as (t & -> & T).
  destruct (skip_sound r1) as (w1 & Bw1 & Es1 & _). destruct (skip_ws r1) as [|c r2]; [discriminate|]. destruct (Byte.to_N c =? 58) eqn:C; [|discriminate]. byte_eq C.
  destruct (read r2) as [[v r3]|] eqn:V; [|discriminate]. destruct (R _ _ _ V) as (w2 & t2 & Bw2 & -> & Qv). injection E as <- <-.
  exists w, (x22 :: t ++ x22 :: w1 ++ x3a :: w2 ++ t2). split; [exact Bw|]. split; [rewrite Es at 1; rewrite Es1; cbn [app]; rewrite <- !app_assoc; cbn [app]; rewrite <- !app_assoc; cbn [app]; rewrite <- !app_assoc; reflexivity|].
  constructor; assumption.
Qed.
Lemma value_sound fuel : forall s v r, read_value fuel s = Some (v, r) -> exists w t, blanks w /\ s = w ++ t ++ r /\ json_text t v.
Proof.
  induction fuel as [|k IH]; intros s v r E; [discriminate|]. cbn [read_value] in E. destruct (skip_sound s) as (w & Bw & Es & _). destruct (skip_ws s) as [|b r0]; [discriminate|]. cbv zeta in E.
  exists w. cut (exists t, b :: r0 = t ++ r /\ json_text t v); [intros (t & Et & J); exists t; rewrite Es, Et; auto|]. clear s w Bw Es.
  destruct (Byte.to_N b =? 34) eqn:B1.
  { byte_eq B1. destruct (read_string r0) as [[o r']|] eqn:S0; [|discriminate]. apply some_pair in E. destruct E as [<- <-]. destruct (string_sound _ _ _ S0) as (t & -> & T).
    exists (x22 :: t ++ [x22]). split; [cbn [app]; rewrite <- app_assoc; reflexivity|]. destruct o; cbn [string_json]; constructor; exact T. }
  destruct (Byte.to_N b =? 91) eqn:B2.
  { byte_eq B2. destruct (read_sequence (read_value k) 93 r0) as [[l r']|] eqn:S0; [|discriminate]. injection E as <- <-. destruct (sequence_sound (read_value k) json_text x5d IH _ _ _ S0) as (body & -> & [[-> B]|B]);
    exists (x5b :: body ++ [x5d]); (split; [cbn [app]; rewrite <- app_assoc; reflexivity|constructor; exact B]). }
  destruct (Byte.to_N b =? 123) eqn:B3.
  { byte_eq B3. destruct (read_sequence (read_member (read_value k)) 125 r0) as [[m r']|] eqn:S0; [|discriminate]. apply some_pair in E. destruct E as [<- <-].
    destruct (sequence_sound (read_member (read_value k)) (member json_text) x7d (member_sound _ _ IH) _ _ _ S0) as (body & -> & D).
    exists (x7b :: body ++ [x7d]). split; [cbn [app]; rewrite <- app_assoc; reflexivity|]. destruct D as [[-> B]|B]; [apply empty_object, B|].
    unfold object_json. destruct (keyed m) as [m'|] eqn:K.
    - apply some_object. rewrite <- (keyed_sound _ _ K). exact B.
    - apply keyed_none in K. destruct K as [v K]. exact (other_object _ _ v B K). }
  destruct (Byte.to_N b =? 110) eqn:B4.
  { byte_eq B4. destruct (after (str "ull") r0) as [r'|] eqn:A; [|discriminate]. injection E as <- <-. apply after_sound in A. subst. exists (str "null"). split; [reflexivity|constructor]. }
  destruct (Byte.to_N b =? 116) eqn:B5.
  { byte_eq B5. destruct (after (str "rue") r0) as [r'|] eqn:A; [|discriminate]. injection E as <- <-. apply after_sound in A. subst. exists (str "true"). split; [reflexivity|constructor]. }
  destruct (Byte.to_N b =? 102) eqn:B6.
  { byte_eq B6. destruct (after (str "alse") r0) as [r'|] eqn:A; [|discriminate]. injection E as <- <-. apply after_sound in A. subst. exists (str "false"). split; [reflexivity|constructor]. }
  destruct (number_sound _ _ _ E) as (t & Et & N0). exists t. split; [exact Et|constructor; exact N0].
Qed.

Lemma whole_front s n r : whole s n -> exists b t, s ++ r = b :: t /\ is_digit b = true.
Proof. intros W. destruct (whole_read s n W) as (A & B & _). destruct s as [|b s]; [congruence|]. exists b, (s ++ r). split; [reflexivity|]. cbn [forallb] in B. apply andb_prop in B. exact (proj1 B). Qed.
Lemma number_front s v : number s v -> exists b t, s = b :: t /\ (b = x2d \/ is_digit b = true).
Proof.
  intros [s' n W _|s' n W _|s' n W _|s' n W _|sign s' n f e Hs W _].
  - destruct (whole_front s' n [] W) as (b & t & E & D). rewrite app_nil_r in E. eauto.
  - eauto.
  - destruct (whole_front s' n [] W) as (b & t & E & D). rewrite app_nil_r in E. eauto.
  - eauto.
  - destruct Hs as [<-|[<-|[]]]; [|cbn [app]; eauto]. destruct (whole_front s' n (f ++ e) W) as (b & t & E & D). cbn [app]. eauto.
Qed.
Lemma json_opens s v : json_text s v -> opens s.
Proof.
  intros J. inversion J; subst; try (repeat split; discriminate).
  match goal with N0 : number _ _ |- _ => destruct (number_front _ _ N0) as (b & t & -> & D) end. cbn [opens]. unfold is_ws, is_digit in *. destruct D as [->|D]; [repeat split; discriminate|lia].
Qed.
Lemma member_opens s a : member json_text s a -> opens s.
Proof. intros [k key w w' s' v _ _ _ _]. repeat split; discriminate. Qed.
Lemma value_read n : forall t v w r fuel, json_text t v -> (length t <= n)%nat -> (n <= fuel)%nat -> blanks w -> stop r -> read_value fuel (w ++ t ++ r) = Some (v, r).
Proof.
  induction n as [|n IH]; intros t v w r fuel J L F Bw S0.
  { pose proof (json_opens t v J) as O. destruct t; [destruct O|cbn [length] in L; lia]. }
  destruct fuel as [|fuel]; [lia|]. cbn [read_value]. rewrite (skip_blanks w _ Bw), (opens_skip t r (json_opens t v J)).
  assert (R : forall t a w r, json_text t a -> (length t <= n)%nat -> blanks w -> stop r -> read_value fuel (w ++ t ++ r) = Some (a, r)) by (intros; apply IH; try assumption; lia).
  assert (RM : forall t a w r, member json_text t a -> (length t <= n)%nat -> blanks w -> stop r -> read_member (read_value fuel) (w ++ t ++ r) = Some (a, r)).
  { intros t0 a w0 r0 M L0 B0 S1. destruct M as [k key w1 w2 s1 v1 T B1 B2 J1]. unfold read_member. rewrite (skip_blanks w0 _ B0). cbn [app skip_ws]. change (is_ws x22) with false. cbv iota.
    change (Byte.to_N x22 =? 34) with true. cbv iota. cbn [length] in L0. rewrite app_length in L0. cbn [length] in L0. rewrite app_length in L0. cbn [length] in L0. rewrite app_length in L0.
    rewrite <- !app_assoc. cbn [app]. rewrite <- !app_assoc. cbn [app]. rewrite <- !app_assoc. rewrite (string_read k key _ T). rewrite (skip_blanks w1 _ B1). cbn [skip_ws]. change (is_ws x3a) with false. cbv iota. change (Byte.to_N x3a =? 58) with true. cbv iota.
    rewrite (R s1 v1 w2 r0 J1 ltac:(lia) B2 S1). reflexivity. }
  clear IH. destruct J as [| | |s v N0|s t T|s T|w0 B|s l B|w0 B|s m B|s m v B I].
  - reflexivity.
  - reflexivity.
  - reflexivity.
  - destruct (number_front _ _ N0) as (b & t & -> & D). rewrite <- (number_read (b :: t) v r N0 S0). cbn [app]. cbv zeta.
    assert (X : forall k, In k [34; 91; 123; 110; 116; 102] -> Byte.to_N b =? k = false).
    { intros k Hk. apply N.eqb_neq. destruct D as [->|D]; [|unfold is_digit in D]; cbn [In] in Hk; [intros X; subst k; cbn in Hk; intuition discriminate|lia]. }
    rewrite !X by (cbn [In]; tauto). reflexivity.
  - cbn [app]. rewrite <- app_assoc. cbn [app]. cbv zeta. change (Byte.to_N x22 =? 34) with true. cbv iota. rewrite (string_read s _ r T). reflexivity.
  - cbn [app]. rewrite <- app_assoc. cbn [app]. cbv zeta. change (Byte.to_N x22 =? 34) with true. cbv iota. rewrite (string_read s _ r T). reflexivity.
  - cbn [app]. rewrite <- app_assoc. cbn [app]. cbv zeta. change (Byte.to_N x5b =? 34) with false. change (Byte.to_N x5b =? 91) with true. cbv iota.
    change 93 with (Byte.to_N x5d). rewrite (empty_read _ x5d w0 r ltac:(cbn; tauto) B). reflexivity.
  - cbn [app]. rewrite <- app_assoc. cbn [app]. cbv zeta. change (Byte.to_N x5b =? 34) with false. change (Byte.to_N x5b =? 91) with true. cbv iota.
    cbn [length] in L. rewrite app_length in L. cbn [length] in L. change 93 with (Byte.to_N x5d). rewrite (sequence_read _ json_text x5d n ltac:(cbn; tauto) json_opens R s l r B ltac:(lia)). reflexivity.
  - cbn [app]. rewrite <- app_assoc. cbn [app]. cbv zeta. change (Byte.to_N x7b =? 34) with false. change (Byte.to_N x7b =? 91) with false. change (Byte.to_N x7b =? 123) with true. cbv iota.
    change 125 with (Byte.to_N x7d). rewrite (empty_read _ x7d w0 r ltac:(cbn; tauto) B). reflexivity.
  - cbn [app]. rewrite <- app_assoc. cbn [app]. cbv zeta. change (Byte.to_N x7b =? 34) with false. change (Byte.to_N x7b =? 91) with false. change (Byte.to_N x7b =? 123) with true. cbv iota.
    cbn [length] in L. rewrite app_length in L. cbn [length] in L. change 125 with (Byte.to_N x7d). rewrite (sequence_read _ (member json_text) x7d n ltac:(cbn; tauto) member_opens RM s _ r B ltac:(lia)). unfold object_json. rewrite keyed_some. reflexivity.
  - cbn [app]. rewrite <- app_assoc. cbn [app]. cbv zeta. change (Byte.to_N x7b =? 34) with false. change (Byte.to_N x7b =? 91) with false. change (Byte.to_N x7b =? 123) with true. cbv iota.
    cbn [length] in L. rewrite app_length in L. cbn [length] in L. change 125 with (Byte.to_N x7d). rewrite (sequence_read _ (member json_text) x7d n ltac:(cbn; tauto) member_opens RM s _ r B ltac:(lia)). unfold object_json.
    rewrite (proj2 (keyed_none m) (ex_intro _ v I)). reflexivity.
Qed.
Lemma parse_exact s v : parse s = Some v <-> document s v.
Proof.
  unfold parse. split.
  - destruct (read_value _ s) as [[u r]|] eqn:E; [|discriminate]. destruct (value_sound _ _ _ _ E) as (w & t & Bw & -> & J). destruct (skip_sound r) as (w' & Bw' & Er & _). destruct (skip_ws r) as [|b r']; [|discriminate].
    intros X. injection X as <-. rewrite app_nil_r in Er. subst w'. constructor; assumption.
  - intros [w t w' u Bw J Bw']. rewrite (value_read (length t) t u w w' _ J (le_n _)); [rewrite (skip_all w' Bw'); reflexivity|rewrite !app_length; lia|exact Bw|exact (stop_all w' Bw')].
Qed.
Lemma document_unique s u v : document s u -> document s v -> u = v.
Proof. intros A B. apply parse_exact in A, B. congruence. Qed.
