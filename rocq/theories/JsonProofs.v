(** Reading back what was written. *)
From Verif Require Import Base BaseFacts KeyfileModel KeyfileSpec KeyfileProofs JsonModel JsonSpec.
Local Open Scope N_scope.

(** Integers in range, no floats. *)
Fixpoint wf_json (v : json) : Prop :=
  match v with
  | JOther => False
  | JInt z => (- 2 ^ 63 <= z < 2 ^ 64)%Z
  | JArr l => (fix all (l : list json) : Prop := match l with [] => True | x :: r => wf_json x /\ all r end) l
  | JObj m => (fix all (m : list (bytes * json)) : Prop := match m with [] => True | (_, x) :: r => wf_json x /\ all r end) m
  | _ => True
  end.
Fixpoint depth (v : json) : nat :=
  match v with
  | JArr l => S (list_max (map depth l))
  | JObj m => S (list_max (map (fun e => depth (snd e)) m))
  | _ => 1
  end.
Lemma utf8_arr l : utf8_json (JArr l) <-> Forall utf8_json l.
Proof.
  cbn [utf8_json]. induction l as [|x r IH]; [split; [constructor|trivial]|]. rewrite IH. split; [intros [A B]; constructor; assumption|intros A; inversion A; subst; split; assumption].
Qed.
Lemma utf8_obj m : utf8_json (JObj m) <-> Forall (fun e => utf8 (fst e) = true /\ utf8_json (snd e)) m.
Proof.
  cbn [utf8_json]. induction m as [|[k x] r IH]; [split; [constructor|trivial]|]. rewrite IH. split; [intros [A B]; constructor; assumption|intros A; inversion A; subst; split; assumption].
Qed.
Lemma wf_arr l : wf_json (JArr l) <-> Forall wf_json l.
Proof.
  cbn [wf_json]. induction l as [|x r IH]; [split; [constructor|trivial]|]. rewrite IH. split; [intros [A B]; constructor; assumption|intros A; inversion A; subst; split; assumption].
Qed.
Lemma wf_obj m : wf_json (JObj m) <-> Forall (fun e => wf_json (snd e)) m.
Proof.
  cbn [wf_json]. induction m as [|[k x] r IH]; [split; [constructor|trivial]|]. rewrite IH. split; [intros [A B]; constructor; assumption|intros A; inversion A; subst; split; assumption].
Qed.

(** *** Strings *)
Lemma read_escape b t : exists p, read_pieces (escape b ++ t) = then_piece p (read_pieces t) /\
  forall ps, join_pieces (p :: ps) = option_map (cons b) (join_pieces ps).
Proof.
  destruct (N.ltb (Byte.to_N b) 32 && negb (existsb (Byte.eqb b) [x08; x09; x0a; x0c; x0d]))%bool eqn:E.
  - exists (Code (Byte.to_N b)). destruct b; try discriminate E; (split; [reflexivity|intros ps; cbn [join_pieces]; destruct (join_pieces ps); reflexivity]).
  - exists (Plain b). destruct b; try discriminate E; (split; [reflexivity|reflexivity]).
Qed.
Lemma read_quoted s rest : exists ps, read_pieces (flat_map escape s ++ x22 :: rest) = Some (ps, rest) /\ join_pieces ps = Some s.
Proof.
  induction s as [|b s IH]; [exists []; split; reflexivity|]. destruct IH as [ps [A B]]. cbn [flat_map]. rewrite <- app_assoc.
  destruct (read_escape b (flat_map escape s ++ x22 :: rest)) as [p [C D]]. exists (p :: ps). rewrite C, A, D, B. split; reflexivity.
Qed.
Lemma read_quote s rest : utf8 s = true -> read_string (flat_map escape s ++ x22 :: rest) = Some (Some s, rest).
Proof.
  intros U. unfold read_string, text_of. destruct (read_quoted s rest) as [ps [-> ->]]. rewrite U. reflexivity.
Qed.

(** *** Numbers *)
(** What may follow a number. *)
Definition stop (r : bytes) : Prop :=
  match r with
  | [] => True
  | b :: _ => is_digit b = false /\ Byte.to_N b <> 46 /\ Byte.to_N b <> 101 /\ Byte.to_N b <> 69
  end.
Lemma span_stop ds r : Forall (fun b => 48 <= Byte.to_N b <= 57) ds -> stop r -> span_digits (ds ++ r) = (ds, r).
Proof.
  intros F S0. induction F as [|b ds Hb F IH]; cbn [app span_digits].
  - destruct r as [|b r]; [reflexivity|]. cbn [span_digits]. rewrite (proj1 S0). reflexivity.
  - rewrite IH. unfold is_digit. rewrite (proj2 (N.leb_le _ _) (proj1 Hb)), (proj2 (N.leb_le _ _) (proj2 Hb)). reflexivity.
Qed.
Lemma value_fold ds : digits_value ds = fold_left (fun v b => 10 * v + (Byte.to_N b - 48)) ds 0.
Proof.
  unfold digits_value. generalize 0. induction ds as [|b r IH]; intros a; [reflexivity|]. cbn [fold_left]. rewrite IH. f_equal. lia.
Qed.
Lemma no_fraction r : stop r -> read_fraction r = Some (false, r).
Proof. destruct r as [|b r]; [reflexivity|]. intros [_ [A _]]. unfold read_fraction. rewrite (proj2 (N.eqb_neq _ _) A). reflexivity. Qed.
Lemma no_exponent r : stop r -> read_exponent r = Some (false, r).
Proof. destruct r as [|b r]; [reflexivity|]. intros [_ [_ [A B]]]. unfold read_exponent. rewrite (proj2 (N.eqb_neq _ _) A), (proj2 (N.eqb_neq _ _) B). reflexivity. Qed.
(** The part of [read_number] after the sign. *)
Lemma read_digits_after (neg : bool) n r : n < two64 -> stop r ->
  read_unsigned neg (dec n ++ r) = Some (if neg then (if (n =? 0) || (2 ^ 63 <? n) then JOther else JInt (- Z.of_N n)) else JInt (Z.of_N n), r).
Proof.
  intros Hn S0. unfold read_unsigned. destruct (dec_is_decimal n Hn) as [A [B [C D]]]. rewrite (span_stop _ _ B S0).
  destruct (dec n) as [|d more] eqn:E; [congruence|].
  replace ((Byte.to_N d =? 48) && negb (match more with [] => true | _ => false end)) with false.
  - rewrite (no_fraction r S0), (no_exponent r S0). cbn [orb]. cbv zeta. rewrite value_fold, C.
    rewrite (proj2 (N.ltb_lt _ _) Hn). destruct neg; reflexivity.
  - destruct more as [|m more]; [rewrite andb_false_r; reflexivity|]. cbn [negb]. rewrite andb_true_r. symmetry. apply N.eqb_neq. intros X.
    apply D; [cbn [length]; lia|]. cbn [hd]. apply Byte.to_of_N_iff in X. cbn in X. congruence.
Qed.
Lemma read_dec_z z r : (- 2 ^ 63 <= z < 2 ^ 64)%Z -> stop r -> read_number (dec_z z ++ r) = Some (JInt z, r).
Proof.
  intros Hz S0. unfold dec_z. destruct (z <? 0)%Z eqn:E.
  - apply Z.ltb_lt in E. unfold read_number. cbn [app]. change (Byte.to_N x2d =? 45) with true. cbv iota beta.
    pose proof (read_digits_after true (Z.abs_N z) r ltac:(unfold two64; lia) S0) as X. rewrite X.
    replace (Z.abs_N z =? 0) with false by (symmetry; apply N.eqb_neq; lia).
    replace (2 ^ 63 <? Z.abs_N z) with false by (symmetry; apply N.ltb_ge; lia).
    cbn [orb]. do 3 f_equal. lia.
  - apply Z.ltb_ge in E. unfold read_number.
    assert (Hn : Z.abs_N z < two64) by (unfold two64; lia).
    pose proof (read_digits_after false (Z.abs_N z) r Hn S0) as X.
    destruct (dec_is_decimal _ Hn) as [A [B _]]. destruct (dec (Z.abs_N z)) as [|d more] eqn:D; [congruence|]. cbn [app].
    inversion B as [|? ? B1 ?]; subst. replace (Byte.to_N d =? 45) with false by (symmetry; apply N.eqb_neq; lia).
    cbn [app] in X. rewrite X. do 3 f_equal. lia.
Qed.

(** *** White space *)
Lemma skip_spaces n s : skip_ws (repeat x20 n ++ s) = skip_ws s.
Proof. induction n as [|n IH]; [reflexivity|]. cbn [repeat app skip_ws]. change (is_ws x20) with true. exact IH. Qed.
Lemma skip_line n s : skip_ws (new_line n ++ s) = skip_ws s.
Proof. unfold new_line. cbn [app skip_ws]. change (is_ws x0a) with true. apply skip_spaces. Qed.
Lemma stop_line n s : stop (new_line n ++ s).
Proof. unfold new_line. cbn [app stop]. repeat split; discriminate. Qed.
Lemma stop_comma s : stop (x2c :: s).
Proof. repeat split; discriminate. Qed.

(** The first byte of a value is not white space, and not a closing bracket. *)
Definition opens (s : bytes) : Prop := match s with [] => False | b :: _ => is_ws b = false /\ Byte.to_N b <> 93 /\ Byte.to_N b <> 125 end.
Lemma opens_skip s r : opens s -> skip_ws (s ++ r) = s ++ r.
Proof. destruct s as [|b s]; [intros []|]. intros [A _]. cbn [app skip_ws]. rewrite A. reflexivity. Qed.
Lemma opens_dec n s : n < two64 -> opens (dec n ++ s).
Proof.
  intros Hn. destruct (dec_is_decimal n Hn) as [A [B _]]. destruct (dec n) as [|d more]; [congruence|]. inversion B; subst. cbn [app opens].
  unfold is_ws. repeat split; lia.
Qed.
Lemma opens_pretty ind v : wf_json v -> opens (pretty ind v).
Proof.
  destruct v as [|[]|z| |s|[|x l]|[|e m]]; cbn [pretty]; intros W; try (repeat split; discriminate).
  cbn [wf_json] in W. unfold dec_z. destruct (z <? 0)%Z; [repeat split; discriminate|]. rewrite <- (app_nil_r (dec _)). apply opens_dec. unfold two64. lia.
Qed.

(** *** Sequences *)
Lemma read_lines {A} (read : bytes -> option (A * bytes)) (pr : A -> bytes) close ind close_ind (cb : byte) rest :
  Byte.to_N cb = close -> close <> 44 -> is_ws cb = false -> 
  forall l, l <> [] -> (forall a r, In a l -> stop r -> read (new_line ind ++ pr a ++ r) = Some (a, r)) ->
  forall fuel, (length l <= fuel)%nat ->
  read_items read close fuel (lines pr ind true l ++ new_line close_ind ++ cb :: rest) = Some (l, rest).
Proof.
  intros Hc Hn Hw. induction l as [|a l IH]; intros NE R fuel F; [congruence|]. destruct fuel as [|fuel]; [cbn in F; lia|].
  cbn [lines app read_items]. rewrite <- !app_assoc. destruct l as [|a2 l].
  - cbn [lines app]. rewrite (R a _ (or_introl eq_refl) (stop_line _ _)). rewrite skip_line. cbn [skip_ws]. rewrite Hw.
    rewrite (proj2 (N.eqb_neq _ _)) by congruence. rewrite (proj2 (N.eqb_eq _ _) Hc). reflexivity.
  - cbn [lines]. cbn [app]. rewrite (R a _ (or_introl eq_refl) (stop_comma _)). cbn [skip_ws]. change (is_ws x2c) with false. cbv iota.
    change (Byte.to_N x2c =? 44) with true. cbv iota. rewrite <- !app_assoc.
    specialize (IH ltac:(discriminate) (fun b r Hb => R b r (or_intror Hb)) fuel ltac:(cbn [length] in *; lia)).
    cbn [lines app] in IH. rewrite <- !app_assoc in IH. rewrite IH. reflexivity.
Qed.
Lemma lines_length {A} (pr : A -> bytes) ind first l : (length l <= length (lines pr ind first l))%nat.
Proof. revert first. induction l as [|a l IH]; intros first; [cbn; lia|]. cbn [lines]. rewrite !app_length. specialize (IH false). unfold new_line. cbn [length]. lia. Qed.
Lemma read_seq_lines {A} (read : bytes -> option (A * bytes)) (pr : A -> bytes) close ind close_ind (cb : byte) rest l :
  Byte.to_N cb = close -> close <> 44 -> close = 93 \/ close = 125 -> is_ws cb = false -> l <> [] ->
  (forall a, In a l -> opens (pr a)) ->
  (forall a r, In a l -> stop r -> read (new_line ind ++ pr a ++ r) = Some (a, r)) ->
  read_sequence read close (lines pr ind true l ++ new_line close_ind ++ cb :: rest) = Some (l, rest).
Proof.
  intros Hc Hn H2 Hw NE Op R. unfold read_sequence.
  assert (X : exists b t, skip_ws (lines pr ind true l ++ new_line close_ind ++ cb :: rest) = b :: t /\ (Byte.to_N b =? close) = false).
  { destruct l as [|a l]; [congruence|]. cbn [lines app]. rewrite <- !app_assoc, skip_line. pose proof (Op a (or_introl eq_refl)) as O0.
    rewrite (opens_skip (pr a) _ O0). destruct (pr a) as [|b t]; [destruct O0|]. exists b. eexists. split; [reflexivity|]. apply N.eqb_neq.
    destruct O0 as [_ [A1 A2]]. destruct H2; congruence. }
  destruct X as [b [t [-> ->]]]. apply (read_lines read pr close ind close_ind cb rest Hc Hn Hw l NE R).
  rewrite app_length. pose proof (lines_length pr ind true l). lia.
Qed.

Lemma list_max_in l x : In x l -> (x <= list_max l)%nat.
Proof. intros I. pose proof (proj1 (list_max_le l (list_max l)) (le_n _)) as F. rewrite Forall_forall in F. apply F, I. Qed.
Lemma digit_first d : 48 <= Byte.to_N d <= 57 -> forall n, n < 48 \/ 57 < n -> (Byte.to_N d =? n) = false.
Proof. intros A n B. apply N.eqb_neq. lia. Qed.

Lemma keyed_some m : keyed (map (fun e => (Some (fst e), snd e)) m) = Some m.
Proof. induction m as [|[k v] m IH]; [reflexivity|]. cbn [map fst snd keyed]. rewrite IH. reflexivity. Qed.
Lemma read_pretty fuel : forall v ind rest, wf_json v -> utf8_json v -> (depth v <= fuel)%nat -> stop rest ->
  read_value fuel (pretty ind v ++ rest) = Some (v, rest).
Proof.
  induction fuel as [|k IH]; intros v ind rest W U D S0; [destruct v; cbn [depth] in D; lia|].
  cbn [read_value]. rewrite (opens_skip _ _ (opens_pretty ind v W)).
  destruct v as [|[]|z| |s|l|m].
  - reflexivity.
  - reflexivity.
  - reflexivity.
  - cbn [pretty]. cbn [wf_json] in W. rewrite <- (read_dec_z z rest W S0). unfold dec_z. destruct (z <? 0)%Z eqn:E.
    + cbn [app]. reflexivity.
    + apply Z.ltb_ge in E. destruct (dec_is_decimal (Z.abs_N z) ltac:(unfold two64; lia)) as [A [B _]].
      destruct (dec (Z.abs_N z)) as [|d more] eqn:X; [congruence|]. inversion B as [|? ? B1 B2]; subst. cbn [app]. cbv zeta.
      rewrite !(digit_first d B1) by lia. reflexivity.
  - destruct W.
  - cbn [pretty]. unfold quote. cbn [app]. rewrite <- app_assoc. cbn [app]. cbv zeta. change (Byte.to_N x22 =? 34) with true. cbv iota.
    rewrite read_quote by exact U. reflexivity.
  - destruct l as [|x l]; [reflexivity|]. cbn [pretty]. cbn [app]. rewrite <- !app_assoc. cbv zeta.
    change (Byte.to_N x5b =? 34) with false. change (Byte.to_N x5b =? 91) with true. cbv iota. cbn [app].
    apply wf_arr in W. rewrite Forall_forall in W. apply utf8_arr in U. rewrite Forall_forall in U.
    assert (Dl : forall a, In a (x :: l) -> (depth a <= k)%nat).
    { intros a Ha. cbn [depth] in D. pose proof (list_max_in _ _ (in_map depth _ _ Ha)). lia. }
    rewrite (read_seq_lines (read_value k) (pretty (S ind)) 93 (S ind) ind x5d rest (x :: l)); [reflexivity|reflexivity|discriminate|left; reflexivity|reflexivity|discriminate| |].
    + intros a Ha. apply opens_pretty, W, Ha.
    + intros a r Ha Sr. pose proof (IH a (S ind) r (W a Ha) (U a Ha) (Dl a Ha) Sr) as Y. destruct k as [|k]; [cbn [read_value] in Y; discriminate|].
      rewrite <- Y. cbn [read_value]. rewrite skip_line. reflexivity.
  - destruct m as [|e m]; [reflexivity|]. cbn [pretty]. cbn [app]. rewrite <- !app_assoc. cbv zeta.
    change (Byte.to_N x7b =? 34) with false. change (Byte.to_N x7b =? 91) with false. change (Byte.to_N x7b =? 123) with true. cbv iota. cbn [app].
    apply wf_obj in W. rewrite Forall_forall in W. apply utf8_obj in U. rewrite Forall_forall in U.
    assert (Dl : forall a, In a (e :: m) -> (depth (snd a) <= k)%nat).
    { intros a Ha. cbn [depth] in D. pose proof (list_max_in _ _ (in_map (fun e => depth (snd e)) _ _ Ha)). cbv beta in *. lia. }
    replace (lines (fun e => quote (fst e) ++ x3a :: x20 :: pretty (S ind) (snd e)) (S ind) true (e :: m))
      with (lines (fun a => quote (match fst a with Some k => k | None => [] end) ++ x3a :: x20 :: pretty (S ind) (snd a)) (S ind) true (map (fun e => (Some (fst e), snd e)) (e :: m)))
      by (clear; generalize true; induction (e :: m) as [|x l IH]; intros f; [reflexivity|]; cbn [map lines fst snd]; rewrite IH; reflexivity).
    rewrite (read_seq_lines (read_member (read_value k)) (fun a => quote (match fst a with Some k => k | None => [] end) ++ x3a :: x20 :: pretty (S ind) (snd a)) 125 (S ind) ind x7d rest (map (fun e => (Some (fst e), snd e)) (e :: m)));
      [unfold object_json; rewrite keyed_some; reflexivity|reflexivity|discriminate|right; reflexivity|reflexivity|discriminate| |].
    + intros a Ha. repeat split; discriminate.
    + intros [n0 a] r Ha Sr. apply in_map_iff in Ha. destruct Ha as [[n a'] [Ea Ha]]. cbn [fst snd] in Ea. injection Ea as <- ->.
      pose proof (IH a (S ind) r (W _ Ha) (proj2 (U _ Ha)) (Dl _ Ha) Sr) as Y. unfold read_member. rewrite skip_line. cbn [fst snd].
      unfold quote. cbn [app skip_ws]. change (is_ws x22) with false. cbv iota. change (Byte.to_N x22 =? 34) with true. cbv iota. rewrite <- !app_assoc. cbn [app].
      rewrite read_quote by exact (proj1 (U _ Ha)). cbn [skip_ws]. change (is_ws x3a) with false. cbv iota. change (Byte.to_N x3a =? 58) with true. cbv iota.
      replace (read_value k (x20 :: pretty (S ind) a ++ r)) with (Some (a, r)); [reflexivity|]. rewrite <- Y. destruct k as [|k]; [reflexivity|].
      cbn [read_value skip_ws]. change (is_ws x20) with true. reflexivity.
Qed.

(** The depth is at most the length of the text. *)
Lemma lines_in {A} (pr : A -> bytes) ind l a : In a l -> forall first, (length (pr a) <= length (lines pr ind first l))%nat.
Proof.
  induction l as [|b l IH]; intros I first; [destruct I|]. cbn [lines]. rewrite !app_length. destruct I as [->|I]; [lia|]. specialize (IH I false). lia.
Qed.
Lemma depth_length n : forall v ind, (depth v <= n)%nat -> (depth v <= S (length (pretty ind v)))%nat.
Proof.
  induction n as [|n IH]; intros v ind D; [destruct v; cbn [depth] in *; lia|].
  destruct v as [|[]|z| |s|l|m]; cbn [depth]; try lia.
  - cbn [depth] in D. apply le_n_S. destruct l as [|x l]; [cbn; lia|]. apply list_max_le. rewrite Forall_forall. intros d I. apply in_map_iff in I. destruct I as [a [<- I]].
    pose proof (list_max_in _ _ (in_map depth _ _ I)). specialize (IH a (S ind) ltac:(lia)). cbn [pretty]. cbn [length]. rewrite !app_length. cbn [length].
    pose proof (lines_in (pretty (S ind)) (S ind) _ _ I true). lia.
  - cbn [depth] in D. apply le_n_S. destruct m as [|e m]; [cbn; lia|]. apply list_max_le. rewrite Forall_forall. intros d I. apply in_map_iff in I. destruct I as [a [<- I]].
    pose proof (list_max_in _ _ (in_map (fun e => depth (snd e)) _ _ I)). cbv beta in *. specialize (IH (snd a) (S ind) ltac:(lia)). cbn [pretty]. cbn [length]. rewrite !app_length. cbn [length].
    pose proof (lines_in (fun e => quote (fst e) ++ x3a :: x20 :: pretty (S ind) (snd e)) (S ind) _ _ I true) as X. cbv beta in X. rewrite app_length in X. cbn [length] in X. lia.
Qed.
Lemma parse_pretty v : wf_json v -> utf8_json v -> parse (pretty 0 v) = Some v.
Proof.
  intros W U. unfold parse. rewrite <- (app_nil_r (pretty 0 v)) at 2. rewrite (read_pretty _ v 0%nat [] W U (depth_length _ v 0%nat (le_n _)) I). reflexivity.
Qed.

(** *** UTF-8 *)
Lemma utf8_app_len n : forall a b, (length a <= n)%nat -> utf8 a = true -> utf8 (a ++ b) = utf8 b.
Proof.
  induction n as [|n IH]; intros a b L U; [destruct a; [reflexivity|cbn in L; lia]|].
  destruct a as [|x a]; [reflexivity|]. cbn [length] in L. cbn [app utf8] in *. cbv zeta in *.
  destruct (_ <? 128); [apply IH; [lia|exact U]|]. destruct (_ <? 194); [discriminate|].
  destruct (_ <? 224).
  { destruct a as [|y a]; [discriminate|]. cbn [app length] in *. apply andb_prop in U. destruct U as [U1 U2]. rewrite U1. apply IH; [lia|exact U2]. }
  destruct (_ <? 240).
  { destruct a as [|y [|z a]]; try discriminate. cbn [app length] in *. apply andb_prop in U. destruct U as [U1 U2]. rewrite U1. apply IH; [lia|exact U2]. }
  destruct (_ <? 245); [|discriminate].
  destruct a as [|y [|z [|w a]]]; try discriminate. cbn [app length] in *. apply andb_prop in U. destruct U as [U1 U2]. rewrite U1. apply IH; [lia|exact U2].
Qed.
Lemma utf8_app a b : utf8 a = true -> utf8 (a ++ b) = utf8 b.
Proof. apply utf8_app_len with (n := length a). lia. Qed.
Lemma utf8_ascii s : Forall (fun b => Byte.to_N b < 128) s -> utf8 s = true.
Proof. induction 1 as [|b s Hb F IH]; [reflexivity|]. cbn [utf8]. cbv zeta. rewrite (proj2 (N.ltb_lt _ _) Hb). exact IH. Qed.
