(** Proofs about mnemonics. *)
From Verif Require Import Base BaseFacts Digits Wordlist MnemonicModel MnemonicSpec.
Local Open Scope N_scope.

(** ** Regrouping of bits *)

(** [n] bits of value [v] were consumed; [out] holds whole [w]-bit groups, [buf] the
    remaining [bits]. *)
Definition regroup (w v n : N) (st : conv_state) : Prop :=
  let '(out, buf, bits) := st in
  v = le_val (2 ^ w) out + 2 ^ (w * N.of_nat (length out)) * buf /\
  buf < 2 ^ bits /\ n = w * N.of_nat (length out) + bits /\ digits_ok (2 ^ w) out.

Lemma regroup_push w v n out buf bits x k :
  regroup w v n (out, buf, bits) -> x < 2 ^ k -> bits + k <= 32 ->
  regroup w (v + 2 ^ n * x) (n + k) (out, N.lor buf (shl32 x bits), bits + k).
Proof.
  intros (Hv & Hb & Hn & Ho) Hx Hk.
  assert (Hsm : x * 2 ^ bits < 2 ^ (bits + k)).
  { rewrite N.pow_add_r, N.mul_comm. apply N.mul_lt_mono_pos_l; [|exact Hx].
    apply N.neq_0_lt_0, N.pow_nonzero. lia. }
  assert (Hs : shl32 x bits = N.shiftl x bits).
  { unfold shl32. rewrite N.shiftl_mul_pow2. apply N.mod_small. eapply N.lt_le_trans; [exact Hsm|].
    apply N.pow_le_mono_r; lia. }
  rewrite Hs, lor_shift by exact Hb. unfold regroup. repeat split; [| |lia|exact Ho].
  - rewrite Hv, Hn, N.pow_add_r. nia.
  - rewrite N.pow_add_r. rewrite N.pow_add_r in Hsm. nia.
Qed.

Lemma regroup_emit w v n out buf bits :
  regroup w v n (out, buf, bits) -> w <= bits ->
  regroup w v n (out ++ [buf mod 2 ^ w], N.shiftr buf w, bits - w).
Proof.
  intros (Hv & Hb & Hn & Ho) Hw. assert (Hp : 2 ^ w <> 0) by (apply N.pow_nonzero; lia).
  unfold regroup. rewrite app_length. cbn [length].
  repeat split.
  - rewrite le_val_app, <- N.pow_mul_r, N.shiftr_div_pow2. cbn [le_val].
    replace (w * N.of_nat (length out + 1)) with (w * N.of_nat (length out) + w) by lia.
    rewrite N.pow_add_r, Hv. pose proof (N.div_mod buf (2 ^ w) Hp) as Hdm. nia.
  - rewrite N.shiftr_div_pow2. apply N.div_lt_upper_bound; [exact Hp|].
    rewrite <- N.pow_add_r. replace (w + (bits - w)) with bits by lia. exact Hb.
  - rewrite Nat2N.inj_add. lia.
  - apply Forall_app. split; [exact Ho|]. constructor; [|constructor]. apply N.mod_upper_bound. exact Hp.
Qed.

Lemma land_2047 x : N.land x 2047 = x mod 2 ^ 11.
Proof. change 2047 with (2 ^ 11 - 1). apply land_ones_mod. Qed.

Lemma base11_fold xs : forall v n out buf bits,
  digits_ok 256 xs -> bits <= 10 -> regroup 11 v n (out, buf, bits) ->
  exists out' buf' bits', fold_left base11_round xs (out, buf, bits) = (out', buf', bits') /\
    bits' <= 10 /\ regroup 11 (v + 2 ^ n * le_val 256 xs) (n + 8 * N.of_nat (length xs)) (out', buf', bits').
Proof.
  induction xs as [|x xs IH]; intros v n out buf bits Hx Hb R.
  - do 3 eexists. split; [reflexivity|]. split; [exact Hb|]. cbn [le_val length].
    rewrite N.mul_0_r, !N.add_0_r. exact R.
  - inversion Hx as [|? ? Hx0 Hxs]; subst. cbn [fold_left base11_round].
    pose proof (regroup_push 11 v n out buf bits x 8 R Hx0 ltac:(lia)) as R1.
    assert (Hval : v + 2 ^ n * le_val 256 (x :: xs) = v + 2 ^ n * x + 2 ^ (n + 8) * le_val 256 xs).
    { cbn [le_val]. rewrite N.pow_add_r. change (2 ^ 8) with 256. lia. }
    assert (Hlen : n + 8 * N.of_nat (length (x :: xs)) = n + 8 + 8 * N.of_nat (length xs))
      by (cbn [length]; lia).
    destruct (N.leb_spec 11 (bits + 8)) as [Hge|Hlt].
    + rewrite land_2047. pose proof (regroup_emit 11 _ _ _ _ _ R1 Hge) as R2.
      destruct (IH _ _ _ _ (bits + 8 - 11) Hxs ltac:(lia) R2) as (o & b & k & E & Hk & R3).
      rewrite E. do 3 eexists. split; [reflexivity|]. split; [exact Hk|]. rewrite Hval, Hlen. exact R3.
    + destruct (IH _ _ _ _ (bits + 8) Hxs ltac:(lia) R1) as (o & b & k & E & Hk & R3).
      rewrite E. do 3 eexists. split; [reflexivity|]. split; [exact Hk|]. rewrite Hval, Hlen. exact R3.
Qed.

Definition byte_val (bs : bytes) : N := le_val 256 (map Byte.to_N bs).

Lemma bytes_digits bs : digits_ok 256 (map Byte.to_N bs).
Proof. apply Forall_forall. intros x Hx. apply in_map_iff in Hx as (b & <- & _). apply to_N_lt. Qed.

Lemma regroup_start w : regroup w 0 0 ([], 0, 0).
Proof. unfold regroup. cbn. repeat split; try lia. constructor. Qed.

Lemma to_base11_spec bs :
  le_val 2048 (to_base11 bs) = byte_val bs /\ digits_ok 2048 (to_base11 bs) /\
  N.of_nat (length (to_base11 bs)) = (8 * N.of_nat (length bs) + 10) / 11.
Proof.
  unfold to_base11.
  destruct (base11_fold (map Byte.to_N bs) 0 0 [] 0 0 (bytes_digits bs) ltac:(lia) (regroup_start 11))
    as (out & buf & bits & E & Hb & (Hv & Hlt & Hn & Ho)).
  rewrite E. change (2 ^ 11) with 2048 in *. rewrite N.pow_0_r, N.mul_1_l, map_length in *.
  destruct (N.eqb_spec bits 0) as [->|Hne].
  - rewrite N.pow_0_r in Hlt. assert (buf = 0) as -> by lia.
    repeat split; [unfold byte_val; lia|exact Ho|lia].
  - rewrite land_2047. change (2 ^ 11) with 2048.
    assert (Hbl : buf < 2048).
    { eapply N.lt_le_trans; [exact Hlt|]. change 2048 with (2 ^ 11). apply N.pow_le_mono_r; lia. }
    rewrite N.mod_small by exact Hbl. repeat split.
    + rewrite le_val_app. cbn [le_val]. change 2048 with (2 ^ 11) at 2. rewrite <- N.pow_mul_r.
      unfold byte_val. nia.
    + apply Forall_app. split; [exact Ho|]. constructor; [exact Hbl|constructor].
    + rewrite app_length. cbn [length]. lia.
Qed.

Lemma base8_fold xs : forall v n out buf bits,
  digits_ok 2048 xs -> bits <= 7 -> regroup 8 v n (out, buf, bits) ->
  exists out' buf' bits', fold_left base8_round xs (out, buf, bits) = (out', buf', bits') /\
    bits' <= 7 /\ regroup 8 (v + 2 ^ n * le_val 2048 xs) (n + 11 * N.of_nat (length xs)) (out', buf', bits').
Proof.
  induction xs as [|x xs IH]; intros v n out buf bits Hx Hb R.
  - do 3 eexists. split; [reflexivity|]. split; [exact Hb|]. cbn [le_val length].
    rewrite N.mul_0_r, !N.add_0_r. exact R.
  - inversion Hx as [|? ? Hx0 Hxs]; subst. cbn [fold_left]. cbn [base8_round].
    pose proof (regroup_push 8 v n out buf bits x 11 R Hx0 ltac:(lia)) as R1.
    assert (Hval : v + 2 ^ n * le_val 2048 (x :: xs) = v + 2 ^ n * x + 2 ^ (n + 11) * le_val 2048 xs).
    { cbn [le_val]. rewrite N.pow_add_r. change (2 ^ 11) with 2048. lia. }
    assert (Hlen : n + 11 * N.of_nat (length (x :: xs)) = n + 11 + 11 * N.of_nat (length xs))
      by (cbn [length]; lia).
    pose proof (regroup_emit 8 _ _ _ _ _ R1 ltac:(lia)) as R2. change (2 ^ 8) with 256 in R2.
    set (st1 := (out, N.lor buf (shl32 x bits), bits + 11)) in *.
    assert (E1 : base8_emit st1 = (out ++ [N.lor buf (shl32 x bits) mod 256],
                   N.shiftr (N.lor buf (shl32 x bits)) 8, bits + 11 - 8)).
    { unfold st1, base8_emit. destruct (N.leb_spec 8 (bits + 11)); [reflexivity|lia]. }
    rewrite E1. unfold base8_emit at 1. destruct (N.leb_spec 8 (bits + 11 - 8)) as [Hge|Hlt].
    + pose proof (regroup_emit 8 _ _ _ _ _ R2 Hge) as R3. change (2 ^ 8) with 256 in R3.
      destruct (IH _ _ _ _ (bits + 11 - 8 - 8) Hxs ltac:(lia) R3) as (o & b & k & E & Hk & R4).
      rewrite E. do 3 eexists. split; [reflexivity|]. split; [exact Hk|]. rewrite Hval, Hlen. exact R4.
    + destruct (IH _ _ _ _ (bits + 11 - 8) Hxs ltac:(lia) R2) as (o & b & k & E & Hk & R4).
      rewrite E. do 3 eexists. split; [reflexivity|]. split; [exact Hk|]. rewrite Hval, Hlen. exact R4.
Qed.

Lemma map_to_N_b8 ds : digits_ok 256 ds -> map Byte.to_N (map b8 ds) = ds.
Proof.
  induction 1 as [|d ds Hd Hds IH]; cbn; [reflexivity|].
  rewrite to_N_b8, N.mod_small by exact Hd. f_equal. exact IH.
Qed.

Lemma to_base8_spec ds : digits_ok 2048 ds ->
  byte_val (to_base8 ds) = le_val 2048 ds /\
  N.of_nat (length (to_base8 ds)) = (11 * N.of_nat (length ds) + 7) / 8.
Proof.
  intros Hd. unfold to_base8, byte_val.
  destruct (base8_fold ds 0 0 [] 0 0 Hd ltac:(lia) (regroup_start 8))
    as (out & buf & bits & E & Hb & (Hv & Hlt & Hn & Ho)).
  rewrite E. change (2 ^ 8) with 256 in *. rewrite N.pow_0_r, N.mul_1_l in *.
  destruct (N.eqb_spec bits 0) as [->|Hne].
  - rewrite N.pow_0_r in Hlt. assert (buf = 0) as -> by lia.
    rewrite map_to_N_b8 by exact Ho. rewrite map_length. split; lia.
  - assert (Hbl : buf < 256).
    { eapply N.lt_le_trans; [exact Hlt|]. change 256 with (2 ^ 8). apply N.pow_le_mono_r; lia. }
    rewrite N.mod_small by exact Hbl.
    rewrite map_to_N_b8 by (apply Forall_app; split; [exact Ho|]; constructor; [exact Hbl|constructor]).
    rewrite map_length, app_length. split; [|cbn [length]; lia].
    rewrite le_val_app. cbn [le_val]. change 256 with (2 ^ 8) at 2. rewrite <- N.pow_mul_r. nia.
Qed.

Lemma byte_val_inj a b : length a = length b -> byte_val a = byte_val b -> a = b.
Proof.
  intros Hl E. assert (Em : map Byte.to_N a = map Byte.to_N b).
  { apply (le_val_inj 256); [lia|apply bytes_digits|apply bytes_digits|rewrite !map_length; exact Hl|exact E]. }
  clear E. revert b Hl Em. induction a as [|x a IH]; intros [|y b] Hl Em; try discriminate; [reflexivity|].
  cbn in Em. injection Em as E1 E2. apply to_N_inj in E1. subst y. f_equal. apply IH; [cbn in Hl; lia|exact E2].
Qed.

(** Key and padding byte. *)
Lemma base8_of_base11 key : length key = 32%nat -> to_base8 (to_base11 key) = key ++ [x00].
Proof.
  intros Hk. destruct (to_base11_spec key) as (V & D & L). destruct (to_base8_spec _ D) as (V2 & L2).
  rewrite L, Hk in L2. change ((11 * ((8 * N.of_nat 32 + 10) / 11) + 7) / 8) with 33 in L2.
  apply byte_val_inj.
  - rewrite app_length, Hk. cbn [length]. lia.
  - rewrite V2, V. unfold byte_val. rewrite map_app, le_val_app. cbn [map le_val]. cbn [Byte.to_N]. lia.
Qed.

Lemma base11_of_base8 ds key : digits_ok 2048 ds -> length ds = 24%nat ->
  to_base8 ds = key ++ [x00] -> to_base11 key = ds.
Proof.
  intros D Hl E. destruct (to_base8_spec ds D) as (V & L). rewrite Hl in L.
  change ((11 * N.of_nat 24 + 7) / 8) with 33 in L. rewrite E, app_length in L. cbn [length] in L.
  destruct (to_base11_spec key) as (V2 & D2 & L2). assert (Hk : length key = 32%nat) by lia.
  rewrite Hk in L2. change ((8 * N.of_nat 32 + 10) / 11) with 24 in L2.
  apply (le_val_inj 2048); [lia|exact D2|exact D|lia|].
  rewrite V2, <- V, E. unfold byte_val. rewrite map_app, le_val_app. cbn [map le_val]. cbn [Byte.to_N]. lia.
Qed.

(** ** The word list *)

Lemma text_eqb_spec a b : text_eqb a b = true <-> a = b.
Proof.
  revert b; induction a as [|x a IH]; intros [|y b]; cbn; split; try discriminate; try reflexivity.
  - intros E. apply andb_true_iff in E as [E1 E2]. apply N.eqb_eq in E1. apply IH in E2. congruence.
  - intros E. injection E as -> ->. rewrite N.eqb_refl. apply IH. reflexivity.
Qed.

(** Strict lexicographic order. *)
Fixpoint text_ltb (a b : text) : bool :=
  match a, b with
  | [], [] => false
  | [], _ :: _ => true
  | _ :: _, [] => false
  | x :: a', y :: b' => (x <? y) || ((x =? y) && text_ltb a' b')
  end.
Fixpoint ascending (l : list text) : bool :=
  match l with
  | a :: ((b :: _) as r) => text_ltb a b && ascending r
  | _ => true
  end.

Lemma text_ltb_irrefl a : text_ltb a a = false.
Proof. induction a as [|x a IH]; cbn; [reflexivity|]. rewrite IH, N.ltb_irrefl, andb_false_r. reflexivity. Qed.

Lemma text_ltb_trans a b c : text_ltb a b = true -> text_ltb b c = true -> text_ltb a c = true.
Proof.
  revert b c; induction a as [|x a IH]; intros [|y b] [|z c] E1 E2; cbn in *; try discriminate; try reflexivity.
  apply orb_true_iff in E1, E2. apply orb_true_iff.
  rewrite !andb_true_iff, !N.ltb_lt, !N.eqb_eq in *.
  destruct E1 as [E1|[-> E1]], E2 as [E2|[-> E2]].
  - left; lia.
  - left; lia.
  - left; lia.
  - right. split; [reflexivity|]. eapply IH; eassumption.
Qed.

Lemma ascending_nodup l : ascending l = true -> NoDup l.
Proof.
  assert (Hg : forall l a, ascending (a :: l) = true -> forall x, In x l -> text_ltb a x = true).
  { clear l. induction l as [|b l IH]; intros a E x Hx; [destruct Hx|].
    cbn in E. apply andb_true_iff in E as [E1 E2]. destruct Hx as [<-|Hx]; [exact E1|].
    eapply text_ltb_trans; [exact E1|]. apply (IH b E2 x Hx). }
  induction l as [|a l IH]; intros E; constructor.
  - intros Hin. pose proof (Hg l a E a Hin) as E'. rewrite text_ltb_irrefl in E'. discriminate.
  - apply IH. destruct l; [reflexivity|]. cbn in E. apply andb_true_iff in E as [_ E]. exact E.
Qed.

Lemma words_nodup : NoDup WORDS.
Proof. apply ascending_nodup. vm_compute. reflexivity. Qed.
Lemma words_length : N.of_nat (length WORDS) = 2048.
Proof. vm_compute. reflexivity. Qed.
Lemma words_plain : Forall (fun w => w <> [] /\ Forall (fun c => is_space c = false) w) WORDS.
Proof.
  assert (E : forallb (fun w => match w with [] => false | _ => forallb (fun c => negb (is_space c)) w end) WORDS = true)
    by (vm_compute; reflexivity).
  apply Forall_forall. intros w Hw. rewrite forallb_forall in E. specialize (E w Hw).
  destruct w as [|c w]; [discriminate|]. split; [discriminate|].
  apply Forall_forall. intros x Hx. rewrite forallb_forall in E. apply negb_true_iff. apply E. exact Hx.
Qed.

Lemma position_spec w l : forall i,
  match position w l i with
  | Some p => exists k, p = i + N.of_nat k /\ nth_error l k = Some w
  | None => ~ In w l
  end.
Proof.
  induction l as [|x l IH]; intros i; cbn [position]; [intros []|].
  destruct (text_eqb x w) eqn:E.
  - apply text_eqb_spec in E. subst. exists O. split; [lia|reflexivity].
  - specialize (IH (i + 1)). destruct (position w l (i + 1)) as [p|].
    + destruct IH as (k & -> & Ek). exists (S k). split; [lia|exact Ek].
    + intros [->|Hin]; [|contradiction]. rewrite (proj2 (text_eqb_spec w w) eq_refl) in E. discriminate.
Qed.

(** ** Splitting a text *)

Lemma split_skip s t : Forall (fun c => is_space c = true) s ->
  split_whitespace (s ++ t) [] = split_whitespace t [].
Proof. induction 1 as [|c s Hc Hs IH]; cbn; [reflexivity|]. rewrite Hc. exact IH. Qed.

Lemma split_word w r cur : Forall (fun c => is_space c = false) w ->
  split_whitespace (w ++ r) cur = split_whitespace r (cur ++ w).
Proof.
  intros Hw. revert cur. induction Hw as [|c w Hc Hw IH]; intros cur; cbn; [rewrite app_nil_r; reflexivity|].
  rewrite Hc, IH, <- app_assoc. reflexivity.
Qed.

Lemma split_text t ws : text_words t ws -> split_whitespace t [] = ws.
Proof.
  induction 1 as [s Hs|s w r ws Hs Hne Hw Hr _ IH].
  - rewrite <- (app_nil_r s), split_skip by exact Hs. reflexivity.
  - rewrite split_skip, split_word by assumption. cbn [app].
    destruct Hr as [->|(c & r' & -> & Hc)].
    + cbn in *. subst ws. destruct w; [contradiction|reflexivity].
    + cbn [split_whitespace] in *. rewrite Hc in *. destruct w; [contradiction|]. rewrite IH. reflexivity.
Qed.

Lemma text_has_words t : exists ws, text_words t ws.
Proof.
  assert (Hg : forall n t, (length t <= n)%nat -> exists ws, text_words t ws).
  { clear t. induction n as [|n IH]; intros t Hl.
    - destruct t; [|cbn in Hl; lia]. exists []. constructor. constructor.
    - assert (Hs : exists s r, t = s ++ r /\ Forall (fun c => is_space c = true) s /\
                   (r = [] \/ exists c r', r = c :: r' /\ is_space c = false)).
      { clear. induction t as [|c t (s & r & -> & Hs & Hr)]; [exists [], []; auto|].
        destruct (is_space c) eqn:Ec.
        - exists (c :: s), r. split; [reflexivity|]. split; [constructor; assumption|exact Hr].
        - exists [], (c :: s ++ r). split; [reflexivity|]. split; [constructor|]. right. eauto. }
      destruct Hs as (s & r & -> & Hs & [->|(c & r' & -> & Hc)]).
      + exists []. rewrite app_nil_r. constructor. exact Hs.
      + assert (Hw : exists w q, c :: r' = w ++ q /\ w <> [] /\ Forall (fun c => is_space c = false) w /\
                   (q = [] \/ exists c r', q = c :: r' /\ is_space c = true)).
        { clear - Hc. revert c Hc. induction r' as [|d r IH]; intros c Hc.
          - exists [c], []. repeat split; auto; discriminate.
          - destruct (is_space d) eqn:Ed.
            + exists [c], (d :: r). repeat split; [discriminate|auto|]. right. eauto.
            + destruct (IH d Ed) as (w & q & E & Hne & Hw & Hq). exists (c :: w), q.
              rewrite E. repeat split; [discriminate|auto|exact Hq]. }
        destruct Hw as (w & q & E & Hne & Hw & Hq).
        destruct (IH q) as [ws Hws].
        { rewrite E, !app_length in Hl. destruct w; [contradiction|]. cbn in Hl. lia. }
        exists (w :: ws). rewrite E. constructor; assumption. }
  apply (Hg (length t)). lia.
Qed.

(** ** Conversions *)

(** Any 2048 different words. *)
Section Words.
Variable words : list text.
Hypothesis Hnodup : NoDup words.
Hypothesis Hcount : N.of_nat (length words) = 2048.

Lemma position_word p w : word_at words p = Some w -> position w words 0 = Some p.
Proof.
  unfold word_at. intros E. pose proof (position_spec w words 0) as P.
  destruct (position w words 0) as [q|].
  - destruct P as (k & -> & Ek). f_equal.
    assert (k = N.to_nat p).
    { apply (proj1 (NoDup_nth_error words) Hnodup); [|congruence].
      apply nth_error_Some. congruence. }
    lia.
  - exfalso. apply P. eapply nth_error_In. exact E.
Qed.

Lemma word_position p w : position w words 0 = Some p -> word_at words p = Some w /\ p < 2048.
Proof.
  intros E. pose proof (position_spec w words 0) as P. rewrite E in P. destruct P as (k & -> & Ek).
  unfold word_at. replace (N.to_nat (0 + N.of_nat k)) with k by lia. split; [exact Ek|].
  assert (k < length words)%nat by (apply nth_error_Some; congruence).
  pose proof Hcount. lia.
Qed.

Lemma words_at_ok is : digits_ok 2048 is ->
  exists ws, words_at words is = Some ws /\ length ws = length is /\ Forall (fun w => In w words) ws.
Proof.
  induction 1 as [|i is Hi His (ws & E & L & Hw)]; [exists []; auto|].
  cbn [words_at]. destruct (word_at words i) as [w|] eqn:Ei.
  - exists (w :: ws). rewrite E. cbn [length]. repeat split; [lia|]. constructor; [|exact Hw].
    eapply nth_error_In. exact Ei.
  - exfalso. unfold word_at in Ei. apply nth_error_None in Ei. pose proof Hcount. lia.
Qed.

Lemma lookup_words_at is : forall ws, words_at words is = Some ws -> lookup_words words ws = Ok is.
Proof.
  induction is as [|i is IH]; intros ws E; cbn [words_at] in E.
  - injection E as <-. reflexivity.
  - destruct (word_at words i) as [w|] eqn:Ei; [|discriminate].
    destruct (words_at words is) as [ws0|]; [|discriminate]. injection E as <-.
    cbn [lookup_words]. rewrite (position_word _ _ Ei). rewrite (IH _ eq_refl). reflexivity.
Qed.

Lemma lookup_spec ws :
  match lookup_words words ws with
  | Ok is => words_at words is = Some ws /\ digits_ok 2048 is
  | Err _ => True
  | Panic => False
  end.
Proof.
  induction ws as [|w ws IH]; cbn [lookup_words]; [split; [reflexivity|constructor]|].
  destruct (position w words 0) as [p|] eqn:Ep; [|exact I].
  destruct (lookup_words words ws) as [is|e|]; cbn [bind]; [|exact I|exact IH].
  destruct IH as [E D]. apply word_position in Ep as [Ew Hp]. cbn [words_at]. rewrite Ew, E.
  split; [reflexivity|]. constructor; assumption.
Qed.

Lemma words_at_app is js : forall ws vs, words_at words is = Some ws -> words_at words js = Some vs ->
  words_at words (is ++ js) = Some (ws ++ vs).
Proof.
  induction is as [|i is IH]; intros ws vs E1 E2; cbn [words_at app] in *.
  - injection E1 as <-. exact E2.
  - destruct (word_at words i) as [w|]; [|discriminate]. destruct (words_at words is) as [ws0|]; [|discriminate].
    injection E1 as <-. rewrite (IH _ _ eq_refl E2). reflexivity.
Qed.

Lemma words_at_length is : forall ws, words_at words is = Some ws -> length ws = length is.
Proof.
  induction is as [|i is IH]; intros ws E; cbn [words_at] in E; [injection E as <-; reflexivity|].
  destruct (word_at words i); [|discriminate]. destruct (words_at words is); [|discriminate].
  injection E as <-. cbn. f_equal. apply IH. reflexivity.
Qed.

Lemma checksum_spec H (Hlen : hash32 H) data : exists c, checksum H data = Some c /\ c < 2048.
Proof.
  unfold checksum. rewrite Hlen. cbn [Nat.ltb Nat.leb].
  destruct (to_base11_spec (firstn 2 (H data))) as (_ & D & L).
  rewrite firstn_length, Hlen in L. change ((8 * N.of_nat (Nat.min 2 32) + 10) / 11) with 2 in L.
  destruct (to_base11 (firstn 2 (H data))) as [|c r]; [discriminate|].
  exists c. split; [reflexivity|]. inversion D; assumption.
Qed.

(** What a mnemonic is: the 24 groups of the key and the checksum word. *)
Lemma key_to_mnemonic_spec H (Hlen : hash32 H) key : length key = 32%nat ->
  exists ws chk, checksum H key = Some chk /\ key_to_mnemonic_in words H key = Some ws /\
    words_at words (to_base11 key ++ [chk]) = Some ws /\ length (to_base11 key) = 24%nat /\
    length ws = 25%nat /\ Forall (fun w => In w words) ws.
Proof.
  intros Hk. destruct (to_base11_spec key) as (_ & D & L). rewrite Hk in L.
  change ((8 * N.of_nat 32 + 10) / 11) with 24 in L. assert (L24 : length (to_base11 key) = 24%nat) by lia.
  destruct (checksum_spec H Hlen key) as (chk & Ec & Hc).
  assert (D' : digits_ok 2048 (to_base11 key ++ [chk])).
  { apply Forall_app. split; [exact D|]. constructor; [exact Hc|constructor]. }
  destruct (words_at_ok _ D') as (ws & E & Lw & Hw).
  exists ws, chk. repeat split; try assumption.
  - unfold key_to_mnemonic_in. destruct (words_at_ok _ D) as (ws1 & E1 & _). rewrite E1, Ec.
    destruct (words_at_ok [chk]) as (ws2 & E2 & _); [constructor; [exact Hc|constructor]|].
    cbn [words_at] in E2. destruct (word_at words chk) as [w|] eqn:Ew; [|discriminate]. injection E2 as <-.
    f_equal. assert (E3 : words_at words (to_base11 key ++ [chk]) = Some (ws1 ++ [w])).
    { apply words_at_app; [exact E1|]. cbn [words_at]. rewrite Ew. reflexivity. }
    congruence.
  - rewrite Lw, app_length, L24. reflexivity.
Qed.

Lemma decode_produced H (Hlen : hash32 H) key ws : length key = 32%nat ->
  key_to_mnemonic_in words H key = Some ws -> mnemonic_to_key_in words H ws = Ok key.
Proof.
  intros Hk E. destruct (key_to_mnemonic_spec H Hlen key Hk) as (ws' & chk & Ec & E' & Ew & L24 & L25 & _).
  assert (ws' = ws) as -> by congruence. unfold mnemonic_to_key_in. rewrite L25. cbn [Nat.eqb negb MNEMONIC_LEN_WORDS].
  rewrite (lookup_words_at _ _ Ew). cbn [bind].
  rewrite app_length, L24. cbn [length Nat.add Nat.sub].
  rewrite firstn_app, L24, Nat.sub_diag, firstn_O, app_nil_r.
  rewrite <- L24, firstn_all. rewrite base8_of_base11 by exact Hk.
  rewrite app_length, Hk. cbn [length]. change (32 + 1 =? KEY_LEN_BYTES + 1)%nat with true. cbn [negb].
  rewrite nth_error_app2 by (rewrite Hk; unfold KEY_LEN_BYTES; lia). rewrite Hk.
  change (KEY_LEN_BYTES - 32)%nat with O. cbn [nth_error Byte.eqb]. rewrite byte_eqb_refl. cbn [negb].
  change (32 + 1 - 1)%nat with 32%nat. rewrite firstn_app, Hk, Nat.sub_diag, firstn_O, app_nil_r.
  rewrite <- Hk, firstn_all, Hk. change (32 =? KEY_LEN_BYTES)%nat with true. cbn [negb].
  rewrite Ec. rewrite nth_error_app2 by lia. rewrite Nat.sub_diag. cbn [nth_error].
  rewrite N.eqb_refl. reflexivity.
Qed.

Lemma decode_spec H (Hlen : hash32 H) ws :
  match mnemonic_to_key_in words H ws with
  | Ok key => length key = 32%nat /\ key_to_mnemonic_in words H key = Some ws
  | Err _ => True
  | Panic => False
  end.
Proof.
  unfold mnemonic_to_key_in. destruct (Nat.eqb_spec (length ws) MNEMONIC_LEN_WORDS) as [L|_]; cbn [negb]; [|exact I].
  pose proof (lookup_spec ws) as LS. destruct (lookup_words words ws) as [is|e|]; cbn [bind]; [|exact I|exact LS].
  destruct LS as [Ew D]. pose proof (words_at_length _ _ Ew) as Li.
  assert (Lis : length is = 25%nat) by (rewrite <- Li; exact L).
  destruct (exists_last (l := is)) as (ds & c & ->); [destruct is; discriminate|].
  rewrite app_length in Lis. cbn [length] in Lis. assert (Lds : length ds = 24%nat) by lia.
  rewrite app_length, Lds. cbn [length Nat.add Nat.sub].
  rewrite firstn_app, Lds, Nat.sub_diag, firstn_O, app_nil_r. rewrite (firstn_all2 ds) by lia.
  apply Forall_app in D as [D Dc]. destruct (to_base8_spec ds D) as (V & Lb). rewrite Lds in Lb.
  change ((11 * N.of_nat 24 + 7) / 8) with 33 in Lb. assert (Lb' : length (to_base8 ds) = 33%nat) by lia.
  rewrite Lb'. change (33 =? KEY_LEN_BYTES + 1)%nat with true. cbn [negb].
  destruct (exists_last (l := to_base8 ds)) as (key & b & Ek); [destruct (to_base8 ds); discriminate|].
  rewrite Ek in *. rewrite app_length in Lb'. cbn [length] in Lb'. assert (Hk : length key = 32%nat) by lia.
  rewrite nth_error_app2 by (rewrite Hk; unfold KEY_LEN_BYTES; lia). rewrite Hk.
  change (nth_error [b] (KEY_LEN_BYTES - 32)) with (Some b). cbv beta iota.
  destruct (byte_eqb_reflect b x00) as [->|_]; cbn [negb]; [|exact I].
  change (33 - 1)%nat with 32%nat. rewrite firstn_app, Hk, Nat.sub_diag, firstn_O, app_nil_r.
  rewrite <- Hk, firstn_all, Hk. change (32 =? KEY_LEN_BYTES)%nat with true. cbn [negb].
  destruct (checksum_spec H Hlen key) as (chk & Ec & _). rewrite Ec.
  rewrite nth_error_app2 by lia. rewrite Lds, Nat.sub_diag. cbn [nth_error].
  destruct (N.eqb_spec chk c) as [->|_]; [|exact I].
  split; [exact Hk|].
  destruct (key_to_mnemonic_spec H Hlen key Hk) as (ws' & chk' & Ec' & E' & Ew' & _).
  assert (chk' = c) as -> by congruence.
  rewrite (base11_of_base8 ds key D Lds Ek) in Ew'. congruence.
Qed.

(** ** Statements *)

Lemma round_trip_in H (Hlen : hash32 H) key : length key = 32%nat ->
  exists ws, key_to_mnemonic_in words H key = Some ws /\ length ws = 25%nat /\
    Forall (fun w => In w words) ws /\ mnemonic_to_key_in words H ws = Ok key.
Proof.
  intros Hk. destruct (key_to_mnemonic_spec H Hlen key Hk) as (ws & chk & _ & E & _ & _ & L & Hw).
  exists ws. repeat split; auto. apply decode_produced; assumption.
Qed.

Lemma exact_in H (Hlen : hash32 H) t ws : text_words t ws ->
  (forall key, phrase_to_key_in words H t = Ok key <-> length key = 32%nat /\ key_to_mnemonic_in words H key = Some ws) /\
  phrase_to_key_in words H t <> Panic.
Proof.
  intros Ht. unfold phrase_to_key_in. rewrite (split_text t ws Ht).
  pose proof (decode_spec H Hlen ws) as D. split.
  - intros key. split.
    + intros E. rewrite E in D. exact D.
    + intros [Hk E]. apply decode_produced; assumption.
  - intros E. rewrite E in D. exact D.
Qed.
End Words.

Lemma round_trip_mnemonic H (Hlen : hash32 H) key : length key = 32%nat ->
  exists ws, key_to_mnemonic H key = Some ws /\ length ws = 25%nat /\
    Forall (fun w => In w WORDS) ws /\ mnemonic_to_key H ws = Ok key.
Proof. exact (round_trip_in WORDS words_nodup words_length H Hlen key). Qed.
Lemma exact_mnemonic H (Hlen : hash32 H) t ws : text_words t ws ->
  (forall key, phrase_to_key H t = Ok key <-> length key = 32%nat /\ key_to_mnemonic H key = Some ws) /\
  phrase_to_key H t <> Panic.
Proof. exact (exact_in WORDS words_nodup words_length H Hlen t ws). Qed.
