(** Proofs for C150. *)
From Verif Require Import Base BaseFacts Digits AddressModel AddressSpec AddressProofs KeyfileModel KeyfileSpec KeyfileProofs TxModel OtsModel AccountModel PrintModel PrintSpec.
From Verif Require VrfModel TxCodecSpec TxProps.
Local Open Scope N_scope.

(** ** Base 64 *)
Lemma symbol64_char v : v < 64 -> Byte.to_N (symbol64 v) = digit64_char v.
Proof.
  intros Hv. assert (C : forallb (fun n => Byte.to_N (symbol64 (N.of_nat n)) =? digit64_char (N.of_nat n)) (seq 0 64) = true) by (vm_compute; reflexivity).
  rewrite forallb_forall in C. specialize (C (N.to_nat v)). rewrite in_seq, N2Nat.id in C. apply N.eqb_eq, C. lia.
Qed.
Lemma digit64_inj a b : a < 64 -> b < 64 -> digit64_char a = digit64_char b -> a = b.
Proof.
  unfold digit64_char. intros A B. destruct (N.ltb_spec a 26), (N.ltb_spec b 26), (N.ltb_spec a 52), (N.ltb_spec b 52), (N.ltb_spec a 62), (N.ltb_spec b 62), (N.eqb_spec a 62), (N.eqb_spec b 62); lia.
Qed.
Lemma digit64_range a : a < 64 -> digit64_char a <> 61 /\ digit64_char a <> 10.
Proof.
  unfold digit64_char. intros A. destruct (N.ltb_spec a 26), (N.ltb_spec a 52), (N.ltb_spec a 62), (N.eqb_spec a 62); lia.
Qed.
Lemma be_value_app b xs ys : be_value b (xs ++ ys) = be_value b xs * b ^ N.of_nat (length ys) + be_value b ys.
Proof. unfold be_value at 1. rewrite fold_left_app. rewrite AddressProofs.be_acc. reflexivity. Qed.

Lemma encode_is_base64 : forall k data, (length data <= k)%nat -> is_base64 data (base64_encode data).
Proof.
  induction k as [|k IH]; intros data L.
  - destruct data as [|? ?]; [|cbn in L; lia]. exists [], 0%nat, 0%nat. cbn. repeat (split; [try lia; try reflexivity; try constructor|]); try (exists 0%nat; reflexivity); try constructor.
  - destruct data as [|a [|b [|c r]]].
    + exact (IH [] ltac:(cbn; lia)).
    + pose proof (to_N_lt a) as Ha. exists [Byte.to_N a * 16 / 64; (Byte.to_N a * 16) mod 64], 4%nat, 2%nat.
      split; [lia|]. split; [reflexivity|]. split; [lia|]. split; [exists 1%nat; reflexivity|]. 
      assert (Byte.to_N a * 16 / 64 < 64) as L1 by (apply N.div_lt_upper_bound; lia). assert ((Byte.to_N a * 16) mod 64 < 64) as L2 by (apply N.mod_lt; lia).
      split; [repeat constructor; assumption|]. split.
      * cbn [base64_encode app map]. rewrite !symbol64_char by assumption. reflexivity.
      * cbn [map length]. rewrite !be_cons. cbn [length]. change (be_value 64 []) with 0. change (be_value 256 []) with 0. 
        change (64 ^ N.of_nat 1) with 64. change (64 ^ N.of_nat 0) with 1. change (256 ^ N.of_nat 0) with 1. change (2 ^ N.of_nat 4) with 16.
        pose proof (N.div_mod (Byte.to_N a * 16) 64 ltac:(lia)). lia.
    + pose proof (to_N_lt a) as Ha. pose proof (to_N_lt b) as Hb. set (n := (Byte.to_N a * 256 + Byte.to_N b) * 4). assert (n < 262144) as Hn by lia.
      exists [n / 4096; n / 64 mod 64; n mod 64], 2%nat, 1%nat.
      split; [lia|]. split; [reflexivity|]. split; [lia|]. split; [exists 1%nat; reflexivity|].
      assert (n / 4096 < 64) as L1 by (apply N.div_lt_upper_bound; lia). assert (n / 64 mod 64 < 64) as L2 by (apply N.mod_lt; lia). assert (n mod 64 < 64) as L3 by (apply N.mod_lt; lia).
      split; [repeat constructor; assumption|]. split.
      * cbn [base64_encode]. fold n. cbn [app map]. rewrite !symbol64_char by assumption. reflexivity.
      * cbn [map length]. rewrite !be_cons. cbn [length]. change (be_value 64 []) with 0. change (be_value 256 []) with 0.
        change (64 ^ N.of_nat 2) with 4096. change (64 ^ N.of_nat 1) with 64. change (64 ^ N.of_nat 0) with 1. change (256 ^ N.of_nat 1) with 256. change (256 ^ N.of_nat 0) with 1. change (2 ^ N.of_nat 2) with 4.
        pose proof (N.div_mod n 64 ltac:(lia)) as D1. pose proof (N.div_mod (n / 64) 64 ltac:(lia)) as D2. rewrite N.div_div in D2 by lia. change (64 * 64) with 4096 in D2. 
        assert (n = (Byte.to_N a * 256 + Byte.to_N b) * 4) by reflexivity. lia.
    + destruct (IH r ltac:(cbn [length] in L; lia)) as [ds [z [pad [Z1 [Z2 [Z3 [[q Z4] [Z5 [Z6 Z7]]]]]]]]].
      pose proof (to_N_lt a) as Ha. pose proof (to_N_lt b) as Hb. pose proof (to_N_lt c) as Hc. set (n := (Byte.to_N a * 256 + Byte.to_N b) * 256 + Byte.to_N c). assert (n < 16777216) as Hn by lia.
      exists ([n / 262144; n / 4096 mod 64; n / 64 mod 64; n mod 64] ++ ds), z, pad.
      split; [exact Z1|]. split; [rewrite app_length; cbn [length]; lia|]. split; [exact Z3|]. split; [exists (S q); rewrite app_length; cbn [length]; lia|].
      assert (n / 262144 < 64) as L0 by (apply N.div_lt_upper_bound; lia). assert (n / 4096 mod 64 < 64) as L1 by (apply N.mod_lt; lia). assert (n / 64 mod 64 < 64) as L2 by (apply N.mod_lt; lia). assert (n mod 64 < 64) as L3 by (apply N.mod_lt; lia).
      split; [apply Forall_app; split; [repeat constructor; assumption|exact Z5]|]. split.
      * cbn [base64_encode]. fold n. rewrite !map_app, Z6, <- app_assoc. cbn [map app]. rewrite !symbol64_char by assumption. reflexivity.
      * rewrite be_value_app. replace (a :: b :: c :: r) with ([a; b; c] ++ r) by reflexivity. rewrite map_app, be_value_app, Z7. rewrite N.mul_add_distr_r. f_equal.
        assert (be_value 64 [n / 262144; n / 4096 mod 64; n / 64 mod 64; n mod 64] = n) as ->.
        { rewrite !be_cons. cbn [length]. change (be_value 64 []) with 0.
          change (64 ^ N.of_nat 3) with 262144. change (64 ^ N.of_nat 2) with 4096. change (64 ^ N.of_nat 1) with 64. change (64 ^ N.of_nat 0) with 1.
          pose proof (N.div_mod n 64 ltac:(lia)) as D1. pose proof (N.div_mod (n / 64) 64 ltac:(lia)) as D2. rewrite N.div_div in D2 by lia. change (64 * 64) with 4096 in D2.
          pose proof (N.div_mod (n / 4096) 64 ltac:(lia)) as D3. rewrite N.div_div in D3 by lia. change (4096 * 64) with 262144 in D3. lia. }
        assert (be_value 256 (map Byte.to_N [a; b; c]) = n) as ->.
        { cbn [map]. rewrite !be_cons. cbn [length]. change (be_value 256 []) with 0. change (256 ^ N.of_nat 2) with 65536. change (256 ^ N.of_nat 1) with 256. change (256 ^ N.of_nat 0) with 1. unfold n. lia. }
        rewrite <- N.mul_assoc. f_equal. change 64 with (2 ^ 6). change 256 with (2 ^ 8). rewrite <- !N.pow_mul_r, <- N.pow_add_r. f_equal. rewrite map_length. lia.
Qed.
Lemma digits_cut : forall ds ds' i j, Forall (fun d => d < 64) ds -> Forall (fun d => d < 64) ds' ->
  map digit64_char ds ++ repeat 61 i = map digit64_char ds' ++ repeat 61 j -> ds = ds' /\ i = j.
Proof.
  induction ds as [|d ds IH]; intros ds' i j F F' E.
  - destruct ds' as [|d' ds']; cbn [map app] in E.
    + split; [reflexivity|]. apply (f_equal (@length N)) in E. rewrite !repeat_length in E. exact E.
    + exfalso. destruct i; [discriminate|]. cbn [repeat] in E. apply Forall_inv in F'. destruct (digit64_range d' F') as [K _]. apply K. congruence.
  - destruct ds' as [|d' ds']; cbn [map app] in E.
    + exfalso. destruct j; [discriminate|]. cbn [repeat] in E. apply Forall_inv in F. destruct (digit64_range d F) as [K _]. apply K. congruence.
    + assert (digit64_char d = digit64_char d') as E1 by congruence. assert (map digit64_char ds ++ repeat 61 i = map digit64_char ds' ++ repeat 61 j) as E2 by congruence.
      destruct (IH ds' i j (Forall_inv_tail F) (Forall_inv_tail F') E2) as [-> ->]. split; [|reflexivity]. f_equal. apply digit64_inj; [exact (Forall_inv F)|exact (Forall_inv F')|exact E1].
Qed.
Lemma bytes_digits data : Forall (fun d => d < 256) (map Byte.to_N data).
Proof. apply Forall_forall. intros n Hn. apply in_map_iff in Hn as (b & <- & _). apply to_N_lt. Qed.
Lemma is_base64_inj data data' text : is_base64 data text -> is_base64 data' text -> data = data'.
Proof.
  intros (ds & z & pad & Z1 & Z2 & Z3 & Z4 & Z5 & Z6 & Z7) (ds' & z' & pad' & Y1 & Y2 & Y3 & Y4 & Y5 & Y6 & Y7).
  assert (map digit64_char ds ++ repeat 61 pad = map digit64_char ds' ++ repeat 61 pad') as E by congruence.
  destruct (digits_cut ds ds' pad pad' Z5 Y5 E) as [<- _]. assert (z = z' /\ length data = length data') as [<- Hl] by lia.
  apply map_to_N_inj. apply (be_inj 256); [lia|apply bytes_digits|apply bytes_digits|rewrite !map_length; exact Hl|].
  assert (2 ^ N.of_nat z <> 0) as Nz by (apply N.pow_nonzero; lia). apply (N.mul_cancel_r _ _ _ Nz). congruence.
Qed.
Lemma is_base64_iff data text : is_base64 data text <-> text = base64_encode data.
Proof.
  split; [|intros ->; exact (encode_is_base64 _ data (le_n _))].
  intros (ds & z & pad & Z1 & Z2 & Z3 & [q Z4] & Z5 & Z6 & Z7). destruct (encode_is_base64 _ data (le_n _)) as (ds' & z' & pad' & Y1 & Y2 & Y3 & [q' Y4] & Y5 & Y6 & Y7).
  assert (z = z' /\ length ds = length ds') as [<- Hl] by lia. assert (pad = pad') as <- by lia.
  assert (ds = ds') as <- by (apply (be_inj 64); [lia|exact Z5|exact Y5|exact Hl|congruence]).
  apply map_to_N_inj. congruence.
Qed.

(** ** The report *)
Definition plain_text (s : bytes) : Prop := ~ In x0a s.
Lemma cut_line a : forall b r s, plain_text a -> plain_text b -> a ++ x0a :: r = b ++ x0a :: s -> a = b /\ r = s.
Proof.
  unfold plain_text. induction a as [|x a IH]; intros [|y b] r s A B E; cbn [app] in E.
  - split; congruence.
  - exfalso. apply B. left. congruence.
  - exfalso. apply A. left. congruence.
  - assert (a ++ x0a :: r = b ++ x0a :: s) as E2 by congruence. destruct (IH b r s) as [-> ->]; [intros K; apply A; right; exact K|intros K; apply B; right; exact K|exact E2|]. split; congruence.
Qed.
Lemma base64_plain data text : is_base64 data text -> plain_text text.
Proof.
  intros (ds & z & pad & _ & _ & _ & _ & Z5 & Z6 & _) K. apply (in_map Byte.to_N) in K. rewrite Z6 in K. apply in_app_or in K. destruct K as [K|K].
  - apply in_map_iff in K. destruct K as [d [E K]]. rewrite Forall_forall in Z5. destruct (digit64_range d (Z5 d K)) as [_ D]. exact (D E).
  - apply repeat_spec in K. discriminate.
Qed.
Lemma base32_plain data text : is_base32 data text -> plain_text text.
Proof.
  intros (ds & z & _ & _ & Z5 & Z6 & _) K. apply (in_map Byte.to_N) in K. rewrite Z6 in K. apply in_map_iff in K. destruct K as [d [E K]].
  rewrite Forall_forall in Z5. specialize (Z5 d K). change (Byte.to_N x0a) with 10 in E. unfold digit_char in E. destruct (N.ltb_spec d 26); lia.
Qed.
Lemma decimal_plain n text : is_decimal n text -> plain_text text.
Proof. intros (_ & D & _) K. rewrite Forall_forall in D. specialize (D x0a K). change (Byte.to_N x0a) with 10 in D. lia. Qed.
Lemma decimal_value n n' text : is_decimal n text -> is_decimal n' text -> n = n'.
Proof. intros (_ & _ & E & _) (_ & _ & E' & _). congruence. Qed.
Lemma base32_inj data data' text : length data = length data' -> is_base32 data text -> is_base32 data' text -> data = data'.
Proof.
  intros Hl B B'. apply is_base32_iff in B, B'. pose proof (base32_decode_encode data) as D. rewrite <- B, B', base32_decode_encode in D. congruence.
Qed.
Lemma strip (p a b : bytes) : p ++ a = p ++ b -> a = b.
Proof. apply app_inv_head. Qed.
Lemma report_inj H f f' text : hash32 H -> length (f_parent f) = 32%nat -> length (f_parent f') = 32%nat -> is_report H f text -> is_report H f' text -> f = f'.
Proof.
  intros HH La La' (a & s & v & fi & la & di & ba & of & A1 & A2 & A3 & A4 & A5 & A6 & A7 & A8 & ->) (a' & s' & v' & fi' & la' & di' & ba' & of' & B1 & B2 & B3 & B4 & B5 & B6 & B7 & B8 & E).
  assert (plain_text a /\ plain_text s /\ plain_text v /\ plain_text fi /\ plain_text la /\ plain_text di /\ plain_text ba /\ plain_text of) as (Pa & Ps & Pv & Pf & Pl & Pd & Pb & Po).
  { exact (conj (base32_plain _ _ A1) (conj (base64_plain _ _ A2) (conj (base64_plain _ _ A3) (conj (decimal_plain _ _ A4) (conj (decimal_plain _ _ A5) (conj (decimal_plain _ _ A6) (conj (decimal_plain _ _ A7) (decimal_plain _ _ A8)))))))). }
  assert (plain_text a' /\ plain_text s' /\ plain_text v' /\ plain_text fi' /\ plain_text la' /\ plain_text di' /\ plain_text ba' /\ plain_text of') as (Qa & Qs & Qv & Qf & Ql & Qd & Qb & Qo).
  { exact (conj (base32_plain _ _ B1) (conj (base64_plain _ _ B2) (conj (base64_plain _ _ B3) (conj (decimal_plain _ _ B4) (conj (decimal_plain _ _ B5) (conj (decimal_plain _ _ B6) (conj (decimal_plain _ _ B7) (decimal_plain _ _ B8)))))))). }
  apply strip in E. destruct (cut_line _ _ _ _ Pa Qa E) as [<- Ea]. clear E. rename Ea into E.
  apply strip in E. destruct (cut_line _ _ _ _ Ps Qs E) as [<- Es]. clear E. rename Es into E.
  apply strip in E. destruct (cut_line _ _ _ _ Pv Qv E) as [<- Ev]. clear E. rename Ev into E.
  apply strip in E. destruct (cut_line _ _ _ _ Pf Qf E) as [<- Efi]. clear E. rename Efi into E.
  apply strip in E. destruct (cut_line _ _ _ _ Pl Ql E) as [<- Ela]. clear E. rename Ela into E.
  apply strip in E. destruct (cut_line _ _ _ _ Pd Qd E) as [<- Edi]. clear E. rename Edi into E.
  apply strip in E. destruct (cut_line _ _ _ _ Pb Qb E) as [<- Eba]. clear E. rename Eba into E.
  apply strip in E. destruct (cut_line _ _ _ _ Po Qo E) as [<- Eof]. clear E. rename Eof into E.
  destruct f as [x1 x2 x3 x4 x5 x6 x7 x8], f' as [y1 y2 y3 y4 y5 y6 y7 y8]; cbn [f_parent f_selection f_voting f_first f_last f_dilution f_batch f_offset] in *.
  unfold is_address_text in A1, B1. cbn [f_parent] in A1, B1.
  assert (x1 ++ skipn 28 (H x1) = y1 ++ skipn 28 (H y1)) as P by (refine (base32_inj _ _ _ _ A1 B1); rewrite !app_length, !skipn_length, !HH, La, La'; reflexivity).
  apply app_inj_length in P; [|congruence]. destruct P as [-> _].
  rewrite (is_base64_inj _ _ _ A2 B2), (is_base64_inj _ _ _ A3 B3), (decimal_value _ _ _ A4 B4), (decimal_value _ _ _ A5 B5), (decimal_value _ _ _ A6 B6), (decimal_value _ _ _ A7 B7), (decimal_value _ _ _ A8 B8). reflexivity.
Qed.
Lemma print_is_report H p : hash32 H -> facts_fit (facts_of p) -> is_report H (facts_of p) (print_participation_key H p).
Proof.
  intros HH (L & U1 & U2 & U3 & U4 & U5). do 8 eexists.
  split; [apply address_text_iff; [exact HH|reflexivity]|]. split; [apply is_base64_iff; reflexivity|]. split; [apply is_base64_iff; reflexivity|].
  split; [apply dec_is_decimal; exact U1|]. split; [apply dec_is_decimal; exact U2|]. split; [apply dec_is_decimal; exact U3|]. split; [apply dec_is_decimal; exact U4|]. split; [apply dec_is_decimal; exact U5|].
  unfold print_participation_key, line. rewrite <- !app_assoc. reflexivity.
Qed.
Lemma show_tx_id_lemma H t t' : hash32 H -> TxCodecSpec.tx_fits t -> TxCodecSpec.tx_fits t' -> show_tx_id (tx_id H t) = show_tx_id (tx_id H t') ->
  t = t' \/ (tx_hash_rep t <> tx_hash_rep t' /\ H (tx_hash_rep t) = H (tx_hash_rep t')).
Proof.
  intros HH F F' E. apply (TxProps.c72_identifiers H t t' F F'). 
  pose proof (c35_round_trip (tx_id H t) (HH _)) as R. unfold show_tx_id in E. rewrite E, (c35_round_trip (tx_id H t') (HH _)) in R. congruence.
Qed.
Lemma show_amount_lemma a : u64 a -> is_amount a (show_amount a).
Proof. intros U. exists (dec a). split; [apply dec_is_decimal; exact U|reflexivity]. Qed.
