From Verif Require Import Base BaseFacts AddressModel.
Local Open Scope N_scope.

(** ** Bits and numbers *)
Lemma bits_length n v : length (bits n v) = n.
Proof. induction n as [|n IH]; cbn [bits length]; [reflexivity|]. rewrite IH. reflexivity. Qed.

Lemma num_acc l : forall a, fold_left (fun a (b : bool) => 2 * a + if b then 1 else 0) l a
  = a * 2 ^ N.of_nat (length l) + num l.
Proof.
  unfold num. induction l as [|b l IH]; intros a; cbn [fold_left length].
  - rewrite N.pow_0_r. lia.
  - rewrite IH, (IH (2 * 0 + _)), Nat2N.inj_succ, N.pow_succ_r'. lia.
Qed.
Lemma num_cons (b : bool) l : num (b :: l) = (if b then 1 else 0) * 2 ^ N.of_nat (length l) + num l.
Proof. unfold num at 1. cbn [fold_left]. rewrite num_acc. destruct b; reflexivity. Qed.
Lemma num_lt l : num l < 2 ^ N.of_nat (length l).
Proof.
  induction l as [|b l IH]; [cbn; lia|]. rewrite num_cons. cbn [length].
  rewrite Nat2N.inj_succ, N.pow_succ_r'. destruct b; lia.
Qed.

Lemma num_bits n v : v < 2 ^ N.of_nat n -> num (bits n v) = v.
Proof.
  intros Hv. cut (forall k, num (bits k v) = v mod 2 ^ N.of_nat k).
  { intros E. rewrite E. apply N.mod_small. exact Hv. }
  clear. induction k as [|k IH]; [cbn; symmetry; apply N.mod_1_r|].
  cbn [bits]. rewrite num_cons, bits_length, IH, Nat2N.inj_succ, N.pow_succ_r'.
  rewrite (N.mul_comm 2), N.mod_mul_r by (try apply N.pow_nonzero; lia).
  rewrite N.testbit_eqb. pose proof (N.mod_upper_bound (v / 2 ^ N.of_nat k) 2 ltac:(lia)).
  set (q := (v / 2 ^ N.of_nat k) mod 2) in *. set (r := v mod 2 ^ N.of_nat k). set (p := 2 ^ N.of_nat k). clearbody q r p.
  assert (q = 0 \/ q = 1) as [-> | ->] by lia; cbn [N.eqb Pos.eqb]; lia.
Qed.

Lemma bits_ext n a b : (forall i, i < N.of_nat n -> N.testbit a i = N.testbit b i) -> bits n a = bits n b.
Proof.
  induction n as [|n IH]; intros E; [reflexivity|]. cbn [bits]. f_equal; [apply E; lia|].
  apply IH. intros i Hi. apply E. lia.
Qed.
Lemma bits_num l : bits (length l) (num l) = l.
Proof.
  induction l as [|b l IH]; [reflexivity|]. cbn [length bits]. rewrite num_cons. pose proof (num_lt l) as Hlt. f_equal.
  - rewrite N.testbit_eqb, N.div_add_l by (apply N.pow_nonzero; lia).
    rewrite (N.div_small (num l)) by exact Hlt. destruct b; reflexivity.
  - transitivity (bits (length l) (num l)); [|exact IH]. apply bits_ext. intros i Hi.
    rewrite <- (N.mod_pow2_bits_low _ (N.of_nat (length l))) by exact Hi.
    rewrite N.add_comm, N.mod_add by (apply N.pow_nonzero; lia). rewrite N.mod_small by exact Hlt. reflexivity.
Qed.

(** ** Grouping *)
Section Group.
Context {A : Type}.
Implicit Types l g cur : list A.

Lemma group_from_take k : forall g cur l, (g <> [])%nat ->
  group_from k (length g) cur (g ++ l) = (rev cur ++ g) :: group k l.
Proof.
  induction g as [|x g IH]; intros cur l Hne; [congruence|]. cbn [app group_from length].
  destruct g as [|y g].
  - cbn. reflexivity.
  - cbn [length]. change (S (length g)) with (length (y :: g)).
    rewrite IH by discriminate. cbn [rev]. rewrite <- app_assoc. reflexivity.
Qed.
Lemma group_cons k g l : (0 < k)%nat -> length g = k -> group k (g ++ l) = g :: group k l.
Proof.
  intros Hk Hl. unfold group at 1. rewrite <- Hl at 2. rewrite group_from_take; [reflexivity|].
  destruct g; [cbn in Hl; lia|discriminate].
Qed.
Lemma group_concat k gs : (0 < k)%nat -> Forall (fun g => length g = k) gs -> group k (concat gs) = gs.
Proof.
  intros Hk. induction 1 as [|g gs Hg Hgs IH]; [reflexivity|]. cbn [concat]. rewrite group_cons, IH by assumption. reflexivity.
Qed.
Lemma grouping k (Hk : (0 < k)%nat) n : forall l, length l = (k * n)%nat ->
  concat (group k l) = l /\ Forall (fun g => length g = k) (group k l) /\ length (group k l) = n.
Proof.
  induction n as [|n IH]; intros l Hl.
  - destruct l; [|cbn in Hl; lia]. repeat split. constructor.
  - rewrite <- (firstn_skipn k l). rewrite group_cons by (rewrite ?firstn_length; nia).
    destruct (IH (skipn k l)) as (E1 & E2 & E3); [rewrite skipn_length; nia|].
    cbn [concat length]. rewrite E1, E3. repeat split. constructor; [rewrite firstn_length; nia|exact E2].
Qed.
End Group.

(** ** Symbols *)
Lemma symbol_value_symbol v : v < 32 -> symbol_value (symbol v) = Some v.
Proof.
  intros Hv.
  assert (C : forallb (fun n => match symbol_value (symbol (N.of_nat n)) with Some w => N.eqb w (N.of_nat n) | None => false end) (seq 0 32) = true)
    by (vm_compute; reflexivity).
  rewrite forallb_forall in C. specialize (C (N.to_nat v)). rewrite in_seq, N2Nat.id in C.
  assert (Hr : (0 <= N.to_nat v < 0 + 32)%nat) by lia. specialize (C Hr).
  destruct (symbol_value (symbol v)) as [w|]; [|discriminate]. apply N.eqb_eq in C. congruence.
Qed.
Lemma symbol_symbol_value b v : symbol_value b = Some v -> symbol v = b /\ v < 32.
Proof.
  assert (C : match symbol_value b with Some w => Byte.eqb (symbol w) b && (w <? 32) | None => true end = true)
    by (destruct b; vm_compute; reflexivity).
  intros E. rewrite E in C. apply andb_true_iff in C as [C1 C2]. apply byte_eqb_spec in C1. split; [exact C1|lia].
Qed.

Lemma values_symbols vs : Forall (fun v => v < 32) vs -> values (map symbol vs) = Some vs.
Proof.
  induction 1 as [|v vs Hv Hvs IH]; [reflexivity|]. cbn [map values]. rewrite symbol_value_symbol, IH by exact Hv. reflexivity.
Qed.
Lemma symbols_values t : forall vs, values t = Some vs -> t = map symbol vs /\ Forall (fun v => v < 32) vs.
Proof.
  induction t as [|b t IH]; cbn [values]; intros vs E; [injection E as <-; split; constructor|].
  destruct (symbol_value b) as [v|] eqn:Ev; [|discriminate].
  destruct (values t) as [vs'|]; [|discriminate]. injection E as <-.
  destruct (IH vs' eq_refl) as [-> Hf]. destruct (symbol_symbol_value b v Ev) as [<- Hv]. split; [reflexivity|constructor; assumption].
Qed.

(** ** Base 32 *)
Definition bits_of (data : bytes) : list bool := concat (map (fun b => bits 8 (Byte.to_N b)) data).
Lemma concat_length_const {A} k (gs : list (list A)) : Forall (fun g => length g = k) gs -> length (concat gs) = (k * length gs)%nat.
Proof. induction 1 as [|g gs Hg _ IH]; cbn [concat length]; [lia|]. rewrite app_length, IH. lia. Qed.
Lemma bytes_groups data : Forall (fun g : list bool => length g = 8%nat) (map (fun b => bits 8 (Byte.to_N b)) data).
Proof. apply Forall_forall. intros g Hg. apply in_map_iff in Hg as (b & <- & _). apply bits_length. Qed.
Lemma bits_of_length data : length (bits_of data) = (8 * length data)%nat.
Proof. unfold bits_of. rewrite (concat_length_const 8), map_length by apply bytes_groups. reflexivity. Qed.

Lemma bytes_bits data : map (fun g => b8 (num g)) (group 8 (bits_of data)) = data.
Proof.
  unfold bits_of. rewrite group_concat by (try lia; apply bytes_groups).
  rewrite map_map. erewrite map_ext; [apply map_id|]. intros b. cbv beta.
  rewrite num_bits by (change (2 ^ N.of_nat 8) with 256; apply to_N_lt). apply b8_to_N.
Qed.
Lemma bits_bytes n l : length l = (8 * n)%nat -> bits_of (map (fun g => b8 (num g)) (group 8 l)) = l.
Proof.
  intros Hl. destruct (grouping 8 ltac:(lia) n l Hl) as (E1 & E2 & _). unfold bits_of. rewrite map_map.
  transitivity (concat (group 8 l)); [|exact E1]. f_equal. transitivity (map (fun g : list bool => g) (group 8 l)); [|apply map_id].
  apply map_ext_in. intros g Hg. rewrite Forall_forall in E2. specialize (E2 g Hg).
  pose proof (num_lt g) as Hn. rewrite E2 in Hn. rewrite to_N_b8, N.mod_small by exact Hn. rewrite <- E2. apply bits_num.
Qed.

Lemma encode_bits data : exists z vs, (z < 5)%nat /\ base32_encode data = map symbol vs /\ Forall (fun v => v < 32) vs /\
  concat (map (bits 5) vs) = bits_of data ++ repeat false z.
Proof.
  set (z := ((5 - (8 * length data) mod 5) mod 5)%nat).
  pose proof (Nat.mod_upper_bound (8 * length data) 5 ltac:(lia)).
  assert (Hz : (z < 5)%nat) by (unfold z; apply Nat.mod_upper_bound; lia).
  assert (Hl : exists n, length (bits_of data ++ repeat false z) = (5 * n)%nat).
  { exists ((8 * length data + z) / 5)%nat. rewrite app_length, repeat_length, bits_of_length. unfold z.
    pose proof (Nat.div_mod (8 * length data) 5 ltac:(lia)).
    destruct (Nat.eq_dec ((8 * length data) mod 5) 0) as [E|E].
    - rewrite E. cbn [Nat.sub]. rewrite Nat.mod_same by lia. lia.
    - rewrite (Nat.mod_small (5 - _) 5) by lia. lia. }
  destruct Hl as [n Hn]. destruct (grouping 5 ltac:(lia) n _ Hn) as (E1 & E2 & _).
  exists z, (map num (group 5 (bits_of data ++ repeat false z))). split; [exact Hz|].
  split; [|split].
  - unfold base32_encode. rewrite map_map. fold (bits_of data). rewrite bits_of_length. reflexivity.
  - apply Forall_forall. intros v Hv. apply in_map_iff in Hv as (g & <- & Hg). rewrite Forall_forall in E2.
    pose proof (num_lt g) as Hlt. rewrite (E2 g Hg) in Hlt. exact Hlt.
  - rewrite <- E1 at 2. f_equal. rewrite map_map. transitivity (map (fun g : list bool => g) (group 5 (bits_of data ++ repeat false z))); [|apply map_id].
    apply map_ext_in. intros g Hg. rewrite Forall_forall in E2. rewrite <- (E2 g Hg) at 1. apply bits_num.
Qed.

Lemma zeros_repeat l : forallb negb l = true -> l = repeat false (length l).
Proof. induction l as [|[|] l IH]; cbn; intros E; try discriminate; [reflexivity|]. rewrite <- IH; auto. Qed.
Lemma repeat_zeros n : forallb negb (repeat false n) = true.
Proof. induction n; cbn; auto. Qed.

Lemma base32_decode_encode data : base32_decode (base32_encode data) = Some data.
Proof.
  destruct (encode_bits data) as (z & vs & Hz & -> & Hv & E). unfold base32_decode.
  rewrite values_symbols by exact Hv. cbv zeta. rewrite E, app_length, repeat_length, bits_of_length.
  replace ((8 * length data + z) mod 8)%nat with z by (rewrite Nat.add_comm, Nat.mul_comm, Nat.mod_add, Nat.mod_small by lia; reflexivity).
  replace (8 * length data + z - z)%nat with (length (bits_of data)) by (rewrite bits_of_length; lia).
  rewrite firstn_app, skipn_app, firstn_all, skipn_all, Nat.sub_diag. cbn [firstn skipn app].
  rewrite repeat_zeros, app_nil_r, bytes_bits. rewrite (proj2 (Nat.ltb_lt z 5)) by exact Hz. reflexivity.
Qed.

Lemma map_bits5_inj vs ws : Forall (fun v => v < 32) vs -> Forall (fun v => v < 32) ws ->
  concat (map (bits 5) vs) = concat (map (bits 5) ws) -> vs = ws.
Proof.
  intros Hv Hw E. apply (f_equal (fun l => map num (group 5 l))) in E.
  assert (G : forall us, Forall (fun v => v < 32) us -> map num (group 5 (concat (map (bits 5) us))) = us).
  { intros us Hu. rewrite group_concat; [|lia|].
    - rewrite map_map. transitivity (map (fun v : N => v) us); [|apply map_id]. apply map_ext_in. intros v Hi.
      rewrite Forall_forall in Hu. apply num_bits. exact (Hu v Hi).
    - apply Forall_forall. intros g Hg. apply in_map_iff in Hg as (v & <- & _). apply bits_length. }
  rewrite !G in E by assumption. exact E.
Qed.

Lemma base32_encode_decode text data : base32_decode text = Some data -> base32_encode data = text.
Proof.
  unfold base32_decode. destruct (values text) as [vs|] eqn:Ev; [|discriminate].
  destruct (symbols_values text vs Ev) as [-> Hv]. cbv zeta.
  set (all := concat (map (bits 5) vs)). set (e := (length all mod 8)%nat).
  destruct (Nat.ltb_spec e 5) as [He|]; [|discriminate]. cbn [andb].
  destruct (forallb negb (skipn (length all - e) all)) eqn:Ez; [|discriminate].
  intros E. assert (Ed : data = map (fun g => b8 (num g)) (group 8 (firstn (length all - e) all))) by congruence. clear E.
  assert (Hle : (e <= length all)%nat) by (unfold e; apply Nat.mod_le; lia).
  apply zeros_repeat in Ez. rewrite skipn_length in Ez. replace (length all - (length all - e))%nat with e in Ez by lia.
  assert (Hlen : length (firstn (length all - e) all) = (8 * (length all / 8))%nat).
  { rewrite firstn_length. pose proof (Nat.div_mod (length all) 8 ltac:(lia)). unfold e. lia. }
  pose proof (bits_bytes _ _ Hlen) as Hb. rewrite <- Ed in Hb.
  destruct (encode_bits data) as (z & ws & Hz & -> & Hw & E). f_equal. apply map_bits5_inj; [assumption..|].
  fold all. rewrite E, Hb. transitivity (firstn (length all - e) all ++ skipn (length all - e) all); [|apply firstn_skipn].
  f_equal. rewrite Ez. f_equal.
  assert (Hl5 : length (concat (map (bits 5) ws)) = (5 * length ws)%nat).
  { rewrite (concat_length_const 5), map_length; [reflexivity|]. apply Forall_forall. intros g Hg.
    apply in_map_iff in Hg as (v & <- & _). apply bits_length. }
  rewrite E, app_length, repeat_length, Hb, Hlen in Hl5.
  assert (Ha5 : length all = (5 * length vs)%nat).
  { unfold all. rewrite (concat_length_const 5), map_length; [reflexivity|]. apply Forall_forall. intros g Hg.
    apply in_map_iff in Hg as (v & <- & _). apply bits_length. }
  assert (length all = 8 * (length all / 8) + e)%nat by (unfold e; apply Nat.div_mod; lia).
  set (q := (length all / 8)%nat) in *. set (m := length all) in *. clearbody q e m. clear - Hl5 Ha5 Hz He H.
  lia.
Qed.

Lemma base32_length data : exists z, (z < 5)%nat /\ (5 * length (base32_encode data) = 8 * length data + z)%nat.
Proof.
  destruct (encode_bits data) as (z & vs & Hz & -> & Hv & E). exists z. split; [exact Hz|]. rewrite map_length.
  apply (f_equal (@length bool)) in E. rewrite app_length, repeat_length, bits_of_length in E. rewrite <- E.
  rewrite (concat_length_const 5), map_length; [reflexivity|]. apply Forall_forall. intros g Hg.
  apply in_map_iff in Hg as (v & <- & _). apply bits_length.
Qed.
Lemma base32_alphabet data b : In b (base32_encode data) -> In b ALPHABET.
Proof.
  destruct (encode_bits data) as (z & vs & Hz & -> & Hv & E). intros Hb. apply in_map_iff in Hb as (v & <- & Hi).
  rewrite Forall_forall in Hv. specialize (Hv v Hi). unfold symbol. apply nth_In. change (length ALPHABET) with 32%nat. lia.
Qed.

(** ** Addresses *)
Section WithHash.
Variable H : bytes -> bytes.
Hypothesis H32 : hash32 H.

Lemma checksum_length addr : length (checksum H addr) = 4%nat.
Proof. unfold checksum. rewrite skipn_length, H32. reflexivity. Qed.

Lemma round_trip_lemma addr : length addr = 32%nat -> address_from_str H (address_to_string H addr) = Ok addr.
Proof.
  intros Hl. unfold address_from_str. unfold address_to_string at 1. rewrite base32_decode_encode, app_length, checksum_length, Hl.
  cbn [Nat.add Nat.ltb Nat.leb]. replace (firstn 32 (addr ++ checksum H addr)) with addr
    by (rewrite <- Hl, firstn_app, firstn_all, Nat.sub_diag; cbn [firstn]; rewrite app_nil_r; reflexivity).
  cbv zeta. replace (skipn (36 - 4) (addr ++ checksum H addr)) with (checksum H addr)
    by (change (36 - 4)%nat with 32%nat; rewrite <- Hl, skipn_app, skipn_all, Nat.sub_diag; reflexivity).
  rewrite !bytes_eqb_refl. reflexivity.
Qed.
Lemma text_length_lemma addr : length addr = 32%nat -> length (address_to_string H addr) = 58%nat.
Proof.
  intros Hl. unfold address_to_string. destruct (base32_length (addr ++ checksum H addr)) as (z & Hz & E).
  rewrite app_length, checksum_length, Hl in E. lia.
Qed.

Lemma unique_lemma text addr : address_from_str H text = Ok addr <-> length addr = 32%nat /\ text = address_to_string H addr.
Proof.
  split.
  - unfold address_from_str. destruct (base32_decode text) as [d|] eqn:Ed; [|discriminate].
    destruct (Nat.ltb_spec (length d) 32) as [|Hd]; [discriminate|]. cbv zeta.
    destruct (negb (bytes_eqb (skipn (length d - 4) d) _)); [discriminate|].
    destruct (bytes_eqb_reflect (address_to_string H (firstn 32 d)) text) as [E|]; cbn [negb]; [|discriminate].
    intros E'. assert (addr = firstn 32 d) as -> by congruence. split; [rewrite firstn_length; lia|congruence].
  - intros [Hl ->]. apply round_trip_lemma. exact Hl.
Qed.

(** The texts on which parsing panics. *)
Lemma panic_lemma text : address_from_str H text = Panic <->
  exists addr extra, length addr = 32%nat /\ text = base32_encode (addr ++ extra) /\
    skipn (length extra + 28) (addr ++ extra) = checksum H addr /\ extra <> checksum H addr.
Proof.
  split.
  - unfold address_from_str. destruct (base32_decode text) as [d|] eqn:Ed; [|discriminate].
    destruct (Nat.ltb_spec (length d) 32) as [|Hd]; [discriminate|]. cbv zeta.
    destruct (bytes_eqb_reflect (skipn (length d - 4) d) (checksum H (firstn 32 d))) as [Ec|]; cbn [negb]; [|discriminate].
    destruct (bytes_eqb_reflect (address_to_string H (firstn 32 d)) text) as [E|Hne]; cbn [negb]; [discriminate|]. intros _.
    exists (firstn 32 d), (skipn 32 d). rewrite firstn_skipn. split; [rewrite firstn_length; lia|].
    apply base32_encode_decode in Ed. split; [congruence|]. rewrite skipn_length.
    replace (length d - 32 + 28)%nat with (length d - 4)%nat by lia. split; [exact Ec|].
    intros E. apply Hne. unfold address_to_string. rewrite <- E, firstn_skipn. exact Ed.
  - intros (addr & extra & Hl & -> & Hc & Hne). unfold address_from_str. rewrite base32_decode_encode.
    assert (Hf : firstn 32 (addr ++ extra) = addr)
      by (rewrite <- Hl, firstn_app, firstn_all, Nat.sub_diag; cbn [firstn]; apply app_nil_r).
    rewrite Hf, app_length, Hl. destruct (Nat.ltb_spec (32 + length extra) 32); [lia|]. cbv zeta.
    replace (32 + length extra - 4)%nat with (length extra + 28)%nat by lia. rewrite Hc, bytes_eqb_refl. cbn [negb].
    destruct (bytes_eqb_reflect (address_to_string H addr) (base32_encode (addr ++ extra))) as [E|]; [|reflexivity].
    exfalso. apply Hne. apply (f_equal base32_decode) in E. unfold address_to_string in E. rewrite !base32_decode_encode in E.
    assert (E' : addr ++ checksum H addr = addr ++ extra) by congruence. apply app_inv_head in E'. congruence.
Qed.

Lemma refuted_lemma addr : length addr = 32%nat ->
  address_from_str H (base32_encode (addr ++ [x00] ++ checksum H addr)) = Panic.
Proof.
  intros Hl. apply panic_lemma. exists addr, ([x00] ++ checksum H addr). split; [exact Hl|]. split; [reflexivity|]. split.
  - rewrite app_length, checksum_length. change (length [x00] + 4 + 28)%nat with 33%nat.
    rewrite app_assoc, skipn_app. rewrite skipn_all2 by (rewrite app_length, Hl; cbn; lia).
    rewrite app_length, Hl. reflexivity.
  - intros E. apply (f_equal (@length byte)) in E. rewrite app_length, checksum_length in E. discriminate.
Qed.

Lemma no_panic_58 text : length text = 58%nat -> address_from_str H text <> Panic.
Proof.
  intros Hl E. apply panic_lemma in E as (addr & extra & Ha & -> & Hc & Hne).
  destruct (base32_length (addr ++ extra)) as (z & Hz & E). rewrite Hl, app_length, Ha in E.
  assert (Hx : length extra = 4%nat) by lia. rewrite Hx in Hc. change (4 + 28)%nat with 32%nat in Hc.
  rewrite <- Ha, skipn_app, skipn_all, Nat.sub_diag in Hc. exact (Hne Hc).
Qed.
Lemma no_panic_short text : (length text < 52)%nat -> address_from_str H text <> Panic.
Proof.
  intros Hl E. apply panic_lemma in E as (addr & extra & Ha & -> & Hc & Hne).
  destruct (base32_length (addr ++ extra)) as (z & Hz & E). rewrite app_length, Ha in E. lia.
Qed.
End WithHash.

(** ** Hashes *)
Lemma hash_text_lemma text h : hash_from_str text = Ok h <-> length h = 32%nat /\ text = hash_to_string h.
Proof.
  unfold hash_from_str, hash_to_string, HASH_LEN. split.
  - destruct (base32_decode text) as [d|] eqn:Ed; [|discriminate]. destruct (Nat.eqb_spec (length d) 32) as [Hl|]; cbn [negb]; [|discriminate].
    intros E. assert (h = d) as -> by congruence. split; [exact Hl|]. symmetry. apply base32_encode_decode. exact Ed.
  - intros [Hl ->]. rewrite base32_decode_encode, Hl. reflexivity.
Qed.
Lemma hash_no_panic text : hash_from_str text <> Panic.
Proof. unfold hash_from_str. destruct (base32_decode text) as [d|]; [|discriminate]. destruct (negb _); discriminate. Qed.
Lemma is_zero_lemma h : is_zero h = true <-> h = zero32.
Proof. unfold is_zero. apply bytes_eqb_spec. Qed.

(** ** Against the independent description *)
From Verif Require Import Digits AddressSpec.

Lemma num_app a b : num (a ++ b) = num a * 2 ^ N.of_nat (length b) + num b.
Proof. unfold num at 1. rewrite fold_left_app, num_acc. reflexivity. Qed.
Lemma num_zeros z : num (repeat false z) = 0.
Proof. induction z as [|z IH]; [reflexivity|]. cbn [repeat]. rewrite num_cons, IH. reflexivity. Qed.

Lemma be_acc b ds : forall a, fold_left (fun a d => b * a + d) ds a = a * b ^ N.of_nat (length ds) + be_value b ds.
Proof.
  unfold be_value. induction ds as [|d ds IH]; intros a; cbn [fold_left length].
  - rewrite N.pow_0_r. lia.
  - rewrite IH, (IH (b * 0 + d)), Nat2N.inj_succ, N.pow_succ_r'. lia.
Qed.
Lemma be_cons b d ds : be_value b (d :: ds) = d * b ^ N.of_nat (length ds) + be_value b ds.
Proof. unfold be_value at 1. cbn [fold_left]. rewrite be_acc. lia. Qed.
Lemma be_le b ds : be_value b ds = le_val b (rev ds).
Proof.
  induction ds as [|d ds IH]; [reflexivity|]. cbn [rev]. rewrite be_cons, le_val_app, rev_length, IH. cbn [le_val]. lia.
Qed.
Lemma be_inj b xs ys : 0 < b -> digits_ok b xs -> digits_ok b ys -> length xs = length ys -> be_value b xs = be_value b ys -> xs = ys.
Proof.
  intros Hb Hx Hy Hl E. rewrite !be_le in E. apply le_val_inj in E; rewrite ?rev_length; try assumption; try (apply Forall_rev; assumption).
  rewrite <- (rev_involutive xs), E. apply rev_involutive.
Qed.
Lemma num_digits k ds : Forall (fun d => d < 2 ^ N.of_nat k) ds -> num (concat (map (bits k) ds)) = be_value (2 ^ N.of_nat k) ds.
Proof.
  induction 1 as [|d ds Hd Hds IH]; [reflexivity|]. cbn [map concat]. rewrite num_app, be_cons, IH, num_bits by exact Hd. f_equal. f_equal.
  rewrite (concat_length_const k), map_length.
  - rewrite Nat2N.inj_mul, N.pow_mul_r. reflexivity.
  - apply Forall_forall. intros g Hg. apply in_map_iff in Hg as (x & <- & _). apply bits_length.
Qed.

Lemma symbol_char v : v < 32 -> Byte.to_N (symbol v) = digit_char v.
Proof.
  intros Hv. assert (C : forallb (fun n => Byte.to_N (symbol (N.of_nat n)) =? digit_char (N.of_nat n)) (seq 0 32) = true) by (vm_compute; reflexivity).
  rewrite forallb_forall in C. specialize (C (N.to_nat v)). rewrite in_seq, N2Nat.id in C. apply N.eqb_eq, C. lia.
Qed.
Lemma symbols_chars vs : Forall (fun v => v < 32) vs -> map Byte.to_N (map symbol vs) = map digit_char vs.
Proof. induction 1 as [|v vs Hv _ IH]; [reflexivity|]. cbn [map]. rewrite symbol_char, IH by exact Hv. reflexivity. Qed.

Lemma encode_is_base32 data : is_base32 data (base32_encode data).
Proof.
  destruct (encode_bits data) as (z & vs & Hz & E0 & Hv & E). exists vs, z. split; [exact Hz|]. split; [|split; [exact Hv|split]].
  - destruct (base32_length data) as (z' & Hz' & El). rewrite E0, map_length in El.
    apply (f_equal (@length bool)) in E. rewrite app_length, repeat_length, bits_of_length in E. rewrite <- E.
    rewrite (concat_length_const 5), map_length; [reflexivity|]. apply Forall_forall. intros g Hg.
    apply in_map_iff in Hg as (v & <- & _). apply bits_length.
  - rewrite E0. apply symbols_chars. exact Hv.
  - apply (f_equal num) in E. rewrite (num_digits 5) in E by exact Hv. change (2 ^ N.of_nat 5) with 32 in E. rewrite E, num_app, num_zeros, repeat_length, N.add_0_r.
    f_equal. unfold bits_of. rewrite <- (map_map Byte.to_N (bits 8)), (num_digits 8); [reflexivity|].
    apply Forall_forall. intros n Hn. apply in_map_iff in Hn as (b & <- & _). apply to_N_lt.
Qed.
Lemma map_to_N_inj a : forall b, map Byte.to_N a = map Byte.to_N b -> a = b.
Proof.
  induction a as [|x a IH]; intros [|y b] E; try discriminate; [reflexivity|]. cbn [map] in E.
  assert (E1 : Byte.to_N x = Byte.to_N y) by congruence. assert (E2 : map Byte.to_N a = map Byte.to_N b) by congruence.
  f_equal; [apply to_N_inj; exact E1|apply IH; exact E2].
Qed.
Lemma is_base32_iff data text : is_base32 data text <-> text = base32_encode data.
Proof.
  split; [|intros ->; apply encode_is_base32].
  intros (ds & z & Hz & Hl & Hd & Ht & Hv). destruct (encode_is_base32 data) as (ds' & z' & Hz' & Hl' & Hd' & Ht' & Hv').
  assert (z = z' /\ length ds = length ds') as [<- Hlen] by lia.
  assert (ds = ds') as <- by (apply (be_inj 32); [lia|exact Hd|exact Hd'|exact Hlen|congruence]).
  apply map_to_N_inj. congruence.
Qed.
Lemma address_text_iff H addr text : hash32 H -> is_address_text H addr text <-> text = address_to_string H addr.
Proof. intros H32. unfold is_address_text, address_to_string, checksum. rewrite H32. apply is_base32_iff. Qed.

Lemma c32_lemma H addr : hash32 H -> length addr = 32%nat ->
  is_address_text H addr (address_to_string H addr) /\ length (address_to_string H addr) = 58%nat /\
  address_from_str H (address_to_string H addr) = Ok addr.
Proof.
  intros H32 Hl. split; [apply address_text_iff; auto|]. split; [apply text_length_lemma; assumption|apply round_trip_lemma; assumption].
Qed.
Lemma c33_lemma H text addr : hash32 H -> address_from_str H text = Ok addr <-> length addr = 32%nat /\ is_address_text H addr text.
Proof. intros H32. rewrite unique_lemma, address_text_iff by exact H32. reflexivity. Qed.
Lemma c35_lemma text h : hash_from_str text = Ok h <-> length h = 32%nat /\ is_base32 h text.
Proof. rewrite hash_text_lemma, is_base32_iff. reflexivity. Qed.
Lemma c35_round_trip h : length h = 32%nat -> hash_from_str (hash_to_string h) = Ok h.
Proof. intros Hl. apply hash_text_lemma. auto. Qed.
Lemma c34_panics_iff H text : hash32 H -> address_from_str H text = Panic <->
  exists addr extra, length addr = 32%nat /\ is_base32 (addr ++ extra) text /\
    skipn (length (addr ++ extra) - 4) (addr ++ extra) = skipn 28 (H addr) /\ extra <> skipn 28 (H addr).
Proof.
  intros H32. rewrite panic_lemma by exact H32. unfold checksum.
  split; intros (addr & extra & Hl & Ht & Hc & Hne); exists addr, extra; rewrite H32 in *; (split; [exact Hl|]);
    rewrite is_base32_iff in *; rewrite app_length, Hl in *;
    replace (32 + length extra - 4)%nat with (length extra + 28)%nat in * by lia; auto.
Qed.
Lemma c34_refuted_lemma H : hash32 H -> forall addr : bytes, length addr = 32%nat -> exists text, address_from_str H text = Panic.
Proof. intros H32 addr Hl. eexists. apply (refuted_lemma H H32 addr Hl). Qed.
Lemma c34_partial_lemma H (text : bytes) : hash32 H -> length text = 58%nat \/ (length text < 52)%nat -> address_from_str H text <> Panic.
Proof. intros H32 [Hl|Hl]; [apply no_panic_58|apply no_panic_short]; assumption. Qed.
