(** Proofs about the key tool. *)
From Verif Require Import Base BaseFacts MsgpackModel MnemonicModel MnemonicSpec MnemonicProofs AddressModel AddressSpec AddressProofs Scheme.
From Verif Require Import CommitteeModel ToolModel ToolSpec SqrtFacts AccountModel AccountSpec AccountProofs ManagerProofs.
From Verif Require OtsModel.
Local Open Scope N_scope.

Lemma words_ok : forallb (fun w => match w with [] => false | _ => forallb (fun c => negb (is_space c)) w end) WORDS = true.
Proof. vm_compute. reflexivity. Qed.
Lemma words_space t ws : text_words t ws -> text_words (32 :: t) ws.
Proof.
  intros T. destruct T as [s Hs|s w r ws Hs Hn Hw Hr T].
  - apply words_end. constructor; [reflexivity|exact Hs].
  - change (32 :: s ++ w ++ r) with ((32 :: s) ++ w ++ r). apply words_more; try assumption. constructor; [reflexivity|exact Hs].
Qed.
Lemma join_words ws : Forall (fun w => In w WORDS) ws -> text_words (join ws) ws.
Proof.
  intros F. induction F as [|w ws Hw F IH]; [apply words_end; constructor|].
  pose proof words_ok as A. rewrite forallb_forall in A. specialize (A w Hw).
  assert (Ne : w <> []) by (destruct w; discriminate).
  assert (Ns : Forall (fun c => is_space c = false) w).
  { destruct w as [|a w]; [constructor|]. rewrite forallb_forall in A. apply Forall_forall. intros c Hc. specialize (A c Hc). destruct (is_space c); [discriminate|reflexivity]. }
  cbn [join]. destruct ws as [|w' ws].
  - assert (X : text_words ([] ++ w ++ []) [w]) by (apply words_more; [constructor|exact Ne|exact Ns|left; reflexivity|apply words_end; constructor]).
    cbn [app] in X. rewrite app_nil_r in X. exact X.
  - apply (words_more [] w (32 :: join (w' :: ws)) (w' :: ws)); [constructor|exact Ne|exact Ns|right; exists 32, (join (w' :: ws)); split; reflexivity|].
    apply words_space. exact IH.
Qed.

Section Keys.
Variables (H : bytes -> bytes) (sc : scheme).
Hypothesis H32 : hash32 H.

Lemma write_named fs name data : name <> [] -> writable fs name = true ->
  content (write_if_named fs name data) name = Some data.
Proof.
  intros Hn Hw. unfold write_if_named, write_file. destruct name as [|b name]; [contradiction|]. rewrite Hw. cbn [content]. rewrite bytes_eqb_refl. reflexivity.
Qed.
Lemma write_other fs name data n : n <> name \/ name = [] -> content (write_if_named fs name data) n = content fs n.
Proof.
  intros Hn. unfold write_if_named, write_file. destruct name as [|b name]; [reflexivity|]. destruct (writable fs (b :: name)); [|reflexivity]. cbn [content].
  destruct (bytes_eqb n (b :: name)) eqn:E; [|reflexivity]. apply bytes_eqb_spec in E. destruct Hn as [Hn|Hn]; [contradiction|discriminate].
Qed.
Lemma write_writable fs name data : writable (write_if_named fs name data) = writable fs.
Proof. unfold write_if_named, write_file. destruct name; [reflexivity|]. destruct (writable fs _); reflexivity. Qed.

Lemma generate_lemma fs sk_file pk_file seed : length seed = 32%nat ->
  exists fs' p, generate_cmd H sc fs sk_file pk_file seed = (fs', Ok p) /\
    out_address p = address_to_string H (public sc seed) /\ phrase_to_key H (out_phrase p) = Ok seed /\
    (sk_file <> [] -> sk_file <> pk_file -> writable fs sk_file = true -> content fs' sk_file = Some seed) /\
    (pk_file <> [] -> writable fs pk_file = true -> content fs' pk_file = Some (out_address p)) /\
    (forall n, n <> sk_file -> n <> pk_file -> content fs' n = content fs n).
Proof.
  intros L. destruct (round_trip_mnemonic H H32 seed L) as [ws [E [L25 [F R]]]]. unfold generate_cmd. rewrite E.
  eexists _, _. split; [reflexivity|]. cbn [out_address out_phrase]. split; [reflexivity|].
  destruct (exact_mnemonic H H32 (join ws) ws (join_words ws F)) as [X _]. split; [apply X; split; assumption|].
  split; [|split].
  - intros N1 N2 W. rewrite write_other by (left; exact N2). apply write_named; assumption.
  - intros N1 W. apply write_named; [exact N1|]. rewrite write_writable. exact W.
  - intros n N1 N2. rewrite !write_other by (left; assumption). reflexivity.
Qed.

Lemma generate_text fs sk_file pk_file seed : length seed = 32%nat -> length (public sc seed) = 32%nat ->
  exists fs' p, generate_cmd H sc fs sk_file pk_file seed = (fs', Ok p) /\
    is_address_text H (public sc seed) (out_address p) /\ phrase_to_key H (out_phrase p) = Ok seed /\
    (sk_file <> [] -> sk_file <> pk_file -> writable fs sk_file = true -> content fs' sk_file = Some seed) /\
    (pk_file <> [] -> writable fs pk_file = true -> content fs' pk_file = Some (out_address p)) /\
    (forall n, n <> sk_file -> n <> pk_file -> content fs' n = content fs n).
Proof.
  intros L P. destruct (generate_lemma fs sk_file pk_file seed L) as [fs' [p [E [A R]]]]. exists fs', p. split; [exact E|].
  split; [rewrite A; exact (proj1 (c32_lemma H _ H32 P))|exact R].
Qed.
Lemma export_seed fs f seed : content fs f = Some seed -> length seed = 32%nat -> load_sk fs f = Some seed.
Proof. intros E L. unfold load_sk. rewrite E, L. cbn [Nat.ltb Nat.leb]. rewrite <- L, firstn_all. reflexivity. Qed.
Lemma recover_lemma fs sk_file pk_file seed fs' p : length seed = 32%nat ->
  sk_file <> [] -> sk_file <> pk_file -> writable fs sk_file = true -> generate_cmd H sc fs sk_file pk_file seed = (fs', Ok p) ->
  export_cmd H sc fs' sk_file [] = (fs', Ok p) /\
  forall fs2 f, f <> [] -> writable fs2 f = true ->
    exists fs3, import_cmd H sc fs2 (out_phrase p) f [] = (fs3, Ok p) /\ content fs3 f = Some seed.
Proof.
  intros L N1 N2 W E. destruct (generate_lemma fs sk_file pk_file seed L) as [fs1 [p1 [E1 [_ [R [C _]]]]]]. rewrite E in E1.
  assert (fs1 = fs') as -> by congruence. assert (p1 = p) as -> by congruence. specialize (C N1 N2 W). split.
  - unfold export_cmd. rewrite (export_seed _ _ _ C L). unfold generate_cmd in E. destruct (key_to_mnemonic H seed) as [ws|]; [|discriminate]. cbn [write_if_named].
    assert (mkPrinted (join ws) (address_of H sc seed) = p) as -> by congruence. reflexivity.
  - intros fs2 f Nf Wf. unfold import_cmd. rewrite R. cbn [write_if_named]. eexists. split.
    + unfold generate_cmd in E. destruct (key_to_mnemonic H seed) as [ws|]; [|discriminate].
      assert (mkPrinted (join ws) (address_of H sc seed) = p) as <- by congruence. reflexivity.
    + apply write_named; assumption.
Qed.
Lemma import_lemma fs phrase f pk fs' o : import_cmd H sc fs phrase f pk = (fs', o) ->
  (exists seed, length seed = 32%nat /\ phrase_to_key H phrase = Ok seed /\ o = Ok (mkPrinted phrase (address_to_string H (public sc seed))) /\
     (f <> [] -> f <> pk -> writable fs f = true -> content fs' f = Some seed) /\
     (pk <> [] -> writable fs pk = true -> content fs' pk = Some (address_to_string H (public sc seed))) /\
     (forall n, n <> f -> n <> pk -> content fs' n = content fs n)) \/
  ((forall seed, phrase_to_key H phrase <> Ok seed) /\ o = Panic /\ fs' = fs).
Proof.
  intros E. unfold import_cmd in E. destruct (text_has_words phrase) as [ws Hw]. destruct (exact_mnemonic H H32 phrase ws Hw) as [X _].
  destruct (phrase_to_key H phrase) as [seed|e|] eqn:P.
  - left. exists seed. destruct (proj1 (X seed) eq_refl) as [L _]. split; [exact L|]. split; [reflexivity|]. split; [assert (o = Ok (mkPrinted phrase (address_of H sc seed))) as -> by congruence; reflexivity|].
    assert (fs' = write_if_named (write_if_named fs f seed) pk (address_of H sc seed)) as -> by congruence. split; [|split].
    + intros N1 N2 W. rewrite write_other by (left; exact N2). apply write_named; assumption.
    + intros N1 W. apply write_named; [exact N1|]. rewrite write_writable. exact W.
    + intros n N1 N2. rewrite !write_other by (left; assumption). reflexivity.
  - right. split; [discriminate|split; congruence].
  - right. split; [discriminate|split; congruence].
Qed.
Lemma same_name_lemma fs f seed : length seed = 32%nat -> f <> [] -> writable fs f = true ->
  content (fst (generate_cmd H sc fs f f seed)) f = Some (address_to_string H (public sc seed)).
Proof.
  intros L N1 W. destruct (generate_lemma fs f f seed L) as [fs' [p [E [A [_ [_ [C _]]]]]]]. rewrite E. cbn [fst]. rewrite <- A. exact (C N1 W).
Qed.
(** Exporting succeeds for every file of at least 32 bytes, and for no other. *)
Lemma export_lemma fs f pk : let '(fs', o) := export_cmd H sc fs f pk in
  match content fs f with
  | Some s =>
      if (32 <=? length s)%nat
      then exists p, o = Ok p /\ out_address p = address_to_string H (public sc (firstn 32 s)) /\
             phrase_to_key H (out_phrase p) = Ok (firstn 32 s) /\
             (pk <> [] -> writable fs pk = true -> content fs' pk = Some (out_address p)) /\
             (forall n, n <> pk -> content fs' n = content fs n)
      else o = Panic /\ fs' = fs
  | None => o = Panic /\ fs' = fs
  end.
Proof.
  unfold export_cmd, load_sk. destruct (content fs f) as [s|]; [|split; reflexivity].
  destruct (Nat.ltb_spec (length s) 32) as [A|A], (Nat.leb_spec 32 (length s)) as [B|B]; try lia; [split; reflexivity|].
  assert (L : length (firstn 32 s) = 32%nat) by (rewrite firstn_length; lia).
  destruct (round_trip_mnemonic H H32 (firstn 32 s) L) as [ws [E [L25 [F R]]]]. rewrite E. eexists. split; [reflexivity|]. cbn [out_address out_phrase]. split; [reflexivity|].
  destruct (exact_mnemonic H H32 (join ws) ws (join_words ws F)) as [X _]. split; [apply X; split; assumption|]. split.
  - intros N1 W. apply write_named; assumption.
  - intros n N1. apply write_other. left. exact N1.
Qed.
Lemma sign_never decode_tx fs sk_file mnemonic tx_file out_file :
  fst (sign_cmd H sc decode_tx fs sk_file mnemonic tx_file out_file) = fs /\
  forall stx, snd (sign_cmd H sc decode_tx fs sk_file mnemonic tx_file out_file) <> Ok stx.
Proof.
  unfold sign_cmd. destruct (load_keyfile_or_mnemonic H fs sk_file mnemonic) as [s|e|]; try (split; [reflexivity|discriminate]).
  destruct (keypair_from_bytes s); try (split; [reflexivity|discriminate]). destruct (content fs tx_file); try (split; [reflexivity|discriminate]).
  destruct (decode_tx _); try (split; [reflexivity|discriminate]). destruct (content fs out_file); try (split; [reflexivity|discriminate]).
Qed.
Lemma sign_outcome decode_tx fs sk_file mnemonic tx_file out_file :
  let '(fs', o) := sign_cmd H sc decode_tx fs sk_file mnemonic tx_file out_file in
  fs' = fs /\ (o = Err tt <-> (sk_file = [] <-> mnemonic = [])) /\ (o <> Err tt -> o = Panic).
Proof.
  assert (P : ~ (sk_file = [] <-> mnemonic = []) -> sign_cmd H sc decode_tx fs sk_file mnemonic tx_file out_file = (fs, Panic)).
  { intros N. unfold sign_cmd. assert (X : forall e, load_keyfile_or_mnemonic H fs sk_file mnemonic <> Err e).
    { unfold load_keyfile_or_mnemonic. destruct sk_file as [|b f], mnemonic as [|c w].
      - exfalso. apply N. tauto.
      - destruct (phrase_to_key H (c :: w)); discriminate.
      - destruct (load_sk fs (b :: f)); discriminate.
      - exfalso. apply N. split; discriminate. }
    destruct (load_keyfile_or_mnemonic H fs sk_file mnemonic) as [s|e|]; [|destruct (X e eq_refl)|reflexivity].
    destruct (keypair_from_bytes s); [|reflexivity]. destruct (content fs tx_file); [|reflexivity].
    destruct (decode_tx _); [|reflexivity]. destruct (content fs out_file); reflexivity. }
  assert (Q : (sk_file = [] <-> mnemonic = []) -> sign_cmd H sc decode_tx fs sk_file mnemonic tx_file out_file = (fs, Err tt)).
  { intros N. unfold sign_cmd, load_keyfile_or_mnemonic. destruct sk_file as [|b f], mnemonic as [|c w]; try reflexivity; exfalso;
      [discriminate (proj1 N eq_refl)|discriminate (proj2 N eq_refl)]. }
  assert (D : (sk_file = [] <-> mnemonic = []) \/ ~ (sk_file = [] <-> mnemonic = [])).
  { destruct sk_file, mnemonic; intuition discriminate. }
  destruct D as [D|D]; [rewrite (Q D)|rewrite (P D)]; (split; [reflexivity|]; split; [|congruence]); split; intros Y; auto; [discriminate|contradiction].
Qed.
End Keys.

(** ** Participation keys *)
Lemma key_dilution_auto md first last : first <= last -> u64 last ->
  exists d, key_dilution_of md first last 0 = Some d /\ last - first < d * d /\ (d - 2) * (d - 2) <= last - first /\ 1 <= d <= 2 ^ 32 + 1 /\
    (last - first < 2 ^ 52 -> (d - 1) * (d - 1) <= last - first).
Proof.
  intros Hfl Hl. unfold key_dilution_of. cbn [N.eqb]. unfold u64, two64 in Hl. unfold sub64. rewrite (proj2 (N.leb_le _ _) Hfl).
  destruct (sqrt_u64_bounds (last - first) ltac:(lia)) as [[A B] C]. pose proof (N.sqrt_spec' (last - first)) as [S1 S2].
  assert (S3 : N.sqrt (last - first) < 2 ^ 32) by nia.
  unfold add64. rewrite (proj2 (N.ltb_lt _ _)) by (unfold two64; lia). eexists. split; [reflexivity|]. split; [nia|]. split; [nia|]. split; [lia|].
  intros Hs. rewrite (C Hs). replace (1 + N.sqrt (last - first) - 1) with (N.sqrt (last - first)) by lia. exact S1.
Qed.
Lemma batches_bound first last d : first <= last -> 1 <= d -> last - first < d * d -> last / d - first / d <= d.
Proof.
  intros Hfl Hd Hn. assert (last <= first + d * d - 1) by lia.
  assert (last / d <= (first + d * d) / d) by (apply N.div_le_mono; lia).
  rewrite N.div_add in H0 by lia. lia.
Qed.

Lemma make_batches_length sc md master start : forall eks i ks, OtsModel.make_batches sc md master start i eks = Some ks -> length ks = length eks.
Proof.
  induction eks as [|e eks IH]; intros i ks E; cbn [OtsModel.make_batches] in E; [injection E as <-; reflexivity|].
  destruct (add64 md start i); [|discriminate]. destruct (OtsModel.make_batches sc md master start (i + 1) eks) as [ks'|] eqn:M; [|discriminate]. injection E as <-.
  cbn [length]. f_equal. exact (IH _ _ M).
Qed.

Section Parts.
Variables (H : bytes -> bytes) (sc : scheme) (is_point : bytes -> bool).
Hypotheses (H32 : hash32 H) (sizes : scheme_sizes sc is_point).

Lemma fill_is md st par first last d master rng vk : u64 last -> u64 d -> first <= last -> d <> 0 -> ~ (last = max64 /\ d = 1) ->
  exists p, fill_db sc md st par first last d master rng vk None = (fst (persist sc st p None), Ok p) /\
    parent p = par /\ part_first p = first /\ part_last p = last /\ part_dilution p = d /\
    N.of_nat (length (OtsModel.batches (voting p))) = last / d - first / d + 1 /\
    (last / d - first / d + 1 < 2 ^ 32 -> length par = 32%nat -> random_ok master rng vk -> restore sc is_point (fst (persist sc st p None)) = Ok p).
Proof.
  intros Hl Hd Hfl D0 Hn. destruct (fill_defined sc md st par first last d master rng vk Hl Hfl D0 Hn) as [p E]. exists p. split; [exact E|].
  destruct (fill_ok sc md _ _ _ _ _ _ _ _ _ _ _ Hl E Hn) as [s [eks [G [Ep [_ [_ [Le [Ee _]]]]]]]]. subst p. cbn [parent part_first part_last part_dilution voting].
  repeat (split; [reflexivity|]). split.
  - rewrite <- Le. f_equal. unfold OtsModel.generate in G. destruct (OtsModel.make_batches sc md master (first / d) 0 eks) as [ks|] eqn:M; [|discriminate].
    assert (s = OtsModel.mkSecrets (public sc master) (first / d) ks 0 [] default_key null_sig) as -> by congruence. cbn [OtsModel.batches].
    apply (make_batches_length _ _ _ _ _ _ _ M).
  - intros Hb Lp [R1 [R2 [R3 R4]]]. exact (proj2 (filled_ok sc is_point sizes md _ _ _ _ _ _ _ _ _ _ Hl Hd Hn Hb Lp R3 R4 R1 R2 E)).
Qed.
Lemma part_generate_lemma md st keyfile first last addr master rng vk : u64 last -> first <= last -> ~ (last = max64 /\ first = max64) -> length addr = 32%nat ->
  exists st' p d, part_generate_cmd H sc md st keyfile first last 0 (address_to_string H addr) master rng vk None = (st', Ok p) /\
    parent p = addr /\ part_first p = first /\ part_last p = last /\ part_dilution p = d /\
    last - first < d * d /\ (d - 2) * (d - 2) <= last - first /\ (last - first < 2 ^ 52 -> (d - 1) * (d - 1) <= last - first) /\
    N.of_nat (length (OtsModel.batches (voting p))) = groups first last d /\ groups first last d <= d + 1.
Proof.
  intros Hl Hfl Hn La. destruct (key_dilution_auto md first last Hfl Hl) as [d [E [D1 [D2 [[D3 D4] D5]]]]].
  assert (Hn' : ~ (last = max64 /\ d = 1)) by (intros [-> ->]; apply Hn; split; [reflexivity|lia]).
  destruct (fill_is md st addr first last d master rng vk Hl ltac:(unfold u64, two64; lia) Hfl ltac:(lia) Hn') as [p [F [P1 [P2 [P3 [P4 [P5 _]]]]]]].
  exists (fst (persist sc st p None)), p, d. unfold part_generate_cmd. rewrite E. destruct (c32_lemma H addr H32 La) as [_ [_ ->]]. rewrite F.
  repeat (split; [assumption || reflexivity|]). unfold groups. pose proof (batches_bound first last d Hfl D3 D1). lia.
Qed.
Lemma part_info_lemma md st keyfile first last dilution addr master rng vk : u64 last -> u64 dilution -> first <= last -> ~ (last = max64 /\ first = max64) ->
  ~ (last = max64 /\ dilution = 1) -> last - first < 2 ^ 31 \/ dilution = 0 /\ last - first < 2 ^ 62 ->
  length addr = 32%nat -> random_ok master rng vk ->
  exists st' p, part_generate_cmd H sc md st keyfile first last dilution (address_to_string H addr) master rng vk None = (st', Ok p) /\
    part_info_cmd sc is_point st' keyfile = Ok p /\ parent p = addr /\ part_first p = first /\ part_last p = last.
Proof.
  intros Hl Hd Hfl Hn Hn1 Hs La R.
  assert (X : exists d, key_dilution_of md first last dilution = Some d /\ u64 d /\ d <> 0 /\ ~ (last = max64 /\ d = 1) /\ last / d - first / d + 1 < 2 ^ 32).
  { destruct (N.eq_dec dilution 0) as [->|D0].
    - destruct (key_dilution_auto md first last Hfl Hl) as [d [E [D1 [D2 [[D3 D4] D5]]]]]. exists d. split; [exact E|]. split; [unfold u64, two64; lia|]. split; [lia|].
      split; [intros [-> ->]; apply Hn; split; [reflexivity|lia]|]. pose proof (batches_bound first last d Hfl D3 D1).
      assert (d - 2 <= 2 ^ 31) by nia. lia.
    - exists dilution. unfold key_dilution_of. rewrite (proj2 (N.eqb_neq _ _) D0). repeat (split; [assumption || reflexivity|]).
      destruct Hs as [Hs|[Hs _]]; [|contradiction]. assert (last / dilution <= first / dilution + (last - first)); [|lia].
      rewrite <- N.div_add by exact D0. apply N.div_le_mono; [exact D0|]. nia. }
  destruct X as [d [E [U [D0 [Hn' Hb]]]]]. destruct (fill_is md st addr first last d master rng vk Hl U Hfl D0 Hn') as [p [F [P1 [P2 [P3 [_ [_ P]]]]]]].
  exists (fst (persist sc st p None)), p. unfold part_generate_cmd. rewrite E. destruct (c32_lemma H addr H32 La) as [_ [_ ->]]. rewrite F. split; [reflexivity|].
  unfold part_info_cmd. rewrite (P Hb La R). repeat (split; [assumption || reflexivity|]). assumption.
Qed.
Lemma reparent_lemma st keyfile p addr : part_info_cmd sc is_point st keyfile = Ok p -> length addr = 32%nat ->
  let p' := mkPart addr (vrf p) (voting p) (part_first p) (part_last p) (part_dilution p) in
  exists st', part_reparent_cmd H sc is_point st keyfile (address_to_string H addr) None = (st', Ok p') /\ part_info_cmd sc is_point st' keyfile = Ok p'.
Proof.
  intros E La p'. unfold part_info_cmd in *. destruct (restore sc is_point st) as [q|e|] eqn:R; try discriminate. assert (q = p) as -> by congruence.
  unfold part_reparent_cmd. destruct (c32_lemma H addr H32 La) as [_ [_ ->]]. rewrite R. fold p'. unfold persist_new_parent, write_all. eexists. split; [reflexivity|].
  pose proof (parent_crash sc is_point st p p' 1 La R) as X. cbn [firstn after_crash Nat.ltb Nat.leb] in X. unfold after_crash in X. cbn [firstn] in X.
  change (parent p') with addr in *. rewrite X. reflexivity.
Qed.
Lemma reparent_refused st keyfile text : (forall addr, address_from_str H text <> Ok addr) \/ (forall p, restore sc is_point st <> Ok p) ->
  fst (part_reparent_cmd H sc is_point st keyfile text None) = st /\ forall p, snd (part_reparent_cmd H sc is_point st keyfile text None) <> Ok p.
Proof.
  intros C. unfold part_reparent_cmd. destruct (address_from_str H text) as [a|e|]; try (split; [reflexivity|discriminate]).
  destruct C as [C|C]; [exfalso; apply (C a); reflexivity|]. destruct (restore sc is_point st) as [q|e|]; try (split; [reflexivity|discriminate]).
  exfalso. apply (C q). reflexivity.
Qed.
(** Reversed intervals. *)
Lemma reversed_lemma md st keyfile first last dilution addr master rng vk fault : last < first -> u64 first -> length addr = 32%nat ->
  fst (part_generate_cmd H sc md st keyfile first last dilution (address_to_string H addr) master rng vk fault) = st /\
  snd (part_generate_cmd H sc md st keyfile first last dilution (address_to_string H addr) master rng vk fault) =
    match md with Debug => if dilution =? 0 then Panic else Err tt | Release => Err tt end.
Proof.
  intros Hlt Hu La. unfold part_generate_cmd, key_dilution_of. destruct (c32_lemma H addr H32 La) as [_ [_ ->]].
  destruct (dilution =? 0).
  - unfold sub64, add64. destruct md.
    + destruct (N.leb_spec first last); [lia|]. split; reflexivity.
    + destruct (N.leb_spec first last); [lia|]. match goal with |- context [?a <? two64] => destruct (a <? two64) end; unfold fill_db; destruct (N.ltb_spec last first); try lia; split; reflexivity.
  - unfold fill_db. destruct (N.ltb_spec last first); [|lia]. destruct md; split; reflexivity.
Qed.
End Parts.

Lemma generate_text_lemma H sc fs sk_file pk_file seed : hash32 H -> length seed = 32%nat -> length (public sc seed) = 32%nat ->
  exists fs' p, generate_cmd H sc fs sk_file pk_file seed = (fs', Ok p) /\
    is_address_text H (public sc seed) (out_address p) /\ phrase_to_key H (out_phrase p) = Ok seed /\
    (sk_file <> [] -> sk_file <> pk_file -> writable fs sk_file = true -> content fs' sk_file = Some seed) /\
    (pk_file <> [] -> writable fs pk_file = true -> content fs' pk_file = Some (out_address p)) /\
    (forall n, n <> sk_file -> n <> pk_file -> content fs' n = content fs n).
Proof. intros h. apply generate_text. exact h. Qed.
Lemma last_wins H sc is_point md st1 st2 f g first last dilution addr master rng vk p q : hash32 H -> scheme_sizes sc is_point ->
  u64 last -> u64 dilution -> first <= last -> ~ (last = max64 /\ first = max64) -> ~ (last = max64 /\ dilution = 1) ->
  last - first < 2 ^ 31 \/ dilution = 0 /\ last - first < 2 ^ 62 -> length addr = 32%nat -> random_ok master rng vk ->
  part_info_cmd sc is_point st1 f = Ok p ->
  part_generate_cmd H sc md st1 g first last dilution (address_to_string H addr) master rng vk None = (st2, Ok q) ->
  part_info_cmd sc is_point st2 f = Ok q /\ parent q = addr.
Proof.
  intros h z A B C D E F G I _ X. destruct (part_info_lemma H sc is_point h z md st1 g first last dilution addr master rng vk A B C D E F G I) as [st' [r [Y [Z [W _]]]]].
  rewrite X in Y. assert (st' = st2) as -> by congruence. assert (r = q) as -> by congruence. split; [exact Z|exact W].
Qed.
Lemma reversed_partial H sc md st keyfile first last dilution addr master rng vk fault : hash32 H -> last < first -> u64 first -> length addr = 32%nat ->
  fst (part_generate_cmd H sc md st keyfile first last dilution (address_to_string H addr) master rng vk fault) = st /\
  (md = Release \/ dilution <> 0 ->
   snd (part_generate_cmd H sc md st keyfile first last dilution (address_to_string H addr) master rng vk fault) = Err tt).
Proof.
  intros h A B C. destruct (reversed_lemma H sc h md st keyfile first last dilution addr master rng vk fault A B C) as [X Y]. split; [exact X|].
  intros [->|D]; rewrite Y; [reflexivity|]. rewrite (proj2 (N.eqb_neq _ _) D). destruct md; reflexivity.
Qed.
