From Verif Require Import StructModel Base BaseFacts MsgpackModel MsgpackProofs Scheme ConsensusModel BasicsModel OtsModel OtsSpec OtsProofs AccountModel AccountSpec CommitteeProofs.
From Verif Require AddressModel TxModel VrfModel UpgradeModel BlockModel.
Local Open Scope N_scope.

(** ** The store *)
Lemma insert_same st k v : insert st k v k = Some v.
Proof. unfold insert. rewrite bytes_eqb_refl. reflexivity. Qed.
Lemma insert_other st k v k' : k' <> k -> insert st k v k' = st k'.
Proof. intros N. unfold insert. destruct (bytes_eqb_reflect k' k); [contradiction|reflexivity]. Qed.

(** ** Codec *)
Section Codec.
Variables (sc : scheme) (is_point : bytes -> bool).
Lemma num_of_num n : num_of (VNum n) = Some n.
Proof. unfold num_of, VNum. destruct (Z.leb_spec 0 (Z.of_N n)); [rewrite N2Z.id; reflexivity|lia]. Qed.
Lemma all_bytes_map s : all_bytes (map (fun b => VInt (Z.of_N (Byte.to_N b))) s) = Some s.
Proof.
  induction s as [|b s IH]; [reflexivity|]. cbn [map all_bytes]. rewrite IH. change (VInt (Z.of_N (Byte.to_N b))) with (VNum (Byte.to_N b)).
  rewrite num_of_num. pose proof (Byte.to_N_bounded b). destruct (N.ltb_spec (Byte.to_N b) 256); [|lia]. rewrite b8_to_N. reflexivity.
Qed.
Lemma bytes_of_bytes n s : length s = n -> bytes_of n (VBytes s) = Some s.
Proof. intros L. unfold bytes_of, VBytes. rewrite all_bytes_map, L, Nat.eqb_refl. reflexivity. Qed.
Lemma key_of_key k : key_ok is_point k -> key_of is_point (VBin k) = Some k.
Proof. intros [L P]. unfold key_of. cbn [buf_of]. rewrite L, P. reflexivity. Qed.
Lemma subkey_of_subkey k : subkey_ok sc is_point k -> subkey_of sc is_point (subkey_value sc k) = Some k.
Proof.
  intros [L [[Lp P] Ls]].
  assert (S : skipn 32 (secret k ++ public sc (secret k)) = public sc (secret k)) by (rewrite skipn_app, L, skipn_all2, Nat.sub_diag by lia; reflexivity).
  assert (F : firstn 32 (secret k ++ public sc (secret k)) = secret k) by (rewrite firstn_app, L, Nat.sub_diag, firstn_O, firstn_all2 by lia; apply app_nil_r).
  unfold subkey_of, subkey_value, keypair_of. cbn [fields_of length Nat.eqb buf_of]. rewrite S, app_length, L, Lp, P. change (32 + 32 =? 64)%nat with true. cbv beta iota delta [andb].
  rewrite bytes_of_bytes by exact Ls. rewrite S, F, bytes_eqb_refl. destruct k; reflexivity.
Qed.
Lemma all_subkeys_map l : Forall (subkey_ok sc is_point) l -> all_subkeys sc is_point (map (subkey_value sc) l) = Some l.
Proof. induction 1 as [|k l Hk _ IH]; [reflexivity|]. cbn [map all_subkeys]. rewrite subkey_of_subkey, IH by exact Hk. reflexivity. Qed.
Lemma secrets_of_value s : secrets_ok sc is_point s -> secrets_of sc is_point (secrets_value sc s) = Some s.
Proof.
  intros [A [B [D [E [F [G [I [J K]]]]]]]]. unfold secrets_of, secrets_value. cbn [fields_of length Nat.eqb subkeys_of].
  rewrite !num_of_num, !key_of_key, !all_subkeys_map, bytes_of_bytes by assumption. destruct s; reflexivity.
Qed.
Lemma vrf_of_value k : length (VrfModel.private k) = 32%nat -> length (VrfModel.public_key k) = 32%nat -> vrf_of (vrf_value k) = Some k.
Proof. intros A B. unfold vrf_of, vrf_value. cbn [fields_of length Nat.eqb]. rewrite !bytes_of_bytes by assumption. destruct k; reflexivity. Qed.
Lemma wf_list l : fold_right (fun x p => wf x /\ p) True l <-> Forall wf l.
Proof. induction l as [|x l IH]; cbn [fold_right]; [split; auto|]. rewrite IH. split; [intros [A B]; auto|intros A; inversion A; auto]. Qed.
Lemma wf_num n : u64 n -> wf (VNum n).
Proof. unfold u64, two64. intros Hn. cbn [wf VNum]. lia. Qed.
Lemma wf_bytes s : N.of_nat (length s) < 2 ^ 32 -> wf (VBytes s).
Proof.
  intros L. cbn [wf VBytes]. rewrite map_length. split; [exact L|]. apply wf_list, Forall_forall. intros x Hx. apply in_map_iff in Hx. destruct Hx as [b [<- _]].
  pose proof (Byte.to_N_bounded b). cbn [wf]. lia.
Qed.
Lemma wf_subkey k : subkey_ok sc is_point k -> wf (subkey_value sc k).
Proof.
  intros [L [[Lp P] Ls]]. unfold subkey_value. cbn [wf fold_right length]. split; [reflexivity|]. split; [rewrite app_length, L, Lp; reflexivity|]. split; [|exact I].
  apply wf_bytes. rewrite Ls. reflexivity.
Qed.
Lemma wf_subkeys l : N.of_nat (length l) < 2 ^ 32 -> Forall (subkey_ok sc is_point) l -> wf (VArr (map (subkey_value sc) l)).
Proof. intros L F. cbn [wf]. rewrite map_length. split; [exact L|]. apply wf_list. apply Forall_map. eapply Forall_impl; [|exact F]. exact wf_subkey. Qed.
Lemma wf_secrets s : secrets_ok sc is_point s -> wf (secrets_value sc s).
Proof.
  intros [[A _] [B [D [[E _] [F [G [I [J K]]]]]]]]. unfold secrets_value.
  change (N.of_nat 8 < 2 ^ 32 /\ fold_right (fun x p => wf x /\ p) True
    [VBin (verifier s); VNum (first_batch s); VArr (map (subkey_value sc) (batches s)); VNum (first_offset s);
        VArr (map (subkey_value sc) (offsets s)); VBin (offsets_pk2 s); VBytes (offsets_pk2_sig s); VNil]).
  split; [reflexivity|]. apply wf_list. repeat apply Forall_cons; [|apply wf_num; exact B|apply wf_subkeys; assumption|apply wf_num; exact D|apply wf_subkeys; assumption| |apply wf_bytes; rewrite F; reflexivity|exact Logic.I|apply Forall_nil];
    cbn [wf]; rewrite ?A, ?E; reflexivity.
Qed.
Lemma wf_vrf k : length (VrfModel.private k) = 32%nat -> length (VrfModel.public_key k) = 32%nat -> wf (vrf_value k).
Proof. intros A B. unfold vrf_value. cbn [wf fold_right length]. split; [reflexivity|]. split; [|split; [|exact I]]; apply wf_bytes; rewrite ?A, ?B; reflexivity. Qed.
Lemma from_bytes_encode {A} (of : value -> option A) v a : wf v -> of v = Some a -> from_bytes of (encode v) = Ok a.
Proof. intros W E. unfold from_bytes. rewrite <- (app_nil_r (encode v)), decode_encode, E by exact W. reflexivity. Qed.
Lemma exactly_be v : u64 v -> exactly 8 (Some (be 8 v)) = Ok (be 8 v) /\ be_val (be 8 v) = v.
Proof. intros Hv. unfold exactly. rewrite be_length. split; [reflexivity|]. apply be_val_be. exact Hv. Qed.

(** What [restore] reads. *)
Definition fields_hold (st : store) (p : participation) : Prop :=
  exactly 32 (st (str "part-parent")) = Ok (parent p) /\
  stored vrf_of (st (str "part-vrf")) = Ok (vrf p) /\
  stored (secrets_of sc is_point) (st (str "part-voting")) = Ok (voting p) /\
  (exists f, exactly 8 (st (str "part-first_valid")) = Ok f /\ be_val f = part_first p) /\
  (exists f, exactly 8 (st (str "part-last_valid")) = Ok f /\ be_val f = part_last p) /\
  (exists f, exactly 8 (st (str "part-key_dilution")) = Ok f /\ be_val f = part_dilution p).
Lemma restore_fields st p : restore sc is_point st = Ok p <-> fields_hold st p.
Proof.
  unfold restore, fields_hold. split.
  - destruct (exactly 32 _) as [a| |]; [|discriminate..]. cbn [bind]. destruct (stored vrf_of _) as [b| |]; [|discriminate..]. cbn [bind].
    destruct (stored (secrets_of _ _) _) as [c| |]; [|discriminate..]. cbn [bind]. destruct (exactly 8 (st (str "part-first_valid"))) as [d| |]; [|discriminate..]. cbn [bind].
    destruct (exactly 8 (st (str "part-last_valid"))) as [e| |]; [|discriminate..]. cbn [bind]. destruct (exactly 8 (st (str "part-key_dilution"))) as [f| |]; [|discriminate..]. cbn [bind].
    intros E. injection E as <-. cbn. repeat (split; [solve [reflexivity|eauto]|]). eauto.
  - intros [A [B [D [[f [E1 E2]] [[g [F1 F2]] [k [G1 G2]]]]]]]. rewrite A, B, D, E1, F1, G1. cbn [bind]. rewrite E2, F2, G2. destruct p; reflexivity.
Qed.
Lemma writes_read p : part_ok sc is_point p ->
  exactly 32 (Some (parent p)) = Ok (parent p) /\
  stored vrf_of (Some (encode (vrf_value (vrf p)))) = Ok (vrf p) /\
  stored (secrets_of sc is_point) (Some (encode (secrets_value sc (snapshot (voting p))))) = Ok (voting p).
Proof.
  intros [A [B [D [E _]]]]. split; [unfold exactly; rewrite A; reflexivity|]. split.
  - unfold stored. apply from_bytes_encode; [apply wf_vrf; assumption|apply vrf_of_value; assumption].
  - replace (snapshot (voting p)) with (voting p) by (destruct (voting p); reflexivity). unfold stored. apply from_bytes_encode; [apply wf_secrets; exact E|apply secrets_of_value; exact E].
Qed.
Ltac no_key := let E := fresh in intros E; vm_compute in E; discriminate.
Ltac reads := repeat first [rewrite insert_same | rewrite insert_other by no_key].
Lemma crash_lemma st old new k : part_ok sc is_point new -> restore sc is_point st = Ok old ->
  restore sc is_point (after_crash st (writes sc new) k) = Ok (mixture k new old).
Proof.
  intros W R. apply restore_fields in R. apply restore_fields. destruct (writes_read new W) as [W1 [W2 W3]]. destruct W as [_ [_ [_ [_ [W4 [W5 W6]]]]]].
  destruct (exactly_be _ W4) as [X4 Y4], (exactly_be _ W5) as [X5 Y5], (exactly_be _ W6) as [X6 Y6]. destruct R as [R1 [R2 [R3 [R4 [R5 R6]]]]].
  unfold fields_hold, after_crash, writes, mixture, apply_writes.
  do 6 (destruct k as [|k]; [cbn [firstn fold_left fst snd Nat.ltb Nat.leb parent vrf voting part_first part_last part_dilution]; reads; eauto 12|]).
  rewrite firstn_all2 by (cbn [length]; lia).
  cbn [fold_left fst snd Nat.ltb Nat.leb parent vrf voting part_first part_last part_dilution]. reads. eauto 12.
Qed.
Lemma persist_lemma st p : part_ok sc is_point p -> restore sc is_point (fst (persist sc st p None)) = Ok p /\ snd (persist sc st p None) = Ok tt.
Proof.
  intros W. split; [|reflexivity]. apply restore_fields. destruct (writes_read p W) as [W1 [W2 W3]]. destruct W as [_ [_ [_ [_ [W4 [W5 W6]]]]]].
  destruct (exactly_be _ W4) as [X4 Y4], (exactly_be _ W5) as [X5 Y5], (exactly_be _ W6) as [X6 Y6].
  unfold fields_hold, persist, write_all, writes, apply_writes. cbn [fst fold_left snd]. reads. eauto 12.
Qed.
(** A store without the six keys. *)
Lemma fresh_crash st p k : part_ok sc is_point p -> (forall key, In key (map fst (writes sc p)) -> st key = None) -> (k < 6)%nat -> restore sc is_point (after_crash st (writes sc p) k) = Panic.
Proof.
  intros W F Hk. destruct (writes_read p W) as [W1 [W2 W3]]. destruct W as [_ [_ [_ [_ [W4 [W5 W6]]]]]].
  destruct (exactly_be _ W4) as [X4 Y4], (exactly_be _ W5) as [X5 Y5], (exactly_be _ W6) as [X6 Y6].
  assert (F' : forall key, In key (map fst (writes sc p)) -> st key = None) by exact F. unfold writes in F'. cbn [map fst In] in F'.
  unfold restore, after_crash, writes, apply_writes.
  do 6 (destruct k as [|k]; [cbn [firstn fold_left fst snd]; reads; rewrite ?W1; cbn [bind]; rewrite ?W2; cbn [bind]; rewrite ?W3; cbn [bind]; rewrite ?X4; cbn [bind]; rewrite ?X5; cbn [bind];
    repeat (rewrite F' by auto 10); reflexivity|]). lia.
Qed.
Lemma parent_crash st old p k : length (parent p) = 32%nat -> restore sc is_point st = Ok old ->
  restore sc is_point (after_crash st [(str "part-parent", parent p)] k) =
  Ok (if (0 <? k)%nat then mkPart (parent p) (vrf old) (voting old) (part_first old) (part_last old) (part_dilution old) else old).
Proof.
  intros L R. destruct k as [|k]; [exact R|]. apply restore_fields in R. apply restore_fields. destruct R as [R1 R].
  unfold after_crash. cbn [firstn]. rewrite firstn_nil. unfold fields_hold, apply_writes. cbn [fold_left fst snd]. reads. split; [|exact R]. unfold exactly. rewrite L. reflexivity.
Qed.
Lemma voting_crash st old s k : secrets_ok sc is_point s -> restore sc is_point st = Ok old ->
  restore sc is_point (after_crash st [(str "part-voting", encode (secrets_value sc (snapshot s)))] k) =
  Ok (if (0 <? k)%nat then mkPart (parent old) (vrf old) s (part_first old) (part_last old) (part_dilution old) else old).
Proof.
  intros W R. destruct k as [|k]; [exact R|]. apply restore_fields in R. apply restore_fields. destruct R as [R1 [R2 [R3 R]]].
  unfold after_crash. cbn [firstn]. rewrite firstn_nil. unfold fields_hold, apply_writes. cbn [fold_left fst snd]. reads. split; [exact R1|]. split; [exact R2|]. split; [|exact R].
  replace (snapshot s) with s by (destruct s; reflexivity). unfold stored. apply from_bytes_encode; [apply wf_secrets|apply secrets_of_value]; exact W.
Qed.
End Codec.

(** ** Generation and aging *)
Section Keys.
Variables (sc : scheme) (md : mode).
Lemma ots_id_ok r d : d <> 0 -> ots_id r d = Some (r / d, r mod d).
Proof. intros Hd. unfold ots_id, div64, rem64. destruct (N.eqb_spec d 0); [contradiction|reflexivity]. Qed.
Lemma div_small_max r d : u64 r -> d <> 0 -> ~ (r = max64 /\ d = 1) -> r / d < max64.
Proof.
  intros Hr Hd Hn. unfold u64, two64, max64 in *. destruct (N.eq_dec d 1) as [->|H1]; [rewrite N.div_1_r; lia|].
  eapply N.le_lt_trans; [apply (N.div_le_compat_l r 2 d); lia|]. lia.
Qed.
Lemma mod_small_max r d : u64 r -> d <> 0 -> u64 d -> r mod d < max64.
Proof. intros Hr Hd Hu. pose proof (N.mod_lt r d Hd). unfold u64, two64, max64 in *. lia. Qed.
Lemma round_id_ok r d : d <> 0 -> u64 d -> round_ok r d -> id_ok (round_id r d).
Proof. intros Hd Hu [Hr Hn]. split; cbn; [apply div_small_max; assumption|apply mod_small_max; assumption]. Qed.
Lemma round_id_le c r d : d <> 0 -> c <= r -> id_le (round_id c d) (round_id r d).
Proof.
  intros Hd Hc. unfold id_le, round_id. cbn. pose proof (N.div_le_mono c r d Hd Hc) as Q. pose proof (N.div_mod' c d). pose proof (N.div_mod' r d).
  destruct (N.eq_dec (c / d) (r / d)) as [E|E]; [right; split; [exact E|]; rewrite E in *; lia|left; lia].
Qed.
Lemma round_id_lt c r d : d <> 0 -> r < c -> id_lt (round_id r d) (round_id c d).
Proof.
  intros Hd Hc. unfold id_lt, round_id. cbn. pose proof (N.div_le_mono r c d Hd ltac:(lia)) as Q. pose proof (N.div_mod' c d). pose proof (N.div_mod' r d).
  destruct (N.eq_dec (r / d) (c / d)) as [E|E]; [right; split; [exact E|]; rewrite E in *; lia|left; lia].
Qed.
Lemma lt_not_le a b : id_lt a b -> ~ id_le b a.
Proof. unfold id_lt, id_le. lia. Qed.

Lemma lin1 a b : a <= b -> b < max64 -> b - a + 1 < two64.
Proof. unfold two64, max64. lia. Qed.
Lemma lin2 a b : a <= b -> b < max64 -> a + (b - a + 1) <= two64.
Proof. unfold two64, max64. lia. Qed.
Lemma fill_ok st par f l d master rng vk fault st' p : u64 l -> fill_db sc md st par f l d master rng vk fault = (st', Ok p) -> ~ (l = max64 /\ d = 1) ->
  exists s eks, generate sc md master (f / d) eks = Some s /\ p = mkPart par vk s f l d /\ f <= l /\ d <> 0 /\
    N.of_nat (length eks) = l / d - f / d + 1 /\ eks = map rng (range 0 (l / d - f / d + 1)) /\ persist sc st p fault = (st', Ok tt).
Proof.
  intros Hl E Hn. unfold fill_db in E. destruct (N.ltb_spec l f) as [|Hfl]; [discriminate|].
  destruct (N.eq_dec d 0) as [->|Hd]; [discriminate|]. rewrite !ots_id_ok in E by exact Hd.
  pose proof (N.div_le_mono f l d Hd Hfl) as Q. rewrite sub64_ok in E by exact Q. pose proof (div_small_max l d Hl Hd Hn) as B.
  rewrite add64_ok in E by (apply lin1; assumption).
  destruct (generate sc md master (f / d) _) as [s|] eqn:G; [|discriminate]. cbv zeta in E.
  destruct (persist sc st (mkPart par vk s f l d) fault) as [st1 [[]| |]] eqn:P; [|discriminate..].
  assert (st1 = st') as -> by congruence. assert (p = mkPart par vk s f l d) as -> by congruence.
  exists s. eexists. split; [exact G|]. split; [reflexivity|]. split; [exact Hfl|]. split; [exact Hd|]. split; [rewrite map_length, range_length; lia|]. split; [reflexivity|exact P].
Qed.
Lemma bound_ok f l d : u64 l -> f <= l -> d <> 0 -> ~ (l = max64 /\ d = 1) -> f / d + (l / d - f / d + 1) <= two64.
Proof. intros Hl Hfl Hd Hn. apply lin2; [apply N.div_le_mono; assumption|apply div_small_max; assumption]. Qed.

(** Aging in memory. *)
Definition dels (d : N) (cs : list (N * (N -> bytes))) : list deletion := map (fun c => mkDel (round_id (fst c) d) d (snd c)) cs.
Lemma age_run proto d : d <> 0 -> forall cs p st s, part_dilution p = d -> run sc md (dels d cs) (voting p) = Some s ->
  exists st', age sc md proto cs p st = Some (mkPart (parent p) (vrf p) s (part_first p) (part_last p) d, st').
Proof.
  intros Hd. induction cs as [|[c rng] cs IH]; intros p st s Ed R.
  - cbn [dels map run] in R. assert (voting p = s) by congruence. exists st. cbn [age]. subst s d. destruct p; reflexivity.
  - cbn [dels map run fst snd cur per_batch] in R. cbn [OtsSpec.rng] in R. cbn [age]. unfold delete_old_keys. rewrite Ed. destruct (N.eqb_spec d 0); [contradiction|].
    rewrite ots_id_ok by exact Hd. cbv zeta. unfold round_id in R at 1.
    destruct (delete_before sc md (voting p) _ d rng) as [s1|] eqn:D; [|discriminate]. cbn [write_all].
    apply (IH (mkPart (parent p) (vrf p) s1 (part_first p) (part_last p) d)); [reflexivity|exact R].
Qed.
Lemma dels_ok d cs : d <> 0 -> u64 d -> Forall (fun c => round_ok (fst c) d) cs -> Forall del_ok (dels d cs).
Proof.
  intros Hd Hu F. apply Forall_map. eapply Forall_impl; [|exact F]. intros [c rng] Hc. destruct (round_id_ok c d Hd Hu Hc) as [A B].
  split; [exact A|]. split; [|exact Hu]. cbn. cbn in B. unfold u64, two64, max64 in *. lia.
Qed.
Lemma find_batch d cs b : match find (fun x => batch (cur x) =? b) (dels d cs) with Some x => per_batch x = d | None => True end.
Proof.
  destruct (find _ _) as [x|] eqn:E; [|exact I]. apply find_some in E. destruct E as [E _]. apply in_map_iff in E. destruct E as [c [<- _]]. reflexivity.
Qed.
Lemma available_rounds f l d cs r : f <= r <= l -> d <> 0 -> (available (f / d) (l / d - f / d + 1) (dels d cs) (round_id r d) <-> Forall (fun c => fst c <= r) cs).
Proof.
  intros Hr Hd. unfold available. split.
  - intros [_ [A _]]. apply Forall_forall. intros c Hc. destruct (N.le_gt_cases (fst c) r) as [|L]; [assumption|]. exfalso.
    specialize (A (mkDel (round_id (fst c) d) d (snd c)) (in_map _ _ _ Hc)). cbn [cur] in A. exact (lt_not_le _ _ (round_id_lt _ _ _ Hd L) A).
  - intros F. split; [|split].
    + cbn. pose proof (N.div_le_mono f r d Hd (proj1 Hr)) as Q1. pose proof (N.div_le_mono r l d Hd (proj2 Hr)) as Q2. revert Q1 Q2. generalize (f / d) (r / d) (l / d). clear. lia.
    + intros x Hx. apply in_map_iff in Hx. destruct Hx as [c [<- Hc]]. cbn [cur]. apply round_id_le; [exact Hd|]. rewrite Forall_forall in F. apply (F c Hc).
    + pose proof (find_batch d cs (batch (round_id r d))) as G. destruct (find _ _) as [x|]; [|exact I]. rewrite G. cbn. apply N.mod_lt. exact Hd.
Qed.
Lemma signs_can p r : scheme_correct sc -> signs sc md p r -> can_sign sc md p r.
Proof.
  intros SC S msg fresh. destruct (S msg fresh) as (o & E & [V|(sk & m & C & _)]); [exists o; split; assumption|]. rewrite SC in C. discriminate.
Qed.
Lemma coverage_any st par f l d master rng vk fault st' p proto cs : u64 l -> u64 d -> ~ (l = max64 /\ d = 1) ->
  fill_db sc md st par f l d master rng vk fault = (st', Ok p) -> Forall (fun c => round_ok (fst c) d) cs ->
  exists p' st'', age sc md proto cs p st' = Some (p', st'') /\ parent p' = par /\ vrf p' = vk /\ part_first p' = f /\ part_last p' = l /\ part_dilution p' = d /\ verifier (voting p') = verifier (voting p) /\
    forall r, f <= r <= l -> (Forall (fun c => fst c <= r) cs -> signs sc md p' r) /\ (Exists (fun c => r < fst c) cs -> cannot_sign sc md p' r).
Proof.
  intros Hl Hu Hn E F. destruct (fill_ok _ _ _ _ _ _ _ _ _ _ _ Hl E Hn) as [s [eks [G [-> [Hfl [Hd [Le _]]]]]]]. cbn [voting].
  pose proof (bound_ok f l d Hl Hfl Hd Hn) as Bd. rewrite <- Le in Bd. pose proof (dels_ok d cs Hd Hu F) as DO.
  destruct (usable_any sc md master (f / d) eks (dels d cs) (round_id f d) [] [] Bd DO) as [s0 [s1 [G0 [R0 [V0 _]]]]].
  { apply round_id_ok; [assumption..|]. split; [unfold u64 in *; lia|]. intros [-> ->]. apply Hn. split; [|reflexivity]. unfold u64, two64, max64 in *. lia. }
  assert (s0 = s) by congruence. subst s0.
  destruct (age_run proto d Hd cs (mkPart par vk s f l d) st' s1 eq_refl R0) as [st'' A]. eexists. exists st''. split; [exact A|]. cbn [parent vrf part_first part_last part_dilution voting].
  split; [reflexivity|]. split; [reflexivity|]. split; [reflexivity|]. split; [reflexivity|]. split; [reflexivity|]. split; [exact V0|]. intros r Hr.
  assert (RO : id_ok (round_id r d)).
  { apply round_id_ok; [assumption..|]. split; [unfold u64 in *; lia|]. intros [-> ->]. apply Hn. split; [|reflexivity]. unfold u64, two64, max64 in *. lia. }
  pose proof (available_rounds f l d cs r Hr Hd) as AV. rewrite <- Le in AV.
  split.
  - intros FA msg fresh. destruct (usable_any sc md master (f / d) eks (dels d cs) (round_id r d) msg fresh Bd DO RO) as [t0 [t1 [T1 [T2 [T3 [T4 _]]]]]].
    assert (t0 = s) by congruence. subst t0. assert (t1 = s1) by congruence. subst t1. cbn [part_dilution voting].
    destruct (T4 (proj2 AV FA)) as [o [O1 O2]]. exists o. split; [exact O1|]. rewrite T3. exact O2.
  - intros EX msg fresh. destruct (usable_any sc md master (f / d) eks (dels d cs) (round_id r d) msg fresh Bd DO RO) as [t0 [t1 [T1 [T2 [T3 [_ T5]]]]]].
    assert (t0 = s) by congruence. subst t0. assert (t1 = s1) by congruence. subst t1. cbn [part_dilution voting].
    apply T5. intros AVr. apply AV in AVr. apply Exists_exists in EX. destruct EX as [c [Hc Lc]]. rewrite Forall_forall in AVr. specialize (AVr c Hc). lia.
Qed.
Lemma coverage_lemma st par f l d master rng vk fault st' p proto cs : scheme_correct sc -> u64 l -> u64 d -> ~ (l = max64 /\ d = 1) ->
  fill_db sc md st par f l d master rng vk fault = (st', Ok p) -> Forall (fun c => round_ok (fst c) d) cs ->
  exists p' st'', age sc md proto cs p st' = Some (p', st'') /\ parent p' = par /\ vrf p' = vk /\ part_first p' = f /\ part_last p' = l /\ part_dilution p' = d /\ verifier (voting p') = verifier (voting p) /\
    forall r, f <= r <= l -> (Forall (fun c => fst c <= r) cs -> can_sign sc md p' r) /\ (Exists (fun c => r < fst c) cs -> cannot_sign sc md p' r).
Proof.
  intros SC Hl Hu Hn E F. destruct (coverage_any st par f l d master rng vk fault st' p proto cs Hl Hu Hn E F) as (p' & st'' & A & P1 & P2 & P3 & P4 & P5 & P6 & C).
  exists p', st''. repeat (split; [assumption|]). intros r Hr. destruct (C r Hr) as [C1 C2]. split; [|exact C2]. intros FA. apply signs_can; [exact SC|]. exact (C1 FA).
Qed.
Lemma make_batches_ok master start : forall eks i, start + i + N.of_nat (length eks) <= two64 -> exists ks, make_batches sc md master start i eks = Some ks.
Proof.
  induction eks as [|e eks IH]; intros i Hb; cbn [make_batches length] in *; [eauto|]. rewrite add64_ok by lia. destruct (IH (i + 1) ltac:(lia)) as [ks ->]. eauto.
Qed.
Lemma fill_defined st par f l d master rng vk : u64 l -> f <= l -> d <> 0 -> ~ (l = max64 /\ d = 1) ->
  exists p, fill_db sc md st par f l d master rng vk None = (fst (persist sc st p None), Ok p).
Proof.
  intros Hl Hfl Hd Hn. unfold fill_db. destruct (N.ltb_spec l f); [lia|]. rewrite !ots_id_ok by exact Hd.
  pose proof (N.div_le_mono f l d Hd Hfl) as Q. rewrite sub64_ok by exact Q. pose proof (div_small_max l d Hl Hd Hn) as B.
  rewrite add64_ok by (apply lin1; assumption). unfold generate.
  destruct (make_batches_ok master (f / d) (map rng (range 0 (l / d - f / d + 1))) 0) as [ks ->].
  { rewrite map_length, range_length, N2Nat.id, N.sub_0_r, N.add_0_r. apply lin2; assumption. }
  eexists. reflexivity.
Qed.
Lemma overlaps_lemma p first last : first <= last -> part_first p <= part_last p ->
  exists b, overlaps_interval p first last = Some b /\ (b = true <-> exists r, first <= r <= last /\ part_first p <= r <= part_last p).
Proof.
  intros H1 H2. unfold overlaps_interval. destruct (N.ltb_spec last first); [lia|]. eexists. split; [reflexivity|].
  rewrite andb_true_iff, !N.leb_le. split; [|intros [r Hr]; lia]. intros [A B]. exists (N.max first (part_first p)). lia.
Qed.
End Keys.
