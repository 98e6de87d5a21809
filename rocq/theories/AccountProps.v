(** Properties C68 to C70 and C74 to C77: participation keys, their store and the account manager. *)
From Verif Require Import Base BaseFacts Toy MsgpackModel Scheme ConsensusModel BasicsModel OtsModel OtsSpec AccountModel AccountSpec AccountProofs ManagerProofs.
From Verif Require AddressModel TxModel VrfModel UpgradeModel BlockModel RewardsModel Scheme.
Local Open Scope N_scope.

(** C68.  Generated keys sign for every round of their interval.  Missing from the full
    statement: the last round that fits 64 bits with one key per batch, see below. *)
Theorem c68_covers_partial :
  forall sc md st parent first last dilution master rng vrf_key fault st' p,
  scheme_correct sc -> u64 last -> u64 dilution -> ~ (last = max64 /\ dilution = 1) ->
  fill_db sc md st parent first last dilution master rng vrf_key fault = (st', Ok p) ->
  forall r, first <= r <= last -> can_sign sc md p r.
Proof.
  exact (fun sc md st par f l d master rng vk fault st' p SC Hl Hu Hn E r Hr =>
    match coverage_lemma sc md st par f l d master rng vk fault st' p v7_base [] SC Hl Hu Hn E (Forall_nil _) with
    | ex_intro _ p' (ex_intro _ st'' (conj A (conj _ (conj _ (conj _ (conj _ (conj _ (conj _ C)))))))) =>
        eq_ind_r (fun q => can_sign sc md q r) (proj1 (C r Hr) (Forall_nil _)) (f_equal (fun o => match o with Some (q, _) => q | None => p end) A)
    end).
Qed.
Print Assumptions c68_covers_partial.

(** After any sequence of deletions, exactly the rounds that none of them passed can be signed for. *)
Theorem c68_aged_partial :
  forall sc md st parent_addr first last dilution master rng vrf_key fault st' p proto cs,
  scheme_correct sc -> u64 last -> u64 dilution -> ~ (last = max64 /\ dilution = 1) ->
  fill_db sc md st parent_addr first last dilution master rng vrf_key fault = (st', Ok p) -> Forall (fun c => round_ok (fst c) dilution) cs ->
  exists p' st'', age sc md proto cs p st' = Some (p', st'') /\ parent p' = parent_addr /\ vrf p' = vrf_key /\
    part_first p' = first /\ part_last p' = last /\ part_dilution p' = dilution /\ verifier (voting p') = verifier (voting p) /\
    forall r, first <= r <= last ->
      (Forall (fun c => fst c <= r) cs -> can_sign sc md p' r) /\ (Exists (fun c => r < fst c) cs -> cannot_sign sc md p' r).
Proof. exact coverage_lemma. Qed.
Print Assumptions c68_aged_partial.

(** The same of schemes whose own signatures may fail to check, as strict verification makes ed25519. *)
Theorem c68_any_scheme_partial :
  forall sc md st parent_addr first last dilution master rng vrf_key fault st' p proto cs,
  u64 last -> u64 dilution -> ~ (last = max64 /\ dilution = 1) ->
  fill_db sc md st parent_addr first last dilution master rng vrf_key fault = (st', Ok p) -> Forall (fun c => round_ok (fst c) dilution) cs ->
  exists p' st'', age sc md proto cs p st' = Some (p', st'') /\ parent p' = parent_addr /\ vrf p' = vrf_key /\
    part_first p' = first /\ part_last p' = last /\ part_dilution p' = dilution /\ verifier (voting p') = verifier (voting p) /\
    forall r, first <= r <= last ->
      (Forall (fun c => fst c <= r) cs -> signs sc md p' r) /\ (Exists (fun c => r < fst c) cs -> cannot_sign sc md p' r).
Proof. exact coverage_any. Qed.
Print Assumptions c68_any_scheme_partial.

(** Generation succeeds for every ordered interval and dilution other than zero. *)
Theorem c68_generated :
  forall sc md st parent first last dilution master rng vrf_key,
  u64 last -> first <= last -> dilution <> 0 -> ~ (last = max64 /\ dilution = 1) ->
  exists p, fill_db sc md st parent first last dilution master rng vrf_key None = (fst (persist sc st p None), Ok p).
Proof. exact fill_defined. Qed.
Print Assumptions c68_generated.

Theorem c68_overlaps :
  forall p first last, first <= last -> part_first p <= part_last p ->
  exists b, overlaps_interval p first last = Some b /\ (b = true <-> exists r, first <= r <= last /\ part_first p <= r <= part_last p).
Proof. exact overlaps_lemma. Qed.
Print Assumptions c68_overlaps.

(** ** Concrete keys *)
Definition ex_scheme : scheme := {|
  public := toy_hash;
  sign_with := fun sk m => toy_tag (toy_hash sk) m;
  check := fun pk m s => bytes_eqb s (toy_tag pk m)
|}.
Definition any_point (s : bytes) : bool := true.
Definition ex_rng (c : byte) (i : N) : bytes := c :: b8 i :: repeat x00 30.
Definition ex_vrf (c : byte) : VrfModel.keypair := VrfModel.mkPair (repeat c 32) (repeat c 32).
Definition ex_fill (st : store) (c : byte) (first last dilution : N) : store * outcome acc_error participation :=
  fill_db ex_scheme Debug st (repeat c 32) first last dilution (repeat c 32) (ex_rng c) (ex_vrf c) None.
Definition part_of (o : store * outcome acc_error participation) : participation :=
  match snd o with Ok p => p | _ => mkPart [] (ex_vrf x00) (mkSecrets [] 0 [] 0 [] [] []) 0 0 0 end.

Theorem c68_last_round_refuted :
  exists sc st parent first last dilution master rng vrf_key st' p, scheme_correct sc /\ first <= last /\ u64 last /\ dilution <> 0 /\
  fill_db sc Debug st parent first last dilution master rng vrf_key None = (st', Ok p) /\ ~ can_sign sc Debug p last.
Proof.
  exists ex_scheme, empty_store, (repeat x0a 32), max64, max64, 1, (repeat x0a 32), (ex_rng x0a), (ex_vrf x0a), (fst (ex_fill empty_store x0a max64 max64 1)), (part_of (ex_fill empty_store x0a max64 max64 1)).
  split; [intros sk m; exact (bytes_eqb_refl (toy_tag (toy_hash sk) m))|]. split; [lia|]. split; [reflexivity|]. split; [discriminate|]. split; [vm_compute; reflexivity|].
  intros C. destruct (C [] []) as [s [E _]]. vm_compute in E. discriminate.
Qed.
Print Assumptions c68_last_round_refuted.

(** C69.  A participation is added exactly when none with the same address, interval and keys
    is held; the held ones are then the old ones and the new one, else nothing changes. *)
Theorem c69_add :
  forall H sc table m p, reachable H sc table m ->
  let r := add_participation H m p in
  (snd r = true <-> ~ exists q, In q (held_parts m) /\ same_keys q p) /\
  (snd r = true -> held_parts (fst r) = p :: held_parts m) /\ (snd r = false -> fst r = m).
Proof. exact add_lemma. Qed.
Print Assumptions c69_add.

Theorem c69_never_lost_adding :
  forall H m p q, In q (held_parts m) -> In q (held_parts (fst (add_participation H m p))).
Proof. exact never_lost_add. Qed.
Print Assumptions c69_never_lost_adding.

(** Deleting old keys leaves every participation held, with its address, interval and keys. *)
Theorem c69_never_lost_aging :
  forall H sc table md st m h sigs proto rngs faults st' m', reachable H sc table m ->
  delete_all_old_keys sc table md st m h sigs proto rngs faults = Some (st', m') -> Forall2 same_keys (held_parts m) (held_parts m').
Proof. exact aging_keeps. Qed.
Print Assumptions c69_never_lost_aging.

Theorem c69_distinct :
  forall H sc table m, reachable H sc table m ->
  forall i j p q, nth_error (held_parts m) i = Some p -> nth_error (held_parts m) j = Some q -> same_keys p q -> i = j.
Proof. exact distinct_lemma. Qed.
Print Assumptions c69_distinct.

(** The accounts counted as registered are those of the held participations, each once. *)
Theorem c69_registered :
  forall H sc table m, reachable H sc table m ->
  NoDup (registered m) /\ forall a, In a (registered m) <-> exists q, In q (held_parts m) /\ a = AddressModel.address_to_string H (parent q).
Proof. exact registered_lemma. Qed.
Print Assumptions c69_registered.

Theorem c69_keys :
  forall m r q, In q (keys m r) <-> In q (held_parts m) /\ part_first q <= r <= part_last q.
Proof. exact keys_lemma. Qed.
Print Assumptions c69_keys.

Theorem c69_live :
  forall m from to, from <= to -> (forall q, In q (held_parts m) -> part_first q <= part_last q) ->
  exists b, has_live_keys m from to = Some b /\
    (b = true <-> exists q r, In q (held_parts m) /\ from <= r <= to /\ part_first q <= r <= part_last q).
Proof. exact live_lemma. Qed.
Print Assumptions c69_live.

(** A reversed range panics unless nothing is held. *)
Theorem c69_live_reversed :
  forall m from to, to < from -> (has_live_keys m from to = None <-> held_parts m <> []).
Proof. exact live_panics. Qed.
Print Assumptions c69_live_reversed.

(** C70.  Stopping before the sixth write into a store without keys makes reading panic. *)
Theorem c70_fresh_refuted :
  forall sc is_point st p k, part_ok sc is_point p -> (forall key, In key (map fst (writes sc p)) -> st key = None) -> (k < 6)%nat ->
  restore sc is_point (after_crash st (writes sc p) k) = Panic.
Proof. exact fresh_crash. Qed.
Print Assumptions c70_fresh_refuted.

(** Over an older participation, the fields written so far are new and the others old. *)
Theorem c70_crash_partial :
  forall sc is_point st old new k, part_ok sc is_point new -> restore sc is_point st = Ok old ->
  restore sc is_point (after_crash st (writes sc new) k) = Ok (mixture k new old).
Proof. exact crash_lemma. Qed.
Print Assumptions c70_crash_partial.

(** A participation that was persisted is read back. *)
Theorem c70_persisted_partial :
  forall sc is_point st p, part_ok sc is_point p ->
  restore sc is_point (fst (persist sc st p None)) = Ok p /\ snd (persist sc st p None) = Ok tt.
Proof. exact persist_lemma. Qed.
Print Assumptions c70_persisted_partial.

(** The two calls that write one value are all or nothing. *)
Theorem c70_new_parent_atomic :
  forall sc is_point st old p k, length (parent p) = 32%nat -> restore sc is_point st = Ok old ->
  restore sc is_point (after_crash st [(str "part-parent", parent p)] k) =
  Ok (if (0 <? k)%nat then mkPart (parent p) (vrf old) (voting old) (part_first old) (part_last old) (part_dilution old) else old).
Proof. exact parent_crash. Qed.
Print Assumptions c70_new_parent_atomic.

Theorem c70_deletion_atomic :
  forall sc is_point st old s k, secrets_ok sc is_point s -> restore sc is_point st = Ok old ->
  restore sc is_point (after_crash st [(str "part-voting", encode (secrets_value sc (snapshot s)))] k) =
  Ok (if (0 <? k)%nat then mkPart (parent old) (vrf old) s (part_first old) (part_last old) (part_dilution old) else old).
Proof. exact voting_crash. Qed.
Print Assumptions c70_deletion_atomic.

Definition ex_p : participation := part_of (ex_fill empty_store x0a 1005 1031 10).
Definition ex_q : participation := part_of (ex_fill empty_store x0b 2000 2007 10).
Lemma ex_sizes : scheme_sizes ex_scheme any_point.
Proof.
  split; [intros s _; split; [apply toy_hash32|reflexivity]|]. split; [|reflexivity].
  intros s m. change (length (toy_tag (toy_hash s) m) = 64%nat). unfold toy_tag. rewrite app_length, !toy_hash32. reflexivity.
Qed.
Lemma ex_fill_is c first last dilution : u64 last -> first <= last -> dilution <> 0 -> ~ (last = max64 /\ dilution = 1) ->
  ex_fill empty_store c first last dilution = (fst (persist ex_scheme empty_store (part_of (ex_fill empty_store c first last dilution)) None), Ok (part_of (ex_fill empty_store c first last dilution))).
Proof.
  intros A B C D. destruct (fill_defined ex_scheme Debug empty_store (repeat c 32) first last dilution (repeat c 32) (ex_rng c) (ex_vrf c) A B C D) as [p E].
  fold (ex_fill empty_store c first last dilution) in E. rewrite E. reflexivity.
Qed.
Lemma ex_filled : fill_db ex_scheme Debug empty_store (repeat x0a 32) 1005 1031 10 (repeat x0a 32) (ex_rng x0a) (ex_vrf x0a) None = (fst (persist ex_scheme empty_store ex_p None), Ok ex_p).
Proof. apply (ex_fill_is x0a 1005 1031 10); [reflexivity|lia|discriminate|intros [? _]; discriminate]. Qed.
Lemma ex_filled_q : fill_db ex_scheme Debug empty_store (repeat x0b 32) 2000 2007 10 (repeat x0b 32) (ex_rng x0b) (ex_vrf x0b) None = (fst (persist ex_scheme empty_store ex_q None), Ok ex_q).
Proof. apply (ex_fill_is x0b 2000 2007 10); [reflexivity|lia|discriminate|intros [? _]; discriminate]. Qed.
Lemma ex_p_ok : part_ok ex_scheme any_point ex_p /\ part_ok ex_scheme any_point ex_q.
Proof.
  split; [refine (proj1 (filled_ok ex_scheme any_point ex_sizes _ _ _ _ _ _ _ _ _ _ _ _ _ _ _ _ _ _ _ _ ex_filled))|refine (proj1 (filled_ok ex_scheme any_point ex_sizes _ _ _ _ _ _ _ _ _ _ _ _ _ _ _ _ _ _ _ _ ex_filled_q))].
  all: try reflexivity. all: intros [E _]; discriminate E.
Qed.
(** A crash can leave a participation that was never made. *)
Theorem c70_mixture_refuted :
  exists sc is_point st old new k r, part_ok sc is_point new /\ restore sc is_point st = Ok old /\
  restore sc is_point (after_crash st (writes sc new) k) = Ok r /\ r <> old /\ r <> new.
Proof.
  exists ex_scheme, any_point, (fst (persist ex_scheme empty_store ex_p None)), ex_p, ex_q, 3%nat, (mixture 3 ex_q ex_p).
  pose proof (proj1 (persist_lemma ex_scheme any_point empty_store ex_p (proj1 ex_p_ok))) as R.
  split; [exact (proj2 ex_p_ok)|]. split; [exact R|]. split; [exact (crash_lemma ex_scheme any_point _ ex_p ex_q 3 (proj2 ex_p_ok) R)|].
  split; intros E; [apply (f_equal parent) in E|apply (f_equal part_first) in E]; vm_compute in E; discriminate.
Qed.
Print Assumptions c70_mixture_refuted.

(** C74.  Deleting old keys after a block keeps exactly what the next round and the next
    compact certificate need.  Missing from the full statement: the two panics below. *)
Theorem c74_kept_partial :
  forall sc table md st0 parent first last dilution master rng vrf_key fault st1 p0 proto0 cs p st2 m st h sigs proto rngs faults st' m' latest ty cert rest signed id,
  scheme_correct sc -> u64 last -> u64 dilution -> ~ (last = max64 /\ dilution = 1) ->
  fill_db sc md st0 parent first last dilution master rng vrf_key fault = (st1, Ok p0) -> Forall (fun c => round_ok (fst c) dilution) cs -> age sc md proto0 cs p0 st1 = Some (p, st2) ->
  In (id, p) (part_keys m) -> lookup (UpgradeModel.current (BlockModel.upgrade h)) table = Some latest ->
  BlockModel.compact_certs h = (ty, cert) :: rest -> sigs parent = Some signed ->
  BlockModel.round h + 1 < max64 -> BlockModel.cert_next_round cert + 1 < two64 -> signed + (compact_cert_rounds latest + 1) < two64 ->
  delete_all_old_keys sc table md st m h sigs proto rngs faults = Some (st', m') ->
  exists p', In (id, p') (part_keys m') /\ same_keys p p' /\
    forall r, first <= r <= last -> Forall (fun c => fst c <= r) cs ->
      (keep_from (BlockModel.round h) (BlockModel.cert_next_round cert) signed (compact_cert_rounds latest) <= r -> can_sign sc md p' r) /\
      (r < keep_from (BlockModel.round h) (BlockModel.cert_next_round cert) signed (compact_cert_rounds latest) -> cannot_sign sc md p' r).
Proof. exact (aging_lemma (fun x => x)). Qed.
Print Assumptions c74_kept_partial.

(** The same of schemes whose own signatures may fail to check. *)
Theorem c74_any_scheme_partial :
  forall sc table md st0 parent first last dilution master rng vrf_key fault st1 p0 proto0 cs p st2 m st h sigs proto rngs faults st' m' latest ty cert rest signed id,
  u64 last -> u64 dilution -> ~ (last = max64 /\ dilution = 1) ->
  fill_db sc md st0 parent first last dilution master rng vrf_key fault = (st1, Ok p0) -> Forall (fun c => round_ok (fst c) dilution) cs -> age sc md proto0 cs p0 st1 = Some (p, st2) ->
  In (id, p) (part_keys m) -> lookup (UpgradeModel.current (BlockModel.upgrade h)) table = Some latest ->
  BlockModel.compact_certs h = (ty, cert) :: rest -> sigs parent = Some signed ->
  BlockModel.round h + 1 < max64 -> BlockModel.cert_next_round cert + 1 < two64 -> signed + (compact_cert_rounds latest + 1) < two64 ->
  delete_all_old_keys sc table md st m h sigs proto rngs faults = Some (st', m') ->
  exists p', In (id, p') (part_keys m') /\ same_keys p p' /\
    forall r, first <= r <= last -> Forall (fun c => fst c <= r) cs ->
      (keep_from (BlockModel.round h) (BlockModel.cert_next_round cert) signed (compact_cert_rounds latest) <= r -> signs sc md p' r) /\
      (r < keep_from (BlockModel.round h) (BlockModel.cert_next_round cert) signed (compact_cert_rounds latest) -> cannot_sign sc md p' r).
Proof. exact (aging_any (fun x => x)). Qed.
Print Assumptions c74_any_scheme_partial.

(** With both at hand there is no panic. *)
Theorem c74_defined_partial :
  forall sc table md st m h sigs proto rngs faults latest ty cert rest,
  (forall q, In q (held_parts m) -> made sc md q) -> lookup (UpgradeModel.current (BlockModel.upgrade h)) table = Some latest ->
  BlockModel.compact_certs h = (ty, cert) :: rest -> BlockModel.round h + 1 < max64 -> BlockModel.cert_next_round cert + 1 < two64 ->
  (forall q, In q (held_parts m) -> exists signed, sigs (parent q) = Some signed /\ signed + (compact_cert_rounds latest + 1) < two64) ->
  exists st' m', delete_all_old_keys sc table md st m h sigs proto rngs faults = Some (st', m').
Proof. exact (aging_defined (fun x => x)). Qed.
Print Assumptions c74_defined_partial.

(** A header without compact certificate state, as the first blocks have, panics. *)
Theorem c74_no_state_refuted :
  forall sc table md st m h sigs proto rngs faults, BlockModel.compact_certs h = [] -> part_keys m <> [] ->
  delete_all_old_keys sc table md st m h sigs proto rngs faults = None.
Proof. exact aging_no_entry. Qed.
Print Assumptions c74_no_state_refuted.

(** So does an account that has signed no compact certificate yet. *)
Theorem c74_no_signature_refuted :
  forall sc table md st m h sigs proto rngs faults ty cert rest id p es, BlockModel.compact_certs h = (ty, cert) :: rest -> 0 < BlockModel.cert_next_round cert ->
  part_keys m = (id, p) :: es -> sigs (parent p) = None -> delete_all_old_keys sc table md st m h sigs proto rngs faults = None.
Proof. exact aging_no_record. Qed.
Print Assumptions c74_no_signature_refuted.

(** C75.  With a single participation, what is read back is what is in memory, after any deletions. *)
Theorem c75_single_partial :
  forall sc is_point, scheme_sizes sc is_point ->
  forall md st parent first last dilution master rng vrf_key st' p proto cs p' st'',
  u64 last -> u64 dilution -> dilution < 2 ^ 32 -> ~ (last = max64 /\ dilution = 1) -> last / dilution - first / dilution + 1 < 2 ^ 32 ->
  length parent = 32%nat -> length (VrfModel.private vrf_key) = 32%nat -> length (VrfModel.public_key vrf_key) = 32%nat -> length master = 32%nat ->
  (forall i, length (rng i) = 32%nat) -> Forall (fun c => u64 (fst c) /\ forall o, length (snd c o) = 32%nat) cs ->
  fill_db sc md st parent first last dilution master rng vrf_key None = (st', Ok p) -> age sc md proto cs p st' = Some (p', st'') ->
  restore sc is_point st'' = Ok p'.
Proof. exact stored_lemma. Qed.
Print Assumptions c75_single_partial.

Definition ex_header (cert : list (BlockModel.cert_type * BlockModel.cert_state)) : BlockModel.header :=
  BlockModel.mkHeader 1009 [] [] [] 0 [] [] (RewardsModel.mkRewards [] [] 0 0 0 0)
    (UpgradeModel.mkUpgrade V7 None 0 0 0) UpgradeModel.no_vote 0 cert.
Definition ex_manager : manager := fst (add_participation toy_hash (fst (add_participation toy_hash new_manager ex_p)) ex_q).
Definition ex_store : store := fst (persist ex_scheme (fst (persist ex_scheme empty_store ex_p None)) ex_q None).
Definition ex_aged : option (store * manager) :=
  delete_all_old_keys ex_scheme built_in Debug ex_store ex_manager (ex_header [(BlockModel.Basic, BlockModel.mkCertState [] 0 0)]) (fun _ => None) v7_base
    (fun _ => ex_rng x0c) (fun _ => None).
Lemma some_pair {A B} (o : option (A * B)) (P : A -> B -> Prop) : match o with Some (a, b) => P a b | None => False end -> exists a b, o = Some (a, b) /\ P a b.
Proof. destruct o as [[a b]|]; [intros X; exists a, b; auto|intros []]. Qed.
Lemma ex_reachable : reachable toy_hash ex_scheme built_in ex_manager.
Proof. unfold ex_manager. apply after_add, after_add, at_start. Qed.
(** Two participations share the store: after deletions what is read back mixes the address of
    one with the voting keys of the other. *)
Theorem c75_shared_refuted :
  exists H sc table md m st h sigs proto rngs st' m' r, reachable H sc table m /\
  delete_all_old_keys sc table md st m h sigs proto rngs (fun _ => None) = Some (st', m') /\
  restore sc any_point st' = Ok r /\ (exists q, In q (held_parts m') /\ parent r = parent q) /\
  Forall (fun q => parent r = parent q -> verifier (voting r) <> verifier (voting q)) (held_parts m').
Proof.
  exists toy_hash, ex_scheme, built_in, Debug, ex_manager, ex_store, (ex_header [(BlockModel.Basic, BlockModel.mkCertState [] 0 0)]), (fun _ => None), v7_base, (fun _ => ex_rng x0c).
  assert (E : exists st' m', ex_aged = Some (st', m') /\ exists r, restore ex_scheme any_point st' = Ok r /\
    (exists q, In q (held_parts m') /\ parent r = parent q) /\ Forall (fun q => parent r = parent q -> verifier (voting r) <> verifier (voting q)) (held_parts m')).
  { apply some_pair. assert (F : exists st' m', ex_aged = Some (st', m') /\ (exists r, restore ex_scheme any_point st' = Ok r /\ parent r = parent ex_q /\ verifier (voting r) = verifier (voting ex_p)) /\ map (fun q => (parent q, verifier (voting q))) (held_parts m') = [(parent ex_q, verifier (voting ex_q)); (parent ex_p, verifier (voting ex_p))]).
    { apply some_pair. vm_compute. split; [eexists; split; [reflexivity|split; reflexivity]|reflexivity]. }
    destruct F as [st' [m' [-> [[r [R [A V]]] M]]]]. exists r. split; [exact R|].
    destruct (held_parts m') as [|q1 [|q2 [|? ?]]]; try discriminate M. cbn [map] in M.
    assert (P1 : parent q1 = parent ex_q) by congruence. assert (V1 : verifier (voting q1) = verifier (voting ex_q)) by congruence.
    assert (P2 : parent q2 = parent ex_p) by congruence. clear M.
    split; [exists q1; split; [left; reflexivity|congruence]|].
    constructor; [intros _ C; rewrite V, V1 in C; vm_compute in C; discriminate|].
    constructor; [intros C; rewrite A, P2 in C; vm_compute in C; discriminate|constructor]. }
  destruct E as [st' [m' [E [r R]]]]. exists st', m', r. split; [exact ex_reachable|]. split; [exact E|exact R].
Qed.
Print Assumptions c75_shared_refuted.

(** C76.  Whatever the random source returns, generating a root account panics. *)
Theorem c76_generate_refuted :
  forall random, length (firstn 32 random) = 32%nat -> root_generate random = Panic.
Proof. exact generate_panics. Qed.
Print Assumptions c76_generate_refuted.

(** A stored root key pair is read back. *)
Theorem c76_restored_partial :
  forall is_point st kp, length kp = 64%nat -> is_point (skipn 32 kp) = true ->
  root_restore is_point (insert st (str "root") (encode (VBin kp))) = Ok kp.
Proof. exact root_restored. Qed.
Print Assumptions c76_restored_partial.

(** C77.  A registration transaction carries the participation's own keys, interval and sender ... *)
Theorem c77_carries :
  forall p fee first last lease,
  let t := generate_registration_transaction p fee first last lease in
  TxModel.sender (TxModel.tx_head t) = parent p /\ TxModel.fee (TxModel.tx_head t) = fee /\
  TxModel.first_valid (TxModel.tx_head t) = first /\ TxModel.last_valid (TxModel.tx_head t) = last /\ TxModel.lease (TxModel.tx_head t) = lease /\
  exists k, TxModel.fields t = TxModel.Keyreg k /\ TxModel.vote_pk k = verifier (voting p) /\ TxModel.selection_pk k = VrfModel.public_key (vrf p) /\
    TxModel.vote_first k = part_first p /\ TxModel.vote_last k = part_last p /\ TxModel.kr_key_dilution k = part_dilution p /\ TxModel.nonparticipation k = false.
Proof. exact registration_carries. Qed.
Print Assumptions c77_carries.

(** ... and is accepted exactly when the participation starts no later than right after its last round. *)
Theorem c77_accepted :
  forall H p fee first last lease md proto spec, part_first p <= part_last p -> part_last p <> 0 -> part_dilution p <> 0 ->
  verifier (voting p) <> Scheme.default_key -> VrfModel.public_key (vrf p) <> repeat x00 32 -> last + 1 < two64 ->
  let t := generate_registration_transaction p fee first last lease in
  (part_first p <= last + 1 -> TxModel.check_fields H md spec proto t = Ok tt) /\
  (last + 1 < part_first p -> enable_keyreg_coherency_check proto = true ->
   TxModel.check_fields H md spec proto t = Err TxModel.KeyregGoingOnlineWithFirstVoteAfterLastValid).
Proof. exact registration_lemma. Qed.
Print Assumptions c77_accepted.

(** ** Cases that meet the hypotheses *)
Lemma ex_correct : scheme_correct ex_scheme.
Proof. intros sk m. exact (bytes_eqb_refl (toy_tag (toy_hash sk) m)). Qed.
Example c68_case : can_sign ex_scheme Debug ex_p 1005 /\ can_sign ex_scheme Debug ex_p 1031.
Proof.
  split; refine (c68_covers_partial ex_scheme Debug _ _ _ _ _ _ _ _ _ _ _ ex_correct _ _ _ ex_filled _ _);
    solve [reflexivity|lia|intros [? _]; discriminate].
Qed.
Example c68_aged_case : exists p' st, age ex_scheme Debug v7_base [(1008, ex_rng x0c); (1022, ex_rng x0d)] ex_p (fst (persist ex_scheme empty_store ex_p None)) = Some (p', st) /\
  can_sign ex_scheme Debug p' 1022 /\ cannot_sign ex_scheme Debug p' 1021 /\ cannot_sign ex_scheme Debug p' 1005.
Proof.
  destruct (c68_aged_partial ex_scheme Debug _ _ _ _ _ _ _ _ _ _ _ v7_base [(1008, ex_rng x0c); (1022, ex_rng x0d)] ex_correct (eq_refl : u64 1031) (eq_refl : u64 10) (fun x => ltac:(destruct x; discriminate)) ex_filled) as [p' [st [A [_ [_ [_ [_ [_ [_ C]]]]]]]]].
  { repeat constructor; try reflexivity; cbn; lia. }
  exists p', st. split; [exact A|]. split; [|split]; (apply C; [lia|]); repeat constructor; cbn [fst]; try lia; apply Exists_cons_tl; constructor; cbn [fst]; lia.
Qed.
Example c68_overlaps_case : overlaps_interval ex_p 1000 1005 = Some true /\ overlaps_interval ex_p 1000 1004 = Some false /\ overlaps_interval ex_p 1031 1040 = Some true.
Proof. vm_compute. auto. Qed.
Example c69_add_case : snd (add_participation toy_hash ex_manager ex_p) = false /\ held_parts ex_manager = [ex_q; ex_p] /\
  snd (add_participation toy_hash ex_manager (mkPart (parent ex_p) (vrf ex_p) (voting ex_q) 1005 1031 10)) = true.
Proof. split; [vm_compute; reflexivity|]. split; vm_compute; reflexivity. Qed.
Example c69_keys_case : keys ex_manager 1031 = [ex_p] /\ keys ex_manager 1032 = [] /\ has_live_keys ex_manager 1032 1999 = Some false /\ has_live_keys ex_manager 1032 2000 = Some true /\ has_live_keys ex_manager 3 2 = None.
Proof. repeat split; vm_compute; reflexivity. Qed.
Example c69_registered_case :
  let m := fst (add_participation toy_hash ex_manager (mkPart (parent ex_p) (vrf ex_p) (voting ex_q) 1005 1031 10)) in
  length (held_parts m) = 3%nat /\ registered m = map (AddressModel.address_to_string toy_hash) [parent ex_q; parent ex_p].
Proof. split; vm_compute; reflexivity. Qed.
Example c70_persisted_case : restore ex_scheme any_point (fst (persist ex_scheme empty_store ex_p None)) = Ok ex_p.
Proof. exact (proj1 (c70_persisted_partial _ _ _ _ (proj1 ex_p_ok))). Qed.
Example c70_fresh_case : restore ex_scheme any_point (after_crash empty_store (writes ex_scheme ex_p) 5) = Panic.
Proof. apply c70_fresh_refuted; [exact (proj1 ex_p_ok)|reflexivity|lia]. Qed.
Example c74_case : exists st m' p', delete_all_old_keys ex_scheme built_in Debug ex_store (fst (add_participation toy_hash new_manager ex_p)) (ex_header [(BlockModel.Basic, BlockModel.mkCertState [] 0 1006)]) (fun _ => Some 900) v7_base (fun _ => ex_rng x0c) (fun _ => None) = Some (st, m') /\
  In p' (held_parts m') /\ can_sign ex_scheme Debug p' 1007 /\ cannot_sign ex_scheme Debug p' 1006.
Proof.
  set (h := ex_header [(BlockModel.Basic, BlockModel.mkCertState [] 0 1006)]).
  assert (E : exists st m', delete_all_old_keys ex_scheme built_in Debug ex_store (fst (add_participation toy_hash new_manager ex_p)) h (fun _ => Some 900) v7_base (fun _ => ex_rng x0c) (fun _ => None) = Some (st, m') /\ True) by (apply some_pair; vm_compute; exact I).
  destruct E as [st [m' [E _]]]. exists st, m'.
  destruct (c74_kept_partial ex_scheme built_in Debug _ _ _ _ _ _ _ _ _ _ _ v7_base [] ex_p _ (fst (add_participation toy_hash new_manager ex_p)) ex_store h (fun _ => Some 900) v7_base (fun _ => ex_rng x0c) (fun _ => None) st m' (match lookup V7 built_in with Some l => l | None => v7_base end) BlockModel.Basic (BlockModel.mkCertState [] 0 1006) [] 900 (identity_of ex_p)
    ex_correct (eq_refl : u64 1031) (eq_refl : u64 10) (fun x => ltac:(destruct x; discriminate)) ex_filled (Forall_nil _) eq_refl) as [p' [I' [_ K]]];
    [left; reflexivity|vm_compute; reflexivity|reflexivity|reflexivity|reflexivity|reflexivity|vm_compute; reflexivity|exact E|].
  exists p'. split; [exact E|]. split; [apply (in_map snd _ _ I')|]. split; (apply K; [lia|constructor|vm_compute; congruence]).
Qed.
Example c76_case : root_restore any_point (insert empty_store (str "root") (encode (VBin (repeat x07 64)))) = Ok (repeat x07 64).
Proof. apply c76_restored_partial; reflexivity. Qed.
Example c77_case : TxModel.check_fields toy_hash Debug (TxModel.mkSpecial [] []) v7_base (generate_registration_transaction ex_p 1000 1004 1004 (repeat x00 32)) = Ok tt.
Proof. vm_compute. reflexivity. Qed.
