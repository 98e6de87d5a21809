(** C47, C48, C53-C57 and C71. *)
From Coq Require Import Permutation.
From Verif Require Import Base BaseFacts Toy AddressModel BlockModel BlockSpec BlockProofs BlockBind TxCodecSpec TxProps UpgradeSpec MerkleArraySpec.
Local Open Scope N_scope.

(** ** Examples *)
Definition ex_block_header (u : upgrade_state) : header :=
  mkHeader 999 (repeat x01 32) (repeat x02 32) (repeat x03 32) 5000 (str "net-v1") genesis_x (mkRewards sink pool 0 0 0 500000)
    u (mkVote V30 0 false) 7 [].
Definition settled : upgrade_state := mkUpgrade V30 None 0 0 0.
Definition ex_prev : header := ex_block_header settled.
Definition member (g : bytes) (fee : N) : signed_tx :=
  mkSigned (repeat x05 64) None None (mkTx (mkTxHeader alice fee 100 200 [] [] genesis_x g zero32 zero32) (Payment (mkPayment bob 1 None))) zero32.

(** C47.  Encoding for a block fails exactly for transactions whose genesis fields do not fit the
    header, and decoding undoes it. *)
Theorem c47_encodes table h st ad p : params_of table h = Some p ->
  ((exists s, encode_signed_tx table h st ad = Ok s) <-> genesis_fields_ok p h (stx_tx st)) /\ encode_signed_tx table h st ad <> Panic.
Proof. intros Hp. exact (conj (encode_ok_iff table h st ad p Hp) (encode_no_panic table h st ad p Hp)). Qed.
Print Assumptions c47_encodes.
Theorem c47_round_trip table h st ad s : encode_signed_tx table h st ad = Ok s -> decode_signed_tx table h s = Ok (st, ad).
Proof. exact (round_trip table h st ad s). Qed.
Print Assumptions c47_round_trip.
Theorem c47_round_trip_back table h s t ad p : genesis_id h <> [] -> genesis_hash h <> zero32 ->
  params_of table h = Some p -> (support_signed_tx_in_block p = false -> has_genesis_id s = false /\ has_genesis_hash s = false) ->
  decode_signed_tx table h s = Ok (t, ad) -> encode_signed_tx table h t ad = Ok s.
Proof. intros G1 G2 P1 P2 D. exact (round_trip_back table h s t ad G1 G2 D (or_intror (ex_intro _ p (conj P1 P2)))). Qed.
Print Assumptions c47_round_trip_back.
Example c47_example :
  (exists s, encode_signed_tx built_in ex_prev (ex_signed 1) no_apply_data = Ok s /\ has_genesis_id s = true /\ has_genesis_hash s = false /\
     decode_signed_tx built_in ex_prev s = Ok (ex_signed 1, no_apply_data)) /\
  encode_signed_tx built_in ex_prev ex_cert_tx no_apply_data = Err MissingGenesisHash /\
  encode_signed_tx built_in (ex_block_header (mkUpgrade V12 None 0 0 0)) ex_cert_tx no_apply_data = Ok (mkStib (ex_cert_tx, no_apply_data) false false) /\
  genesis_id ex_prev <> [] /\ genesis_hash ex_prev <> zero32.
Proof.
  split; [eexists; split; [vm_compute; reflexivity|]; split; [reflexivity|]; split; [reflexivity|]; vm_compute; reflexivity|].
  split; [vm_compute; reflexivity|]. split; [vm_compute; reflexivity|]. split; discriminate.
Qed.

(** C48.  Splitting into groups and flattening. *)
Theorem c48_grouping l : grouping tx_group l (signed_txs_to_group l) /\ signed_tx_groups_flatten (signed_txs_to_group l) = l.
Proof. exact (conj (grouping_lemma tx_group l) (proj1 (grouping_lemma tx_group l))). Qed.
Print Assumptions c48_grouping.
(** The groups are the only ones possible. *)
Theorem c48_unique l gs : grouping tx_group l gs -> signed_txs_to_group l = gs.
Proof. intros G. exact (grouping_unique tx_group _ _ _ (grouping_lemma tx_group l) G). Qed.
Print Assumptions c48_unique.
(** The same for the transactions of a block. *)
Theorem c48_blocks table b gs : decode_payset_groups table b = Ok gs ->
  exists l, decode_payset_flat table b = Ok l /\ grouping (fun s => tx_group (fst s)) l gs.
Proof. exact (decode_groups_lemma table b gs). Qed.
Print Assumptions c48_blocks.
Example c48_example :
  let a := member (repeat x01 32) 1 in let b := member (repeat x01 32) 2 in let c := member (repeat x02 32) 3 in let d := member zero32 4 in
  signed_txs_to_group [d; a; b; c; d; d] = [[d]; [a; b]; [c]; [d]; [d]].
Proof. vm_compute. reflexivity. Qed.

(** C53.  False: making a block fails outright when no upgrade is pending and the protocol is not the
    one voted for by default (or knows an upgrade). *)
Theorem c53_new_fails_refuted table H m now prev p :
  lookup (current (upgrade prev)) table = Some p -> next_protocol (upgrade prev) = None -> vote_before (upgrade prev) = 0 ->
  (match approved_upgrades p with (k, _) :: _ => k | [] => CURRENT_CONSENSUS_VERSION end) <> current (upgrade prev) ->
  snd (new_block table H m now prev) = None.
Proof. exact (new_panics table H m now prev p). Qed.
Print Assumptions c53_new_fails_refuted.
Example c53_example_fails : Forall (fun v => snd (new_block built_in toy_hash Debug 5010 (ex_block_header (mkUpgrade v None 0 0 0))) = None) [V12; V23; V29; Future].
Proof. repeat (constructor; [vm_compute; reflexivity|]). constructor. Qed.
(** And where it succeeds, the previous header is changed, and the new header may fail the check against it. *)
Definition switching : upgrade_state := mkUpgrade V30 (Some Future) 9500 500 1000.
Theorem c53_own_check_refuted : exists prev prev' b, new_block built_in toy_hash Debug 5010 prev = (prev', Some b) /\
  snd (pre_check built_in toy_hash Debug (head b) prev) = Ok tt /\ snd (pre_check built_in toy_hash Debug (head b) prev') = Err CompetingProposal.
Proof.
  exists (ex_block_header switching), (ex_block_header (mkUpgrade Future None 0 0 0)). eexists.
  split; [vm_compute; reflexivity|]. split; vm_compute; reflexivity.
Qed.
Print Assumptions c53_own_check_refuted.
(** A new header passes against the previous header as it was before the call. *)
Theorem c53_passes_partial table H m now prev prev' b : new_block table H m now prev = (prev', Some b) ->
  (forall v p, lookup v table = Some p -> timestamp prev + max_timestamp_increment p < 2 ^ 64) ->
  genesis_id prev <> [] ->
  (forall p, lookup (current (upgrade (head b))) table = Some p -> (support_genesis_hash p = true <-> genesis_hash prev <> zero32)) ->
  snd (pre_check table H m (head b) prev) = Ok tt.
Proof. exact (new_passes table H m now prev prev' b). Qed.
Print Assumptions c53_passes_partial.
(** And against the changed one if the upgrade state stayed the same. *)
Theorem c53_passes_same_partial table H m now prev prev' b : new_block table H m now prev = (prev', Some b) ->
  (forall v p, lookup v table = Some p -> timestamp prev + max_timestamp_increment p < 2 ^ 64) ->
  genesis_id prev <> [] ->
  (forall p, lookup (current (upgrade (head b))) table = Some p -> (support_genesis_hash p = true <-> genesis_hash prev <> zero32)) ->
  upgrade (head b) = upgrade prev ->
  snd (pre_check table H m (head b) prev') = Ok tt.
Proof. exact (new_passes_same table H m now prev prev' b). Qed.
Print Assumptions c53_passes_same_partial.
Lemma increments v p : lookup v built_in = Some p -> max_timestamp_increment p = 25.
Proof.
  intros E. assert (F : Forall (fun e => max_timestamp_increment (snd e) = 25) built_in) by (repeat (constructor; [vm_compute; reflexivity|]); constructor).
  revert E F. generalize built_in as l. induction l as [|[w q] l IH]; intros E F; cbn [lookup] in E; [discriminate|]. inversion F; subst.
  destruct (version_eqb v w); [assert (q = p) as <- by congruence; assumption|apply IH; assumption].
Qed.
Example c53_example :
  (exists b, new_block built_in toy_hash Debug 5010 ex_prev = (ex_prev, Some b) /\ upgrade (head b) = upgrade ex_prev) /\
  (forall v p, lookup v built_in = Some p -> timestamp ex_prev + max_timestamp_increment p < 2 ^ 64) /\
  genesis_id ex_prev <> [] /\
  (forall p, lookup V30 built_in = Some p -> (support_genesis_hash p = true <-> genesis_hash ex_prev <> zero32)).
Proof.
  split; [eexists; split; [vm_compute; reflexivity|reflexivity]|]. split; [intros v p E; rewrite (increments v p E); vm_compute; reflexivity|].
  split; [discriminate|]. intros p E. assert (S : match lookup V30 built_in with Some q => support_genesis_hash q | None => false end = true) by (vm_compute; reflexivity).
  rewrite E in S. rewrite S. split; [discriminate|reflexivity].
Qed.

(** C54.  Timestamps of new blocks. *)
Theorem c54_time table H m now prev prev' b p : new_block table H m now prev = (prev', Some b) ->
  lookup (current (upgrade (head b))) table = Some p -> timestamp prev + max_timestamp_increment p < 2 ^ 64 ->
  (timestamp prev = 0 -> timestamp (head b) = now) /\
  (timestamp prev <> 0 -> timestamp prev <= timestamp (head b) <= timestamp prev + max_timestamp_increment p /\
     (timestamp prev <= now <= timestamp prev + max_timestamp_increment p -> timestamp (head b) = now)).
Proof. exact (new_block_time table H m now prev prev' b p). Qed.
Print Assumptions c54_time.
(** The check rejects every other timestamp. *)
Theorem c54_rejects table H m self prev p : successor_fits table prev self -> lookup (current (upgrade self)) table = Some p ->
  timestamp prev <> 0 -> timestamp self < timestamp prev \/ timestamp prev + max_timestamp_increment p < timestamp self ->
  snd (pre_check table H m self prev) <> Ok tt.
Proof. exact (rejects_time table H m self prev p). Qed.
Print Assumptions c54_rejects.
Example c54_example :
  map (fun now => match new_block built_in toy_hash Debug now ex_prev with (_, Some b) => Some (timestamp (head b)) | _ => None end)
    [0; 4999; 5000; 5001; 5025; 5026; 99999999] = map Some [5000; 5000; 5000; 5001; 5025; 5025; 5025].
Proof. vm_compute. reflexivity. Qed.

(** C55.  A header passes exactly if it is a valid successor. *)
Theorem c55_pre_check table H m self prev : successor_fits table prev self ->
  snd (pre_check table H m self prev) = Ok tt <-> successor table H prev self.
Proof. exact (pre_check_lemma table H m self prev). Qed.
Print Assumptions c55_pre_check.
(** The check changes nothing in the previous header but its upgrade state. *)
Theorem c55_effect table H m self prev : same_but_upgrade prev (fst (pre_check table H m self prev)).
Proof. exact (pre_check_same table H m self prev). Qed.
Print Assumptions c55_effect.
Definition ex_next (r : N) (br : bytes) (u : upgrade_state) (time : N) (id g : bytes) : header :=
  mkHeader r br zero32 zero32 time id g (mkRewards sink pool 0 0 0 0) u (mkVote V30 0 false) 0 [].
Definition ex_branch : bytes := header_hash toy_hash ex_prev.
Example c55_example :
  let ok h := match snd (pre_check built_in toy_hash Debug h ex_prev) with Ok _ => true | _ => false end in
  map ok [ex_next 1000 ex_branch settled 5010 (str "net-v1") genesis_x;
          ex_next 1001 ex_branch settled 5010 (str "net-v1") genesis_x;
          ex_next 1000 zero32 settled 5010 (str "net-v1") genesis_x;
          ex_next 1000 ex_branch (mkUpgrade V29 None 0 0 0) 5010 (str "net-v1") genesis_x;
          ex_next 1000 ex_branch settled 4999 (str "net-v1") genesis_x;
          ex_next 1000 ex_branch settled 5026 (str "net-v1") genesis_x;
          ex_next 1000 ex_branch settled 5010 (str "other") genesis_x;
          ex_next 1000 ex_branch settled 5010 (str "net-v1") zero32] = [true; false; false; false; false; false; false; false].
Proof. vm_compute. reflexivity. Qed.
Lemma periods_fit v p : lookup v built_in = Some p -> upgrade_vote_rounds p + N.max (default_upgrade_wait_rounds p) (max_upgrade_wait_rounds p) < 2 ^ 32.
Proof.
  intros E. assert (F : Forall (fun e => upgrade_vote_rounds (snd e) + N.max (default_upgrade_wait_rounds (snd e)) (max_upgrade_wait_rounds (snd e)) < 2 ^ 32) built_in)
    by (repeat (constructor; [vm_compute; reflexivity|]); constructor).
  revert E F. generalize built_in as l. induction l as [|[w q] l IH]; intros E F; cbn [lookup] in E; [discriminate|]. inversion F; subst.
  destruct (version_eqb v w); [assert (q = p) as <- by congruence; assumption|apply IH; assumption].
Qed.
Example c55_fits : successor_fits built_in ex_prev (ex_next 1000 ex_branch settled 5010 (str "net-v1") genesis_x).
Proof.
  split; [intros v p E; pose proof (periods_fit v p E); change (round ex_prev) with 999; lia|]. split; [vm_compute; reflexivity|]. split; [vm_compute; reflexivity|].
  intros v p E; rewrite (increments v p E); vm_compute; reflexivity.
Qed.

(** C56.  False: the upgrade state is left out of the hash. *)
Theorem c56_upgrade_state_refuted H : exists h h', header_hash H h = header_hash H h' /\ upgrade h <> upgrade h' /\
  current (upgrade h) <> current (upgrade h') /\ BlockSpec.header_fits h /\ BlockSpec.header_fits h'.
Proof.
  exists (ex_block_header settled), (ex_block_header (mkUpgrade V12 (Some V13) 5 6 7)). split; [reflexivity|]. split; [discriminate|]. split; [discriminate|].
  split; unfold BlockSpec.header_fits; repeat match goal with |- _ /\ _ => split | |- Forall _ _ => constructor | |- _ => vm_compute; reflexivity | |- _ => cbn; lia end.
Qed.
Print Assumptions c56_upgrade_state_refuted.
(** Everything else in the header is committed to. *)
Theorem c56_rest_partial H h h' : BlockSpec.header_fits h -> BlockSpec.header_fits h' -> header_hash H h = header_hash H h' ->
  same_but_upgrade h h' \/ collision_in H [header_rep h] [header_rep h'].
Proof. exact (header_hash_lemma H h h'). Qed.
Print Assumptions c56_rest_partial.
Example c56_example : BlockSpec.header_fits ex_prev /\ header_rep ex_prev <> header_rep (ex_next 1000 ex_branch settled 5010 (str "net-v1") genesis_x).
Proof.
  split; [|vm_compute; discriminate].
  unfold BlockSpec.header_fits; repeat match goal with |- _ /\ _ => split | |- Forall _ _ => constructor | |- _ => vm_compute; reflexivity | |- _ => cbn; lia end.
Qed.

(** C57.  False for the older protocols: two blocks with one commitment and different transactions. *)
Definition plain (i g : bytes) : signed_tx :=
  mkSigned (repeat x05 64) None None (mkTx (mkTxHeader alice 1 100 200 [] i g zero32 zero32 zero32) (Payment (mkPayment bob 1 None))) zero32.
Definition flag_block (i h : bool) (root : bytes) : block :=
  mkBlock (mkHeader 999 (repeat x01 32) (repeat x02 32) root 5000 (str "net-v1") genesis_x (mkRewards sink pool 0 0 0 500000)
    (mkUpgrade V15 None 0 0 0) (mkVote V30 0 false) 7 []) [mkStib (plain [] zero32, no_apply_data) i h].
Theorem c57_transactions_refuted H : exists b b', tx_root (head b) = tx_root (head b') /\
  contents_match_header built_in H b = Some true /\ contents_match_header built_in H b' = Some true /\
  decode_payset_flat built_in b = Ok [(plain (str "net-v1") zero32, no_apply_data)] /\
  decode_payset_flat built_in b' = Ok [(plain [] genesis_x, no_apply_data)].
Proof.
  exists (flag_block true false (commit_flat H (payset (flag_block true false zero32)))), (flag_block false true (commit_flat H (payset (flag_block true false zero32)))).
  split; [reflexivity|]. split; [apply flat_matches; vm_compute; reflexivity|]. split; [apply flat_matches; vm_compute; reflexivity|]. split; vm_compute; reflexivity.
Qed.
Print Assumptions c57_transactions_refuted.
(** In every case the two blocks have the same in-block transactions up to the two genesis flags. *)
Theorem c57_up_to_flags_partial table H b b' : hash32 H -> payset_fits b -> payset_fits b' -> tx_root (head b) = tx_root (head b') ->
  contents_match_header table H b = Some true -> contents_match_header table H b' = Some true ->
  Forall2 alike (payset b) (payset b') \/ collision_in H (commit_strings table H b) (commit_strings table H b') \/
  zero_preimage_in H (commit_strings table H b ++ commit_strings table H b').
Proof. exact (matching_lemma table H b b'). Qed.
Print Assumptions c57_up_to_flags_partial.
(** With a Merkle commitment (the protocols from V26) the transactions are the same. *)
Theorem c57_merkle_partial table H b b' l l' p p' : hash32 H -> block_fits table b -> block_fits table b' -> tx_root (head b) = tx_root (head b') ->
  contents_match_header table H b = Some true -> contents_match_header table H b' = Some true ->
  params_of table (head b) = Some p -> payset_commit p = Merkle -> params_of table (head b') = Some p' -> payset_commit p' = Merkle ->
  decode_payset_flat table b = Ok l -> decode_payset_flat table b' = Ok l' ->
  l = l' \/ collision_in H (commit_strings table H b) (commit_strings table H b') \/
  zero_preimage_in H (commit_strings table H b ++ commit_strings table H b').
Proof. exact (matching_merkle table H b b' l l' p p'). Qed.
Print Assumptions c57_merkle_partial.
(** And with any commitment where the genesis hash is required (from V16), on one chain. *)
Theorem c57_required_partial table H b b' l l' p : hash32 H -> payset_fits b -> payset_fits b' -> tx_root (head b) = tx_root (head b') ->
  contents_match_header table H b = Some true -> contents_match_header table H b' = Some true ->
  params_of table (head b) = Some p -> params_of table (head b') = Some p -> support_signed_tx_in_block p = true -> require_genesis_hash p = true ->
  genesis_id (head b) = genesis_id (head b') -> genesis_hash (head b) = genesis_hash (head b') ->
  decode_payset_flat table b = Ok l -> decode_payset_flat table b' = Ok l' ->
  l = l' \/ collision_in H (commit_strings table H b) (commit_strings table H b') \/
  zero_preimage_in H (commit_strings table H b ++ commit_strings table H b').
Proof. exact (matching_required table H b b' l l' p). Qed.
Print Assumptions c57_required_partial.
Definition two_txs (v : version) (a b : N) (root : bytes) : block :=
  mkBlock (mkHeader 999 (repeat x01 32) (repeat x02 32) root 5000 (str "net-v1") genesis_x (mkRewards sink pool 0 0 0 500000)
    (mkUpgrade v None 0 0 0) (mkVote V30 0 false) 7 [])
    [mkStib (member zero32 a, no_apply_data) true false; mkStib (member zero32 b, no_apply_data) false false].
Definition unhashed (b : block) : block :=
  mkBlock (head b) (map (fun s => mkStib (with_genesis_hash (fst (stib_tx s)) zero32, snd (stib_tx s)) (has_genesis_id s) (has_genesis_hash s)) (payset b)).
Example c57_example :
  (exists r, payset_commit_of built_in toy_hash (unhashed (two_txs V30 1 2 zero32)) = Some r /\ r <> zero32 /\
     contents_match_header built_in toy_hash (unhashed (two_txs V30 1 2 r)) = Some true /\
     contents_match_header built_in toy_hash (unhashed (two_txs V30 2 1 r)) = Some false /\
     contents_match_header built_in toy_hash (unhashed (two_txs V20 1 2 r)) = Some false) /\
  exists l, decode_payset_flat built_in (unhashed (two_txs V30 1 2 zero32)) = Ok l /\ length l = 2%nat.
Proof.
  split; [eexists; split; [vm_compute; reflexivity|]; split; [vm_compute; discriminate|]; split; [vm_compute; reflexivity|]; split; vm_compute; reflexivity|].
  eexists; split; [vm_compute; reflexivity|reflexivity].
Qed.
Example c57_fits : block_fits built_in (unhashed (two_txs V30 1 2 zero32)).
Proof.
  split.
  - split; [vm_compute; reflexivity|]. repeat (constructor; [split; [split; [reflexivity|split; exact I || exact I]|apply wfb_sound; vm_compute; reflexivity]|]). constructor.
  - intros l E. vm_compute in E. match type of E with Ok ?x = _ => assert (l = x) as -> by congruence end.
    repeat (constructor; [split; cbn; repeat split; vm_compute; reflexivity|]). constructor.
Qed.

(** C71.  The genesis block hands out no more than its rewards pool holds in one refresh interval. *)
Theorem c71_funded table H v gb id hash b : create_block table H v gb id hash = Some b ->
  exists p a, lookup v table = Some p /\ find (gb_rewards_pool gb) (balances gb) = Some a /\ rewards_rate_refresh_interval p <> 0 /\
    rate (rewards (head b)) * rewards_rate_refresh_interval p <= micro_algos a /\
    (initial_rewards_rate_calculation p = true -> min_balance p <= micro_algos a ->
       rate (rewards (head b)) * rewards_rate_refresh_interval p + min_balance p <= micro_algos a) /\
    (initial_rewards_rate_calculation p = true -> micro_algos a < min_balance p -> rate (rewards (head b)) = 0) /\
    recalculation_round (rewards (head b)) = rewards_rate_refresh_interval p.
Proof. exact (genesis_lemma table H v gb id hash b). Qed.
Print Assumptions c71_funded.
(** The same allocation in any order gives the same block. *)
Theorem c71_deterministic table H v gb l id hash : Permutation (balances gb) l -> NoDup (map fst (balances gb)) ->
  create_block table H v gb id hash = create_block table H v (mkBalances l (gb_fee_sink gb) (gb_rewards_pool gb) (gb_timestamp gb)) id hash.
Proof. exact (create_block_perm table H v gb l id hash). Qed.
Print Assumptions c71_deterministic.
(** It panics exactly without an allocation for the pool or with an unusable protocol. *)
Theorem c71_panics table H v gb id hash : create_block table H v gb id hash = None <->
  lookup v table = None \/ ~ In (gb_rewards_pool gb) (map fst (balances gb)) \/ exists p, lookup v table = Some p /\ rewards_rate_refresh_interval p = 0.
Proof. exact (create_block_panics table H v gb id hash). Qed.
Print Assumptions c71_panics.
Definition ex_account (n : N) : account := mkAccount Offline n 0 0 [] [] 0 0 0 [] [] [] [] [] (mkSchema 0 0) 0.
Definition ex_balances : genesis_balances := mkBalances [(alice, ex_account 77); (pool, ex_account 125000000000000)] sink pool 1560211200.
Example c71_example : exists b, create_block built_in toy_hash V30 ex_balances (str "net-v1") genesis_x = Some b /\
  rate (rewards (head b)) = 249999999 /\ genesis_hash (head b) = genesis_x /\ NoDup (map fst (balances ex_balances)).
Proof.
  eexists. split; [vm_compute; reflexivity|]. split; [reflexivity|]. split; [reflexivity|].
  constructor; [intros [E|[]]; discriminate|]. constructor; [intros []|constructor].
Qed.
