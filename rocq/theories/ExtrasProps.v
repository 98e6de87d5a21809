(** C113-C117. *)
From Verif Require Import Base BaseFacts Toy ExtrasModel ExtrasSpec ExtrasProofs AccountModel.
From Verif Require TxModel MultisigModel.
Local Open Scope N_scope.

(** C113.  Two applications have different addresses, and the address of an application is not the hash of
    anything else the protocol hashes, multisig addresses included - unless two given strings collide. *)
Theorem c113_app_addresses_differ H a b : a < 2 ^ 64 -> b < 2 ^ 64 -> a <> b ->
  app_address H a = app_address H b -> collision_in H [app_rep a] [app_rep b].
Proof. exact (fun Ha Hb N E => match app_address_inj H a b Ha Hb E with or_introl e => False_ind _ (N e) | or_intror c => c end). Qed.
Print Assumptions c113_app_addresses_differ.
Theorem c113_app_addresses_apart H a i d : i <> APP_INDEX -> app_address H a = H (hash_rep i d) -> collision_in H [app_rep a] [hash_rep i d].
Proof. exact (app_address_apart H a i d). Qed.
Print Assumptions c113_app_addresses_apart.
Theorem c113_not_a_multisig H a d : app_address H a = H (MULTISIG_ADDRESS_PREFIX ++ d) -> collision_in H [app_rep a] [MULTISIG_ADDRESS_PREFIX ++ d].
Proof. exact (app_multisig_apart H a d). Qed.
Print Assumptions c113_not_a_multisig.
Example c113_example : app_rep 258 = str "appID" ++ [x00; x00; x00; x00; x00; x00; x01; x02] /\ app_address toy_hash 258 <> app_address toy_hash 259.
Proof. split; [reflexivity|]. vm_compute. discriminate. Qed.

(** C114.  Every read of a storage answers what was last stored for the id: in memory, and in the
    database for ids of 64 bits; so the two answer alike. *)
Theorem c114_memory_reads cs : snd (mem_run [] cs) = expected_loads [] cs.
Proof. exact (mem_loads_lemma cs). Qed.
Print Assumptions c114_memory_reads.
Theorem c114_database_reads cs : Forall (fun c => call_id c < 2 ^ 64) cs -> snd (sled_run [] cs) = expected_loads [] cs.
Proof. exact (sled_loads_lemma cs). Qed.
Print Assumptions c114_database_reads.
Example c114_reads_example :
  snd (sled_run [] [Store 1 [x05]; Store 257 [x06; x07]; Load 1; Store 1 []; Load 1; Load 257; Load 3]) = [Some [x05]; None; Some [x06; x07]; None].
Proof. reflexivity. Qed.
(** The size reported by the storage in memory is that of the contents held.  The same claim about the
    database is false: it reports zero. *)
Theorem c114_size_partial cs ids : live_ids cs ids -> mem_size (fst (mem_run [] cs)) = stored_bytes cs ids.
Proof. exact (mem_size_lemma cs ids). Qed.
Print Assumptions c114_size_partial.
Theorem c114_live_ids_exist cs : exists ids, live_ids cs ids.
Proof. exact (live_exists cs). Qed.
Print Assumptions c114_live_ids_exist.
Theorem c114_database_size_refuted : exists cs ids, live_ids cs ids /\ sled_size (fst (sled_run [] cs)) <> stored_bytes cs ids.
Proof.
  exists [Store 1 [x05]], [1]. split; [|vm_compute; discriminate]. split; [constructor; [intros []|constructor]|].
  intros id. cbn [last_stored In]. destruct (N.eqb_spec 1 id); split; intros E; try discriminate; try tauto.
Qed.
Print Assumptions c114_database_size_refuted.
Example c114_size_example : mem_size (fst (mem_run [] [Store 1 [x05]; Store 257 [x06; x07]; Store 1 [x08; x08; x08]; Store 9 [x01]; Store 9 []])) = 5.
Proof. reflexivity. Qed.

(** C115.  Identities of participations are equal exactly when they feed the same to a hasher: equal ones
    land in the same place of a hash table, and no difference is left out of the hash. *)
Theorem c115_hash_agrees a b : real_identity a -> real_identity b -> (identity_eqb a b = true <-> identity_feed a = identity_feed b).
Proof. exact (identity_feed_inj a b). Qed.
Print Assumptions c115_hash_agrees.
Example c115_example :
  let i n := mkIdentity (repeat x01 32) 0 n (repeat x02 32) (repeat x03 32) in
  real_identity (i 7) /\ real_identity (i 8) /\ identity_eqb (i 7) (i 8) = false /\ identity_eqb (i 7) (i 7) = true.
Proof. repeat split; reflexivity. Qed.

(** C116, full statement: two different state values are shown differently.  It is false: a number and a
    byte string can be shown alike.  Values of one type are shown differently. *)
Theorem c116_text_refuted : exists v w, v <> w /\ teal_text v = teal_text w.
Proof. exists (new_bytes [x10]), (new_uint 10). split; [discriminate|reflexivity]. Qed.
Print Assumptions c116_text_refuted.
Theorem c116_bytes_partial a b : teal_text (new_bytes a) = teal_text (new_bytes b) -> a = b.
Proof. exact (teal_bytes_text a b). Qed.
Print Assumptions c116_bytes_partial.
Theorem c116_numbers_partial a b : a < 2 ^ 64 -> b < 2 ^ 64 -> teal_text (new_uint a) = teal_text (new_uint b) -> a = b.
Proof. exact (teal_uint_text a b). Qed.
Print Assumptions c116_numbers_partial.
Example c116_example : teal_text (new_bytes [x00; xab; x5f]) = str "00ab5f" /\ teal_text (new_uint 18446744073709551615) = str "18446744073709551615".
Proof. split; vm_compute; reflexivity. Qed.

Definition no_msig : MultisigModel.multisig := MultisigModel.mkMsig 1 1 [].
(** C117.  The length of a logic signature counts every byte supplied, program and arguments. *)
Theorem c117_length l : ls_len l = N.of_nat (length (supplied l)).
Proof. exact (ls_len_lemma l). Qed.
Print Assumptions c117_length.
(** Full statement: it is reported empty exactly when its length is zero ("no content").  False if there
    are arguments and no program; true otherwise. *)
Theorem c117_empty_refuted : exists l, ls_is_empty l = true /\ ls_len l <> 0.
Proof. exists (TxModel.mkLsig [] [] no_msig [[x01]]). split; [reflexivity|discriminate]. Qed.
Print Assumptions c117_empty_refuted.
Theorem c117_empty_partial l : ls_len l = 0 -> ls_is_empty l = true.
Proof. exact (ls_empty_lemma l). Qed.
Print Assumptions c117_empty_partial.
Theorem c117_empty_no_arguments_partial l : TxModel.args l = [] -> (ls_is_empty l = true <-> ls_len l = 0).
Proof. exact (ls_empty_iff l). Qed.
Print Assumptions c117_empty_no_arguments_partial.
Example c117_example : ls_len (TxModel.mkLsig [x20; x01; x01; x22] [] no_msig [[x01; x02]; []; [x03]]) = 7.
Proof. reflexivity. Qed.
