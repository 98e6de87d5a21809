(** C171 and C172. *)
From Verif Require Import Base BaseFacts Toy AddressModel BlockModel BlockSpec ChainSpec TxProps BlockProps ShaModel StartSpec StartProofs.
Local Open Scope N_scope.

(** C171.  Full statement: [create_block table H v gb id hash = Some b -> contents_match_header table H b = Some true].
    True of protocols that commit to transactions by one hash ... *)
Theorem c171_flat_partial table H v gb id hash b p : create_block table H v gb id hash = Some b -> lookup v table = Some p ->
  payset_commit p = Flat -> contents_match_header table H b = Some true.
Proof. intros E L. exact (proj1 (genesis_contents table H v gb id hash b p E L)). Qed.
Print Assumptions c171_flat_partial.
(** ... but of those that commit by a Merkle tree only if a string hashed to zeros is known, ... *)
Theorem c171_merkle_partial table H v gb id hash b p : create_block table H v gb id hash = Some b -> lookup v table = Some p ->
  payset_commit p = Merkle -> contents_match_header table H b = Some true <-> H (payset_rep []) = zero32.
Proof. exact (genesis_merkle table H v gb id hash b p). Qed.
Print Assumptions c171_merkle_partial.
(** ... so that with the hash function of the node the first block of every network with a protocol from V26 on does not match its header. *)
Theorem c171_refuted v gb id hash b : In v [V26; V27; V28; V29; V30; Future] ->
  create_block built_in sha512_256 v gb id hash = Some b -> contents_match_header built_in sha512_256 b = Some false.
Proof. exact (genesis_differs v gb id hash b). Qed.
Print Assumptions c171_refuted.
(** The check panics for those before V11; for the others it succeeds. *)
Theorem c171_panics_refuted H v gb id hash b : In v [V7; V8; V9; V10] ->
  create_block built_in H v gb id hash = Some b -> contents_match_header built_in H b = None.
Proof. exact (genesis_panics H v gb id hash b). Qed.
Print Assumptions c171_panics_refuted.
Theorem c171_built_in_partial H v gb id hash b : ~ In v [V7; V8; V9; V10; V26; V27; V28; V29; V30; Future] ->
  create_block built_in H v gb id hash = Some b -> contents_match_header built_in H b = Some true.
Proof. exact (genesis_matches H v gb id hash b). Qed.
Print Assumptions c171_built_in_partial.

(** C172.  From a genesis of the current protocol the node makes any number of blocks, at any times; each passes both checks. *)
Theorem c172_current_partial H m gb id hash g nows :
  create_block built_in H CURRENT_CONSENSUS_VERSION gb id hash = Some g -> id <> [] -> hash <> zero32 ->
  Forall (fun t => t + 25 < 2 ^ 64) (gb_timestamp gb :: nows) -> N.of_nat (length nows) < 2 ^ 64 ->
  exists bs, made_after built_in H m (head g) nows bs /\ length bs = length nows /\
    linked built_in H m (head g) (map head bs) /\ Forall (fun b => contents_match_header built_in H b = Some true) bs.
Proof. exact (from_genesis H m gb id hash g nows). Qed.
Print Assumptions c172_current_partial.
(** There is one result. *)
Theorem c172_one table H m h nows bs bs' : made_after table H m h nows bs -> made_after table H m h nows bs' -> bs = bs'.
Proof. exact (made_unique table H m h nows bs bs'). Qed.
Print Assumptions c172_one.
(** After a genesis of any other built-in protocol it cannot make a single one. *)
Theorem c172_refuted H m now v gb id hash g : v <> CURRENT_CONSENSUS_VERSION ->
  create_block built_in H v gb id hash = Some g -> snd (new_block built_in H m now (head g)) = None.
Proof. exact (others_stop H m now v gb id hash g). Qed.
Print Assumptions c172_refuted.
Example c171_case :
  let matches v := option_map (contents_match_header built_in sha512_256) (create_block built_in sha512_256 v ex_balances (str "net-v1") genesis_x) in
  (matches V30, matches V25, matches V10) = (Some (Some false), Some (Some true), Some None).
Proof. vm_compute. reflexivity. Qed.
(** Three blocks: the clock runs on, stands far ahead and runs back. *)
Definition c172_genesis : block :=
  match create_block built_in toy_hash V30 ex_balances (str "net-v1") genesis_x with Some g => g | None => mkBlock (ex_block_header settled) [] end.
Definition c172_next (now : N) (b : block) : block :=
  match new_block built_in toy_hash Debug now (head b) with (_, Some b') => b' | _ => b end.
Example c172_case :
  let b1 := c172_next 1560211204 c172_genesis in let b2 := c172_next 1560299999 b1 in let b3 := c172_next 1500000000 b2 in
  create_block built_in toy_hash V30 ex_balances (str "net-v1") genesis_x = Some c172_genesis /\
  made_after built_in toy_hash Debug (head c172_genesis) [1560211204; 1560299999; 1500000000] [b1; b2; b3] /\
  map (fun b => (round (head b), timestamp (head b))) [b1; b2; b3] = [(1, 1560211204); (2, 1560211229); (3, 1560211229)].
Proof.
  cbv zeta. split; [vm_cast_no_check (eq_refl (Some c172_genesis))|]. split; [|vm_compute; reflexivity].
  eapply made_next; [vm_compute; reflexivity|]. eapply made_next; [vm_compute; reflexivity|]. eapply made_next; [vm_compute; reflexivity|]. apply made_none.
Qed.
Example c172_case_fails :
  option_map (fun g => snd (new_block built_in toy_hash Debug 1560211204 (head g))) (create_block built_in toy_hash V29 ex_balances (str "net-v1") genesis_x) = Some None.
Proof. vm_compute. reflexivity. Qed.
