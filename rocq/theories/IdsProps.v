(** C95-C101. *)
From Coq Require Import Permutation.
From Verif Require Import Base BaseFacts IdsModel IdsSpec IdsProofs BlockSpec TxCodecSpec TxSpec TxProps BlockProps Toy MerkleArraySpec.
From Verif Require MerkleArrayModel.
Local Open Scope N_scope.

(** C95.  A membership proof accepted against the transaction commitment of a matching block: the
    block has these transactions at these positions, or a collision (or zero preimage) is among
    the strings hashed. *)
Theorem c95_accepted_is_contained table H b p claims nodes proof : hash32 H -> block_fits table b ->
  params_of table (head b) = Some p -> payset_commit p = Merkle -> contents_match_header table H b = Some true ->
  Forall (fun c => tx_fits (fst (snd c)) /\ stib_fits (snd (snd c))) claims -> NoDup (map fst claims) ->
  Forall (fun h => length h = 32%nat) proof -> Permutation nodes (map (claim_item H) claims) -> sorted_by_position nodes ->
  MerkleArrayModel.verify H (tx_root (head b)) (map (claim_item H) claims) proof = Some (Ok tt) ->
  let S := commit_strings table H b ++ flat_map (claim_strings H) claims ++ climb_strings H 65 nodes proof in
  (forall q t s, In (q, (t, s)) claims -> contains table b q t s) \/ collision_in H S S \/ zero_preimage_in H S.
Proof. exact (inclusion_sound table H b p claims nodes proof). Qed.
Print Assumptions c95_accepted_is_contained.
(** And for every set of positions of such a block there is a proof that is accepted. *)
Theorem c95_contained_is_accepted table H b p claims es : params_of table (head b) = Some p -> payset_commit p = Merkle ->
  contents_match_header table H b = Some true -> len (payset b) <= 2 ^ 64 -> merkle_array table b = Ok es ->
  NoDup (map fst claims) -> (forall q e, In (q, e) claims -> nth_error es (N.to_nat q) = Some e) ->
  exists tr proof, tree_of_block table H b = Some tr /\ MerkleArrayModel.prove H tr (map fst claims) = Ok proof /\
    MerkleArrayModel.verify H (tx_root (head b)) (map (claim_item H) claims) proof = Some (Ok tt).
Proof. exact (inclusion_complete table H b p claims es). Qed.
Print Assumptions c95_contained_is_accepted.
(** Five payments in a block of the current protocol; a proof for positions 1 and 3. *)
Definition pay_tx (n : N) : signed_tx :=
  mkSigned (repeat x05 64) None None (mkTx (mkTxHeader alice n 100 200 [] [] zero32 zero32 zero32 zero32) (Payment (mkPayment bob 1 None))) zero32.
Definition five (root : bytes) : block :=
  mkBlock (head (two_txs V30 1 2 root)) (map (fun n => mkStib (pay_tx n, no_apply_data) true false) [1; 2; 3; 4; 5]).
Definition full_tx (n : N) : transaction :=
  mkTx (mkTxHeader alice n 100 200 [] (str "net-v1") genesis_x zero32 zero32 zero32) (Payment (mkPayment bob 1 None)).
Definition five_claim (q n : N) : N * (transaction * signed_tx_in_block) := (q, (full_tx n, mkStib (pay_tx n, no_apply_data) true false)).
Example c95_example :
  exists r tr proof, payset_commit_of built_in toy_hash (five zero32) = Some r /\ contents_match_header built_in toy_hash (five r) = Some true /\
    tree_of_block built_in toy_hash (five r) = Some tr /\ MerkleArrayModel.prove toy_hash tr [1; 3] = Ok proof /\
    length proof = 3%nat /\ Forall (fun h => length h = 32%nat) proof /\
    MerkleArrayModel.verify toy_hash r (map (claim_item toy_hash) [five_claim 1 2; five_claim 3 4]) proof = Some (Ok tt) /\
    MerkleArrayModel.verify toy_hash r (map (claim_item toy_hash) [five_claim 1 2; five_claim 3 5]) proof = Some (Err tt).
Proof. do 3 eexists. repeat (split; [vm_compute; first [reflexivity|repeat constructor]|]). vm_compute. reflexivity. Qed.
Example c95_contains : contains built_in (five zero32) 3 (full_tx 4) (mkStib (pay_tx 4, no_apply_data) true false).
Proof. do 3 eexists. split; [reflexivity|]. split; [vm_compute; reflexivity|]. split; reflexivity. Qed.

Example c95_fits : block_fits built_in (five zero32) /\
  Forall (fun c => tx_fits (fst (snd c)) /\ stib_fits (snd (snd c))) [five_claim 1 2; five_claim 3 4] /\
  sorted_by_position (map (claim_item toy_hash) [five_claim 1 2; five_claim 3 4]).
Proof.
  split; [split|split].
  - split; [vm_compute; reflexivity|]. repeat (constructor; [split; [split; [reflexivity|split; exact I || exact I]|apply BlockBind.wfb_sound; vm_compute; reflexivity]|]). constructor.
  - intros l E. vm_compute in E. match type of E with Ok ?x = _ => assert (l = x) as -> by congruence end.
    repeat (constructor; [split; cbn; repeat split; vm_compute; reflexivity|]). constructor.
  - repeat (constructor; [split; [split; cbn; repeat split; vm_compute; reflexivity|
      split; [split; [reflexivity|split; exact I || exact I]|apply BlockBind.wfb_sound; vm_compute; reflexivity]]|]). constructor.
  - intros i j a b Ei Ej L. destruct i as [|[|i]], j as [|[|j]]; cbn [map nth_error] in Ei, Ej; try lia; try (destruct i; discriminate); try (destruct j; discriminate); try discriminate.
    assert (a = claim_item toy_hash (five_claim 1 2) /\ b = claim_item toy_hash (five_claim 3 4)) as [-> ->] by (split; congruence). unfold claim_item. cbn [fst]. vm_compute. reflexivity.
Qed.

(** C96.  The elements are the decoded transactions with their in-block forms, in order; they are
    refused as the payset is. *)
Theorem c96_elements table b : merkle_array table b =
  match decode_payset_flat table b with Ok ts => Ok (combine (map (fun t => stx_tx (fst t)) ts) (payset b)) | Err e => Err e | Panic => Panic end.
Proof. exact (merkle_array_lemma table b). Qed.
Print Assumptions c96_elements.
(** The tree made from the block directly is the tree over the leaves of these elements; where they
    are refused it panics. *)
Theorem c96_tree table H b : match decode_payset_flat table b with
  | Ok ts => tree_of_block table H b =
      MerkleArrayModel.from_array H (map (fun e => leaf_string H (fst e) (snd e)) (combine (map (fun t => stx_tx (fst t)) ts) (payset b)))
  | _ => tree_of_block table H b = None
  end.
Proof. exact (tree_lemma table H b). Qed.
Print Assumptions c96_tree.
(** What is hashed for an element. *)
Theorem c96_leaf H t s : elem_rep H (t, s) = leaf_string H t s.
Proof. exact (elem_rep_string H t s). Qed.
Print Assumptions c96_leaf.
Example c96_example : exists tr, merkle_array built_in (five zero32) = Ok (map (fun n => snd (five_claim 0 n)) [1; 2; 3; 4; 5]) /\
  tree_of_block built_in toy_hash (five zero32) = Some tr /\ length tr = 4%nat /\
  merkle_array built_in (mkBlock (head (five zero32)) [mkStib (member genesis_x 1, no_apply_data) true true]) <> Panic.
Proof. eexists. split; [vm_compute; reflexivity|]. split; [vm_compute; reflexivity|]. split; [reflexivity|vm_compute; discriminate]. Qed.

(** C97.  The identifier of a group of signed transactions commits to all of them. *)
Theorem c97_commits H l l' : short l -> short l' -> Forall signed_fits l -> Forall signed_fits l' ->
  signed_txs_id H l = signed_txs_id H l' -> l = l' \/ collision_in H [signed_txs_rep l] [signed_txs_rep l'].
Proof. exact (signed_txs_id_lemma H l l'). Qed.
Print Assumptions c97_commits.
(** Although both have the same prefix, it is never the identifier of a group of transaction hashes. *)
Theorem c97_not_a_group l hs : short l -> short hs -> Forall signed_fits l -> Forall (fun h => length h = 32%nat) hs ->
  signed_txs_rep l <> tx_group_rep hs.
Proof. exact (group_reps_differ l hs). Qed.
Print Assumptions c97_not_a_group.
Example c97_example : Forall signed_fits [pay_tx 1; pay_tx 2] /\ signed_txs_id toy_hash [pay_tx 1; pay_tx 2] <> signed_txs_id toy_hash [pay_tx 2; pay_tx 1].
Proof.
  split; [|vm_compute; discriminate]. repeat (constructor; [split; [reflexivity|apply BlockBind.wfb_sound; vm_compute; reflexivity]|]). constructor.
Qed.

(** C98.  Networks without a dash in their names have different identifiers unless name and schema are the same. *)
Theorem c98_genesis_id g g' : ~ In "-"%byte (network g) -> ~ In "-"%byte (network g') -> genesis_id_of g = genesis_id_of g' ->
  network g = network g' /\ schema_id g = schema_id g'.
Proof. exact (genesis_id_lemma g g'). Qed.
Print Assumptions c98_genesis_id.
Definition no_account : account_data := mkAccountData Offline 0 0 0 zero32 zero32 0 0 0 [] [] zero32 [] [] (mkSchema 0 0) 0.
Definition ex_genesis (net schema : bytes) (l : list allocation) : genesis :=
  mkGenesis schema net V30 l (str "POOL") (str "SINK") 1600000000 [] false.
(** With dashes two networks can share one. *)
Example c98_example : genesis_id_of (ex_genesis (str "mainnet") (str "v1.0") []) = str "mainnet-v1.0" /\
  genesis_id_of (ex_genesis (str "a-b") (str "c") []) = genesis_id_of (ex_genesis (str "a") (str "b-c") []).
Proof. split; reflexivity. Qed.

(** C99.  The genesis hash commits to the whole genesis. *)
Theorem c99_commits H g g' : genesis_fits g -> genesis_fits g' -> genesis_hash_of H g = genesis_hash_of H g' ->
  g = g' \/ collision_in H [genesis_rep g] [genesis_rep g'].
Proof. exact (genesis_hash_lemma H g g'). Qed.
Print Assumptions c99_commits.
Definition with_assets (l : list (N * holding)) : genesis :=
  ex_genesis (str "net") (str "v1") [mkAllocation (str "ADDR") (str "wallet")
    (mkAccountData Online 5000000 0 0 (repeat x07 32) (repeat x08 32) 0 3000000 10000 [] l zero32 [] [] (mkSchema 0 0) 0)].
Example c99_example : genesis_fits (with_assets [(7, mkHolding 10 false)]) /\
  genesis_hash_of toy_hash (with_assets [(7, mkHolding 10 false)]) <> genesis_hash_of toy_hash (with_assets [(7, mkHolding 10 true)]).
Proof. split; [apply BlockBind.wfb_sound; vm_compute; reflexivity|vm_compute; discriminate]. Qed.

(** C100.  False: the hash depends on the order in which an account's maps are iterated. *)
Theorem c100_order_refuted : exists g g', same_genesis g g' /\ genesis_rep g <> genesis_rep g' /\
  (forall H, (forall a b, H a = H b -> a = b) -> genesis_hash_of H g <> genesis_hash_of H g').
Proof.
  exists (with_assets [(7, mkHolding 10 false); (8, mkHolding 3 false)]), (with_assets [(8, mkHolding 3 false); (7, mkHolding 10 false)]).
  assert (D : genesis_rep (with_assets [(7, mkHolding 10 false); (8, mkHolding 3 false)]) <> genesis_rep (with_assets [(8, mkHolding 3 false); (7, mkHolding 10 false)])) by (vm_compute; discriminate).
  split; [|split; [exact D|intros H Hi E; apply D, Hi, E]].
  repeat split; try reflexivity. cbn [allocations with_assets ex_genesis]. constructor; [|constructor]. repeat split; try reflexivity.
  - cbn. apply perm_swap.
  - exists []. split; constructor.
  - exists []. split; constructor.
Qed.
Print Assumptions c100_order_refuted.
(** True while no account has a map of more than one entry. *)
Theorem c100_order_partial H g g' : Forall (fun a => plain_account (alloc_state a)) (allocations g) -> same_genesis g g' ->
  genesis_hash_of H g = genesis_hash_of H g'.
Proof. intros P S. rewrite (same_genesis_small g g' P S). reflexivity. Qed.
Print Assumptions c100_order_partial.
Example c100_example : Forall (fun a => plain_account (alloc_state a)) (allocations (with_assets [(7, mkHolding 10 false)])).
Proof. repeat constructor. Qed.

(** C101.  False: different balance records have one hash, whatever the hash function. *)
Theorem c101_commits_refuted : exists a d d', d <> d' /\ forall H : bytes -> bytes, H (balance_record_rep a d) = H (balance_record_rep a d').
Proof.
  exists alice, no_account, (alloc_state (hd (mkAllocation [] [] no_account) (allocations (with_assets [])))). split; [discriminate|reflexivity].
Qed.
Print Assumptions c101_commits_refuted.
(** So have all of them. *)
Theorem c101_one_hash (H : bytes -> bytes) a d a' d' : H (balance_record_rep a d) = H (balance_record_rep a' d').
Proof. reflexivity. Qed.
Print Assumptions c101_one_hash.
