(** Property C149: a client that trusts one header hash. *)
From Coq Require Import Permutation.
From Verif Require Import Base Toy BlockModel BlockSpec BlockProps BlockBind TxModel TxCodecSpec TxSpec TxProps UpgradeSpec UpgradeProps IdsModel IdsSpec IdsProps ChainSpec ChainProps MerkleArraySpec LightProofs.
From Verif Require MerkleArrayModel.
Local Open Scope N_scope.

(** C149.  A client has checked headers [hs] that end with the trusted hash and accepts a membership
    proof against the [i]-th of them.  Then the chain of blocks [bs] that has this last hash contains the transactions in
    its [i]-th block, at these positions, and that block is the one of round [round g + i + 1]; or
    there is a collision, or a string hashed to zeros, among the strings named. *)
Theorem c149_sound :
  forall table H m g hs g' bs i h p claims nodes proof, hash32 H ->
  round g = round g' -> upgrade g = upgrade g' -> linked table H m g hs -> linked table H m g' (map head bs) ->
  Forall BlockSpec.header_fits (g :: hs) -> Forall BlockSpec.header_fits (g' :: map head bs) ->
  round g + N.of_nat (length hs) < 2 ^ 64 -> N.of_nat (length bs) < 2 ^ 64 ->
  header_hash H (last hs g) = header_hash H (last (map head bs) g') ->
  Forall (block_fits table) bs -> Forall (fun b => contents_match_header table H b = Some true) bs ->
  nth_error hs i = Some h -> params_of table h = Some p -> payset_commit p = Merkle ->
  Forall (fun c => tx_fits (fst (snd c)) /\ stib_fits (snd (snd c))) claims -> NoDup (map fst claims) ->
  Forall (fun x => length x = 32%nat) proof -> Permutation nodes (map (claim_item H) claims) -> sorted_by_position nodes ->
  MerkleArrayModel.verify H (tx_root h) (map (claim_item H) claims) proof = Some (Ok tt) ->
  (exists b, nth_error bs i = Some b /\ head b = h /\ round h = round g + N.of_nat i + 1 /\
     let S := commit_strings table H b ++ flat_map (claim_strings H) claims ++ climb_strings H 65 nodes proof in
     (forall q t s, In (q, (t, s)) claims -> contains table b q t s) \/ collision_in H S S \/ zero_preimage_in H S) \/
  collision_in H (map header_rep (g :: hs)) (map header_rep (g' :: map head bs)).
Proof. exact light_sound. Qed.
Print Assumptions c149_sound.

(** The five payments of C95 in the second of three blocks. *)
Definition light_block (g : header) (root : bytes) (txs : list signed_tx_in_block) : block :=
  mkBlock (mkHeader (round g + 1) (header_hash toy_hash g) zero32 root 5010 (str "net-v1") genesis_x (rewards g) settled (mkVote V30 0 false) 0 []) txs.
Definition light_start : header := Eval vm_compute in head (light_block ex_prev zero32 []).
Definition rooted (g : header) (txs : list signed_tx_in_block) : block :=
  match payset_commit_of built_in toy_hash (light_block g zero32 txs) with Some r => light_block g r txs | None => light_block g zero32 txs end.
Definition light_chain : list block := Eval vm_compute in
  let b1 := rooted light_start [] in let b2 := rooted (head b1) (payset (five zero32)) in let b3 := rooted (head b2) [] in [b1; b2; b3].
Definition light_header : header := Eval vm_compute in match nth_error light_chain 1 with Some b => head b | None => light_start end.
Example c149_case :
  linked built_in toy_hash Debug light_start (map head light_chain) /\
  nth_error (map head light_chain) 1 = Some light_header /\
  (exists p, params_of built_in light_header = Some p /\ payset_commit p = Merkle) /\
  Forall (fun b => contents_match_header built_in toy_hash b = Some true) light_chain /\
  (exists proof, length proof = 3%nat /\ Forall (fun h => length h = 32%nat) proof /\
   MerkleArrayModel.verify toy_hash (tx_root light_header) (map (claim_item toy_hash) [five_claim 1 2; five_claim 3 4]) proof = Some (Ok tt)).
Proof.
  split; [apply passes_linked; vm_compute; reflexivity|]. split; [reflexivity|]. split; [eexists; split; [reflexivity|vm_compute; reflexivity]|].
  split; [repeat (constructor; [vm_compute; reflexivity|]); constructor|].
  destruct c95_example as [r [tr [proof [E1 [_ [_ [_ [E2 [E3 [E4 _]]]]]]]]]]. exists proof. split; [exact E2|]. split; [exact E3|].
  assert (tx_root light_header = r) as -> by (vm_compute in E1; vm_compute; congruence). exact E4.
Qed.
Example c149_fits : Forall BlockSpec.header_fits (light_start :: map head light_chain) /\ Forall (block_fits built_in) light_chain.
Proof.
  split; [apply Forall_cons; [fits|]; apply Forall_cons; [fits|]; apply Forall_cons; [fits|]; apply Forall_cons; [fits|]; apply Forall_nil|].
  apply Forall_cons; [|apply Forall_cons; [|apply Forall_cons; [|apply Forall_nil]]].
  all: split; [split; [vm_compute; reflexivity|]; repeat (apply Forall_cons; [split; [split; [reflexivity|split; exact I || exact I]|apply BlockBind.wfb_sound; vm_compute; reflexivity]|]); apply Forall_nil|].
  all: intros l E; vm_compute in E; match type of E with Ok ?x = _ => assert (l = x) as -> by congruence end.
  all: repeat (apply Forall_cons; [split; cbn; repeat split; vm_compute; reflexivity|]); apply Forall_nil.
Qed.
