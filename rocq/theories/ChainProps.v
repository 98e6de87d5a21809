(** C120-C122. *)
From Verif Require Import Base Toy BlockModel BlockSpec BlockProps BlockBind TxCodecSpec TxProps UpgradeSpec UpgradeProps ChainSpec ChainProofs MerkleArraySpec.
Local Open Scope N_scope.

(** ** Examples *)
(** A chain on [g] with the given votes, upgrade states and times. *)
Fixpoint ex_chain (g : header) (l : list (upgrade_vote * upgrade_state * N)) : list header :=
  match l with
  | [] => []
  | (v, u, t) :: r =>
      let h := mkHeader (round g + 1) (header_hash toy_hash g) zero32 zero32 t (str "net-v1") (genesis_hash g) (rewards g) u v 0 [] in h :: ex_chain h r
  end.
Definition ex_headers : list header := Eval vm_compute in
  let v := mkVote V30 0 false in ex_chain ex_prev [(v, settled, 5010); (v, settled, 5010); (v, settled, 5035)].
(** With the quick upgrades of C51: the protocol is changed by vote in the sixth block. *)
Definition ex_first : header :=
  mkHeader 9 zero32 zero32 zero32 0 [] zero32 (mkRewards sink pool 0 0 0 0) ex_start no_vote 0 [].
Definition ex_voted : list header := Eval vm_compute in
  let p n := mkUpgrade V7 (Some V8) n 14 15 in
  ex_chain ex_first [(nothing, ex_start, 0); (mkVote V8 1 false, p 0, 70); (yes, p 1, 71); (yes, p 2, 75); (nothing, p 2, 76); (nothing, mkUpgrade V8 None 0 0 0, 76)].
Fixpoint passes table H m (g : header) (hs : list header) : bool :=
  match hs with
  | [] => true
  | h :: r => match snd (pre_check table H m h g) with Ok _ => passes table H m h r | _ => false end
  end.
Lemma passes_linked table H m g hs : passes table H m g hs = true -> linked table H m g hs.
Proof.
  revert g. induction hs as [|h hs IH]; intros g E; [exact I|]. cbn [passes] in E. cbn [linked].
  destruct (snd (pre_check table H m h g)) as [[]| |]; try discriminate. split; [reflexivity|apply IH; assumption].
Qed.
Ltac fits := unfold BlockSpec.header_fits; repeat match goal with |- _ /\ _ => split | |- Forall _ _ => constructor | |- _ => vm_compute; reflexivity | |- _ => cbn; lia end.

(** C120.  Two chains that begin in the same round with the same upgrade state and end with the
    same header hash are the same chain, upgrade states included. *)
Theorem c120_headers table H m g g' hs hs' : round g = round g' -> upgrade g = upgrade g' ->
  linked table H m g hs -> linked table H m g' hs' ->
  Forall BlockSpec.header_fits (g :: hs) -> Forall BlockSpec.header_fits (g' :: hs') ->
  N.of_nat (length hs) < 2 ^ 64 -> N.of_nat (length hs') < 2 ^ 64 ->
  header_hash H (last hs g) = header_hash H (last hs' g') ->
  (g = g' /\ hs = hs') \/ collision_in H (map header_rep (g :: hs)) (map header_rep (g' :: hs')).
Proof. exact (chain_lemma table H m g g' hs hs'). Qed.
Print Assumptions c120_headers.
(** And so are their transactions, if the blocks match their headers. *)
Theorem c120_blocks table H m g g' bs bs' : hash32 H -> round g = round g' -> upgrade g = upgrade g' ->
  linked table H m g (map head bs) -> linked table H m g' (map head bs') ->
  Forall BlockSpec.header_fits (g :: map head bs) -> Forall BlockSpec.header_fits (g' :: map head bs') ->
  N.of_nat (length bs) < 2 ^ 64 -> N.of_nat (length bs') < 2 ^ 64 ->
  Forall (block_fits table) bs -> Forall (block_fits table) bs' ->
  Forall (fun b => contents_match_header table H b = Some true) bs -> Forall (fun b => contents_match_header table H b = Some true) bs' ->
  header_hash H (last (map head bs) g) = header_hash H (last (map head bs') g') ->
  (g = g' /\ Forall2 (same_block table) bs bs') \/
  collision_in H (chain_strings table H g bs) (chain_strings table H g' bs') \/
  zero_preimage_in H (chain_strings table H g bs ++ chain_strings table H g' bs').
Proof. exact (block_chain_lemma table H m g g' bs bs'). Qed.
Print Assumptions c120_blocks.
Example c120_example : linked built_in toy_hash Debug ex_prev ex_headers /\ Forall BlockSpec.header_fits (ex_prev :: ex_headers) /\ length ex_headers = 3%nat.
Proof.
  split; [apply passes_linked; vm_compute; reflexivity|]. split; [|reflexivity].
  repeat (constructor; [fits|]); constructor.
Qed.
(** A block with two transactions on top of [ex_prev]. *)
Definition ex_body : list signed_tx_in_block := payset (unhashed (two_txs V30 1 2 zero32)).
Definition ex_branch_to : bytes := Eval vm_compute in header_hash toy_hash ex_prev.
Definition ex_block (root : bytes) : block :=
  mkBlock (mkHeader 1000 ex_branch_to zero32 root 5010 (str "net-v1") genesis_x (rewards ex_prev) settled (mkVote V30 0 false) 0 []) ex_body.
Definition ex_root : bytes := Eval vm_compute in match payset_commit_of built_in toy_hash (ex_block zero32) with Some r => r | None => [] end.
Example c120_example_blocks : exists r, linked built_in toy_hash Debug ex_prev (map head [ex_block r]) /\
  contents_match_header built_in toy_hash (ex_block r) = Some true /\ BlockSpec.header_fits (head (ex_block r)) /\ unambiguous built_in (ex_block r) /\
  exists l, decode_payset_flat built_in (ex_block r) = Ok l /\ length l = 2%nat.
Proof.
  exists ex_root.
  split; [apply passes_linked; vm_compute; reflexivity|]. split; [vm_compute; reflexivity|]. split; [fits|].
  split; [eexists; split; [reflexivity|left; vm_compute; reflexivity]|]. eexists; split; [vm_compute; reflexivity|reflexivity].
Qed.

(** C121.  Along a chain rounds are consecutive, *)
Theorem c121_rounds table H m g hs i h : linked table H m g hs -> round g + N.of_nat (length hs) < 2 ^ 64 -> nth_error hs i = Some h ->
  round h = round g + N.of_nat i + 1.
Proof. exact (rounds_lemma table H m g hs i h). Qed.
Print Assumptions c121_rounds.
(** the time never runs back nor ahead of the number of blocks, *)
Theorem c121_time table H m D g hs i j a b : linked table H m g hs -> Forall (fun h => timestamp h < 2 ^ 64) (g :: hs) ->
  (forall v p, lookup v table = Some p -> max_timestamp_increment p <= D) -> D < 2 ^ 64 ->
  (i <= j)%nat -> nth_error (g :: hs) i = Some a -> nth_error (g :: hs) j = Some b ->
  timestamp a <= timestamp b /\ (timestamp a <> 0 -> timestamp b <= timestamp a + N.of_nat (j - i) * D).
Proof. exact (time_lemma table H m D g hs i j a b). Qed.
Print Assumptions c121_time.
(** and the network stays the same: its name, *)
Theorem c121_genesis_id table H m g hs i j a b : linked table H m g hs -> (i <= j)%nat -> nth_error hs i = Some a -> nth_error hs j = Some b ->
  genesis_id a <> [] /\ genesis_id b = genesis_id a /\ (genesis_id g <> [] -> genesis_id b = genesis_id g).
Proof. exact (genesis_id_lemma table H m g hs i j a b). Qed.
Print Assumptions c121_genesis_id.
(** and the genesis hash as long as the protocols in force have one. *)
Theorem c121_genesis_hash table H m g hs i j a b : linked table H m g hs -> (i <= j)%nat -> nth_error hs i = Some a -> nth_error hs j = Some b ->
  hashed_from table hs i j -> genesis_hash a <> zero32 /\ genesis_hash b = genesis_hash a.
Proof. exact (genesis_hash_lemma table H m g hs i j a b). Qed.
Print Assumptions c121_genesis_hash.
Example c121_example : linked built_in toy_hash Debug ex_prev ex_headers /\ map round ex_headers = [1000; 1001; 1002] /\ map timestamp ex_headers = [5010; 5010; 5035] /\
  (forall v p, lookup v built_in = Some p -> max_timestamp_increment p <= 25) /\ hashed_from built_in ex_headers 0 2.
Proof.
  split; [exact (proj1 c120_example)|]. split; [vm_compute; reflexivity|]. split; [vm_compute; reflexivity|].
  split; [intros v p E; rewrite (increments v p E); lia|].
  intros k h [_ K] E. assert (Q : current (upgrade h) = V30) by (destruct k as [|[|[|]]]; [..|lia]; cbn in E; injection E as <-; reflexivity).
  rewrite Q. eexists; split; [reflexivity|vm_compute; reflexivity].
Qed.

(** C122.  On a chain the protocol changes only to one that a block proposed, that enough blocks
    approved before the deadline, and only in the announced round. *)
Theorem c122_voted_in table H m g hs i old new : linked table H m g hs -> idle (upgrade g) ->
  rounds_fit table (round g + 1 + N.of_nat (length hs)) -> round g + N.of_nat (length hs) < 2 ^ 64 ->
  changes (current (upgrade g)) (recorded hs) i old new -> voted_in table (recorded hs) i old new.
Proof. exact (voted_lemma table H m g hs i old new). Qed.
Print Assumptions c122_voted_in.
Example c122_example : linked quick_table toy_hash Debug ex_first ex_voted /\ idle (upgrade ex_first) /\
  rounds_fit quick_table (round ex_first + 1 + N.of_nat (length ex_voted)) /\ changes V7 (recorded ex_voted) 5 V7 V8.
Proof.
  split; [apply passes_linked; vm_compute; reflexivity|].
  split; [split; [right; reflexivity|repeat split; reflexivity]|]. split; [apply quick_fits; vm_compute; reflexivity|].
  split; [eexists; split; reflexivity|]. split; [eexists; split; reflexivity|discriminate].
Qed.
