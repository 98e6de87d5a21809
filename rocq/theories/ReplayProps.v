(** C162. *)
From Verif Require Import Base BaseFacts Toy TxModel TxSpec TxProps BlockModel BlockSpec BlockProps ConfigProofs ReplayProofs.
Local Open Scope N_scope.

(** A well-formed transaction is alive in rounds at most the longest life of a transaction apart. *)
Theorem c162_window H m spec proto t c c' : limits_fit proto -> last_valid (tx_head t) < 2 ^ 64 - 1 ->
  is_well_formed H m spec proto t = Ok tt -> alive (tx_head t) c = Ok tt -> alive (tx_head t) c' = Ok tt ->
  ctx_round c' <= ctx_round c + max_tx_life proto.
Proof. exact (window_lemma H m spec proto t c c'). Qed.
Print Assumptions c162_window.
(** One with a genesis hash is alive on one network only, one with an identifier on networks of this identifier only. *)
Theorem c162_network h c c' : alive h c = Ok tt -> alive h c' = Ok tt -> tx_genesis_hash h <> zero32 -> ctx_genesis_hash c = ctx_genesis_hash c'.
Proof. exact (network_lemma h c c'). Qed.
Print Assumptions c162_network.
Theorem c162_identifier h c c' : alive h c = Ok tt -> alive h c' = Ok tt -> tx_genesis_id h <> [] -> ctx_genesis_id c = ctx_genesis_id c'.
Proof. exact (identifier_lemma h c c'). Qed.
Print Assumptions c162_identifier.
(** Where hashes are required there is one. *)
Theorem c162_required h c : alive h c = Ok tt -> support_genesis_hash (ctx_proto c) = true -> require_genesis_hash (ctx_proto c) = true ->
  tx_genesis_hash h <> zero32.
Proof. exact (alive_required h c). Qed.
Print Assumptions c162_required.
(** It can be put into blocks of one network only, and be taken from blocks of one network only. *)
Theorem c162_encode table h h' st ad ad' s s' p p' : encode_signed_tx table h st ad = Ok s -> encode_signed_tx table h' st ad' = Ok s' ->
  params_of table h = Some p -> params_of table h' = Some p' -> support_signed_tx_in_block p = true -> support_signed_tx_in_block p' = true ->
  require_genesis_hash p = true \/ tx_genesis_hash (tx_head (stx_tx st)) <> zero32 -> genesis_hash h = genesis_hash h'.
Proof. exact (encode_network table h h' st ad ad' s s' p p'). Qed.
Print Assumptions c162_encode.
Theorem c162_decode table h h' s s' st ad ad' p p' : decode_signed_tx table h s = Ok (st, ad) -> decode_signed_tx table h' s' = Ok (st, ad') ->
  params_of table h = Some p -> params_of table h' = Some p' -> support_signed_tx_in_block p = true -> support_signed_tx_in_block p' = true ->
  tx_genesis_hash (tx_head (stx_tx st)) <> zero32 -> genesis_hash h = genesis_hash h'.
Proof. exact (decode_network table h h' s s' st ad ad' p p'). Qed.
Print Assumptions c162_decode.
(** In the built-in protocols the longest life is 1000 rounds, and all from V16 on require the hash. *)
Definition before_v16 : list version := [V7; V8; V9; V10; V11; V12; V13; V14; V15].
Lemma c162_checked : forallb (fun e => (max_tx_life (snd e) =? 1000) &&
  (existsb (version_eqb (fst e)) before_v16 ||
   (support_genesis_hash (snd e) && require_genesis_hash (snd e) && support_signed_tx_in_block (snd e)))) built_in = true.
Proof. vm_compute. reflexivity. Qed.
Theorem c162_built_in v p : lookup v built_in = Some p -> max_tx_life p = 1000 /\
  (~ In v before_v16 -> support_genesis_hash p = true /\ require_genesis_hash p = true /\ support_signed_tx_in_block p = true).
Proof.
  intros E. apply lookup_In in E. pose proof c162_checked as C. rewrite forallb_forall in C. specialize (C _ E). cbn [fst snd] in C.
  apply andb_true_iff in C. destruct C as [C D]. apply N.eqb_eq in C. split; [exact C|]. intros N.
  apply orb_true_iff in D. destruct D as [D|D]; [|rewrite !andb_true_iff in D; tauto].
  apply existsb_exists in D. destruct D as [w [I V]]. exfalso. apply N. destruct v, w; try discriminate V; exact I.
Qed.
Print Assumptions c162_built_in.

(** A payment alive in rounds 100 to 200 of its network; one round later, or on a network of another hash, it is not, nor does it get into a block there. *)
Definition c162_context (r : N) (g : bytes) : context := mkContext r v24 (str "net-v1") g.
Definition c162_header (g : bytes) : header :=
  mkHeader 150 (repeat x01 32) (repeat x02 32) (repeat x03 32) 5000 (str "net-v1") g (mkRewards sink pool 0 0 0 500000)
    (mkUpgrade V24 None 0 0 0) (mkVote V24 0 false) 7 [].
Definition c162_signed : signed_tx := mkSigned (repeat x05 64) None None (ex_payment 1001) zero32.
Example c162_case :
  is_well_formed toy_hash Debug ex_spec v24 (ex_payment 1001) = Ok tt /\ tx_genesis_hash (tx_head (ex_payment 1001)) <> zero32 /\
  map (fun r => alive (tx_head (ex_payment 1001)) (c162_context r genesis_x)) [99; 100; 200; 201] = [Err Dead; Ok tt; Ok tt; Err Dead] /\
  alive (tx_head (ex_payment 1001)) (c162_context 150 alice) = Err TxModel.GenesisHashMismatch /\
  params_of built_in (c162_header genesis_x) = Some v24 /\
  (exists s, encode_signed_tx built_in (c162_header genesis_x) c162_signed no_apply_data = Ok s /\
    decode_signed_tx built_in (c162_header genesis_x) s = Ok (c162_signed, no_apply_data)) /\
  encode_signed_tx built_in (c162_header alice) c162_signed no_apply_data = Err UpgradeModel.GenesisHashMismatch.
Proof.
  split; [vm_compute; reflexivity|]. split; [vm_compute; discriminate|]. split; [vm_compute; reflexivity|]. split; [vm_compute; reflexivity|].
  split; [vm_compute; reflexivity|]. split; [|vm_compute; reflexivity].
  eexists. split; vm_compute; reflexivity.
Qed.
