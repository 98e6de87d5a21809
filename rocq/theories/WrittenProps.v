(** C187. *)
From Verif Require Import Base AddressModel BlockModel BlockProps FilledSpec StibDecodeModel StibDecodeSpec WrittenProofs TxCodecSpec TxDecodeSpec GenDecodeSpec TxProps TxDecodeProps.
From Verif Require BlockBind.
Local Open Scope N_scope.

(** A call that names the genesis by its hash, and not by its identifier, with all kinds of signature. *)
Definition by_hash_call (id : bytes) : signed_tx :=
  mkSigned (stx_sig all_three) (stx_msig all_three) (stx_lsig all_three)
    (mkTx (mkTxHeader zero32 7 100 200 (str "hi") id (genesis_hash ex_prev) zero32 (repeat x05 32) zero32) (fields anon_call)) zero32.
Lemma by_hash_readable id : is_utf8 id -> short id -> readable (fun _ => true) true (fun _ => true) (by_hash_call id, no_apply_data).
Proof.
  intros U Si. constructor.
  2-8: vm_compute; reflexivity.
  - split; [exact (proj2 c103_partial_example)|]. split; [|split; [reflexivity|split; [intros [A|[A|A]]; apply A; reflexivity|right; reflexivity]]].
    destruct c102_example as [[[_ F] [_ K]] _].
    split; [split; [|exact F]|split; [|exact K]]; cbn.
    + unfold header_fits. cbn [sender fee first_valid last_valid note tx_genesis_id tx_genesis_hash group lease rekey_to].
      split; [vm_compute; reflexivity|]. split; [vm_compute; reflexivity|]. split; [vm_compute; reflexivity|]. split; [vm_compute; reflexivity|].
      split; [vm_compute; reflexivity|]. split; [exact Si|]. repeat split; vm_compute; reflexivity.
    + split; [exact U|]. repeat split; vm_compute; reflexivity.
  - split; constructor.
  - constructor.
  - constructor.
  - constructor.
  - contradiction.
Qed.

(** C187, full statement: transactions put into a block come out of what was written of the block's transactions.
    False in the protocols V11 to V15: one that names the genesis by its hash only comes out as another
    transaction, which names it by its identifier only. *)
Theorem c187_come_out_refuted : exists h t ss, readable (fun _ => true) true (fun _ => true) t /\ filled built_in (mkBlock h ss) [t] /\ wf (VArr (map stib_value ss)) /\
  exists ss' t', decode_payset (fun _ => true) true (fun _ => true) (encode (VArr (map stib_value ss))) = Some ss' /\
    decode_payset_flat built_in (mkBlock h ss') = Ok [t'] /\
    id_of (fst t) = [] /\ hash_of (fst t) = genesis_hash h /\ id_of (fst t') = genesis_id h /\ hash_of (fst t') = zero32 /\
    genesis_id h <> [] /\ genesis_hash h <> zero32.
Proof.
  exists (ex_block_header (mkUpgrade V12 None 0 0 0)), (by_hash_call [], no_apply_data), [mkStib (with_genesis_hash (by_hash_call []) zero32, no_apply_data) false true].
  split; [apply by_hash_readable; vm_compute; reflexivity|]. split; [repeat constructor; vm_compute; reflexivity|].
  split; [apply BlockBind.wfb_sound; vm_compute; reflexivity|].
  exists [mkStib (with_genesis_hash (by_hash_call []) zero32, no_apply_data) true false],
    (with_genesis_id (with_genesis_hash (by_hash_call []) zero32) (genesis_id ex_prev), no_apply_data).
  split; [vm_compute; reflexivity|]. split; [vm_compute; reflexivity|]. repeat split; try (vm_compute; reflexivity); discriminate.
Qed.
Print Assumptions c187_come_out_refuted.
(** What holds: they do, in order and unchanged, if they can be read and the protocol takes the hash as given, as all do from V16
    on, or all that name the genesis by its hash name it by its identifier as well. *)
Theorem c187_come_out_partial valid_key bins valid_sig table b ts rest : filled table b ts -> Forall (readable valid_key bins valid_sig) ts ->
  wf (VArr (map stib_value (payset b))) ->
  (forall p, params_of table (head b) = Some p -> support_signed_tx_in_block p = true -> require_genesis_hash p = true) \/
  Forall (fun t => hash_of (fst t) <> zero32 -> id_of (fst t) <> []) ts ->
  decode_payset valid_key bins valid_sig (encode (VArr (map stib_value (payset b))) ++ rest) = Some (payset b) /\ decode_payset_flat table b = Ok ts.
Proof. exact (written_lemma valid_key bins valid_sig table b ts rest). Qed.
Print Assumptions c187_come_out_partial.
Theorem c187_protocols v p : lookup v built_in = Some p -> In v [V11; V12; V13; V14; V15] <-> support_signed_tx_in_block p = true /\ require_genesis_hash p = false.
Proof.
  intros L. destruct v; vm_compute in L; try discriminate L; injection L as <-; cbn [support_signed_tx_in_block require_genesis_hash In];
    (split; [intros H; split; try reflexivity; repeat destruct H as [H|H]; try discriminate H; contradiction|intros [A B]; try discriminate A; try discriminate B; tauto]).
Qed.
Print Assumptions c187_protocols.
Example c187_example : exists ss, filled built_in (mkBlock ex_prev ss) [(by_hash_call (genesis_id ex_prev), no_apply_data)] /\
  Forall (readable (fun _ => true) true (fun _ => true)) [(by_hash_call (genesis_id ex_prev), no_apply_data)] /\
  wf (VArr (map stib_value ss)) /\ (forall p, params_of built_in ex_prev = Some p -> support_signed_tx_in_block p = true /\ require_genesis_hash p = true).
Proof.
  exists [mkStib (with_genesis_hash (with_genesis_id (by_hash_call (genesis_id ex_prev)) []) zero32, no_apply_data) true false].
  split; [repeat constructor; vm_compute; reflexivity|]. split; [constructor; [apply by_hash_readable; vm_compute; reflexivity|constructor]|].
  split; [apply BlockBind.wfb_sound; vm_compute; reflexivity|]. intros p P. vm_compute in P. injection P as <-. split; reflexivity.
Qed.
