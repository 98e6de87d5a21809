(** C102-C103. *)
From Verif Require Import Base BaseFacts TxDecodeModel TxDecodeSpec TxDecodeProofs TxCodecSpec BlockBind JsonModel TxProps Toy.
From Verif Require MultisigModel.
Local Open Scope N_scope.

(** C102, refuted: the bytes of a transaction cannot be read back.  It holds of no transaction that is
    well formed, since its sender is written as bytes and read as a sequence of numbers. *)
Theorem c102_well_formed_is_unreadable valid_key H m spec proto t rest : tx_fits t -> is_well_formed H m spec proto t = Ok tt ->
  decode_tx valid_key (encode (tx_value t) ++ rest) = None.
Proof. exact (well_formed_unreadable valid_key H m spec proto t rest). Qed.
Print Assumptions c102_well_formed_is_unreadable.
Theorem c102_read_back_refuted : exists t, tx_fits t /\ is_well_formed toy_hash Debug ex_spec v24 t = Ok tt /\
  decode_tx (fun _ => true) (encode (tx_value t)) = None.
Proof. exists (ex_payment 2000). split; [vm_compute; repeat split; (exact I || reflexivity)|]. split; vm_compute; reflexivity. Qed.
Print Assumptions c102_read_back_refuted.
(** What holds: exactly the transactions naming no account are read back, and nothing else is ever
    read from a transaction's bytes. *)
Theorem c102_read_back_partial valid_key t rest : in_memory valid_key t ->
  (decode_tx valid_key (encode (tx_value t) ++ rest) = Some t <-> ~ mentions_address t) /\
  (forall t', decode_tx valid_key (encode (tx_value t) ++ rest) = Some t' -> t' = t).
Proof. exact (decode_tx_iff valid_key t rest). Qed.
Print Assumptions c102_read_back_partial.
Definition nobody : tx_header := mkTxHeader zero32 7 100 200 (str "hi") (str "net-v1") genesis_x zero32 (repeat x05 32) zero32.
Definition anon_call : transaction :=
  mkTx nobody (AppCall (mkAppCall 9 OptInOC [str "a"; str "bc"] [] [4] [5; 2 ^ 64 - 1] (mkSchema 1 2) (mkSchema 3 4) (str "prog") (str "clear") 1)).
Example c102_example : in_memory (fun _ => true) anon_call /\ ~ mentions_address anon_call /\
  decode_tx (fun _ => true) (encode (tx_value anon_call)) = Some anon_call /\
  in_memory (fun _ => true) (ex_payment 7) /\ mentions_address (ex_payment 7).
Proof.
  split; [split; [|split; [repeat split; vm_compute; reflexivity|vm_compute; reflexivity]]|].
  { split; [repeat split; vm_compute; reflexivity|]. cbn [fields_fit fields anon_call]. unfold schema_fits. repeat match goal with |- _ /\ _ => split | |- Forall _ _ => repeat apply Forall_cons; try apply Forall_nil end; vm_compute; reflexivity. }
  split; [intros [A|[A|A]]; apply A; reflexivity|].
  split; [vm_compute; reflexivity|]. split; [repeat split; vm_compute; (reflexivity || exact I)|]. left. discriminate.
Qed.

(** C103, refuted: a signed transaction with at most two of the three kinds of signature cannot be read
    back, since fields left out are not marked and the ones after them move up. *)
Theorem c103_signed_is_unreadable valid_key bins valid_sig s rest : wf (signed_tx_value s) -> one_signature s ->
  decode_signed valid_key bins valid_sig (encode (signed_tx_value s) ++ rest) = None.
Proof. exact (decode_signed_bad valid_key bins valid_sig s rest). Qed.
Print Assumptions c103_signed_is_unreadable.
(** In particular what signing gives. *)
Theorem c103_what_is_signed_is_unreadable valid_key bins valid_sig sc sk t rest : wf (signed_tx_value (sign sc sk t)) ->
  decode_signed valid_key bins valid_sig (encode (signed_tx_value (sign sc sk t)) ++ rest) = None.
Proof. intros W. exact (decode_signed_bad valid_key bins valid_sig _ rest W (sign_one_signature sc sk t)). Qed.
Print Assumptions c103_what_is_signed_is_unreadable.
Theorem c103_read_back_refuted : exists s, wf (signed_tx_value s) /\ one_signature s /\
  decode_signed (fun _ => true) true (fun _ => true) (encode (signed_tx_value s)) = None.
Proof. exists (ex_signed 1000). split; [apply wfb_sound; vm_compute; reflexivity|]. split; [right; left; reflexivity|]. vm_compute. reflexivity. Qed.
Print Assumptions c103_read_back_refuted.
(** One with all three is, if the transaction names no account. *)
Theorem c103_read_back_partial valid_key bins valid_sig s rest : wf (signed_tx_value s) -> all_signatures valid_key valid_sig s ->
  in_memory valid_key (stx_tx s) -> h32 (stx_auth s) -> ~ mentions_address (stx_tx s) -> stx_auth s = zero32 \/ bins = true ->
  decode_signed valid_key bins valid_sig (encode (signed_tx_value s) ++ rest) = Some s.
Proof. exact (decode_signed_all valid_key bins valid_sig s rest). Qed.
Print Assumptions c103_read_back_partial.
Definition ex_msig : MultisigModel.multisig := MultisigModel.mkMsig 1 1 [MultisigModel.mkSubsig bob None].
Definition all_three : signed_tx :=
  mkSigned (repeat x05 64) (Some ex_msig) (Some (mkLsig (str "prog") (repeat x06 64) ex_msig [str "arg"])) anon_call zero32.
Example c103_partial_example : wf (signed_tx_value all_three) /\ all_signatures (fun _ => true) (fun _ => true) all_three.
Proof.
  split; [apply wfb_sound; vm_compute; reflexivity|]. split; [repeat split; discriminate|]. split.
  - exists ex_msig. repeat split. constructor; [repeat split|constructor].
  - eexists. repeat split. constructor; [repeat split|constructor].
Qed.
Example c103_example :
  wf (signed_tx_value (sign toy_scheme (str "k") (ex_payment 7))) /\
  decode_signed (fun _ => true) false (fun _ => true) (encode (signed_tx_value all_three)) = Some all_three.
Proof. split; [apply wfb_sound; vm_compute; reflexivity|vm_compute; reflexivity]. Qed.
