(** C167. *)
From Verif Require Import Base ConsensusModel TxModel TxSpec BasicsProps TxProps TxCodecSpec TxDecodeSpec DecodedSpec TxSizeSpec AccountSizeProofs TxSizeProofs Toy.
Local Open Scope N_scope.

(** A transaction that can be in a block of a built-in protocol takes at most 24100 bytes. *)
Theorem c167_transaction :
  forall (H : bytes -> bytes) (m : mode) spec v c valid_key t,
  lookup v built_in = Some (ctx_proto c) -> len (ctx_genesis_id c) <= 255 -> (forall k, valid_key k = true -> h32 k) ->
  tx_typed valid_key t -> last_valid (tx_head t) < 2 ^ 64 - 1 -> acceptable H m spec c t ->
  tx_bytes t <= 24100.
Proof. exact acceptable_upto. Qed.
Print Assumptions c167_transaction.

(** A group of them, each signed by one key, fits into a block. *)
Theorem c167_group :
  forall (H : bytes -> bytes) (m : mode) spec v c valid_key valid_sig g,
  lookup v built_in = Some (ctx_proto c) -> len (ctx_genesis_id c) <= 255 -> (forall k, valid_key k = true -> h32 k) ->
  len g <= max_tx_group_size (ctx_proto c) ->
  Forall (fun s => signed_typed valid_key valid_sig s /\ plainly_signed s /\
                   last_valid (tx_head (stx_tx s)) < 2 ^ 64 - 1 /\ acceptable H m spec c (stx_tx s)) g ->
  group_bytes g <= max_tx_bytes_per_block (ctx_proto c).
Proof. exact acceptable_group. Qed.
Print Assumptions c167_group.

(** Hypotheses met by a call of an application and by a group of two payments. By its form alone a transaction can have any size: the name of the network is not limited. *)
Definition here : context := mkContext 150 v30 (str "net-v1") genesis_x.
Definition named (n : nat) : transaction :=
  mkTx (mkTxHeader alice 2000 100 200 [] (repeat "a"%byte n) genesis_x zero32 zero32 zero32) (Payment (mkPayment bob 5000 None)).
Example c167_case :
  lookup V30 built_in = Some (ctx_proto here) /\ tx_typed key32 ex_call /\ acceptable toy_hash Debug ex_spec here ex_call /\ tx_bytes ex_call = 375 /\
  len [ex_signed 1; ex_signed 2] <= max_tx_group_size (ctx_proto here) /\
  Forall (fun s => signed_typed key32 (fun _ => true) s /\ plainly_signed s /\
                   last_valid (tx_head (stx_tx s)) < 2 ^ 64 - 1 /\ acceptable toy_hash Debug ex_spec here (stx_tx s)) [ex_signed 1; ex_signed 2] /\
  group_bytes [ex_signed 1; ex_signed 2] = 464 /\
  is_well_formed toy_hash Debug ex_spec v30 (named (N.to_nat 30000)) = Ok tt /\ (24100 <? tx_bytes (named (N.to_nat 30000))) = true.
Proof.
  split; [reflexivity|]. split; [|split; [split; vm_compute; reflexivity|split; [vm_compute; reflexivity|split; [vm_compute; discriminate|split; [|split; [vm_compute; reflexivity|split; vm_compute; reflexivity]]]]]].
  - split; [|split; [repeat constructor|exact Logic.I]]. split; [|split; [repeat split|vm_compute; reflexivity]].
    split; cbn [tx_head ex_call fields fields_fit]; unfold header_fits, schema_fits; conjs; repeat (apply Forall_cons || apply Forall_nil); vm_compute; reflexivity.
  - repeat apply Forall_cons; try apply Forall_nil.
    all: split; [|split; [split; reflexivity|split; [vm_compute; reflexivity|split; vm_compute; reflexivity]]].
    all: split; [split; reflexivity|]; split; [exact Logic.I|]; split; [exact Logic.I|]; split; [|reflexivity].
    all: split; [|split; [repeat constructor|exact Logic.I]]; split; [|split; [repeat split|exact Logic.I]].
    all: split; cbn [tx_head ex_signed ex_payment stx_tx fields fields_fit]; unfold header_fits; conjs; first [exact Logic.I | vm_compute; reflexivity].
Qed.
