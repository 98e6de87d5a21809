(** C184. *)
From Verif Require Import Base BaseFacts StibDecodeModel StibDecodeSpec StibDecodeProofs TxCodecSpec TxDecodeSpec GenDecodeSpec TxProps TxDecodeProps.
From Verif Require BlockBind.
Local Open Scope N_scope.
Local Ltac solve_small :=
  match goal with
  | |- n64 _ => vm_compute; reflexivity
  | |- delta_in_memory [] => split; constructor
  | |- NoDup (map fst []) => constructor
  | |- Forall _ [] => constructor
  end.

(** C184, full statement: the transactions of a block that were written are read back as they were, with
    their results and inner transactions.  False even where all signed transactions can be read: flags
    left out are not marked, so a transaction marked as naming the genesis by its hash only comes back
    marked as naming it by its identifier only. *)
Theorem c184_read_back_refuted : exists s, wf (VArr [stib_value s]) /\ readable (fun _ => true) false (fun _ => true) (stib_tx s) /\
  has_genesis_id s = false /\ has_genesis_hash s = true /\
  exists s', decode_payset (fun _ => true) false (fun _ => true) (encode (VArr [stib_value s])) = Some [s'] /\
    has_genesis_id s' = true /\ has_genesis_hash s' = false.
Proof.
  exists (mkStib (all_three, no_apply_data) false true). split; [apply BlockBind.wfb_sound; vm_compute; reflexivity|]. split.
  - constructor; try solve_small; [|contradiction].
    split; [exact (proj2 c103_partial_example)|]. split; [exact (proj1 c102_example)|]. split; [reflexivity|].
    split; [exact (proj1 (proj2 c102_example))|left; reflexivity].
  - split; [reflexivity|]. split; [reflexivity|]. exists (mkStib (all_three, no_apply_data) true false). split; [vm_compute; reflexivity|]. split; reflexivity.
Qed.
Print Assumptions c184_read_back_refuted.
(** Every transaction so marked comes back so, and everything else about it comes back as it was. *)
Theorem c184_hash_only valid_key bins valid_sig t rest : wf (stib_value (mkStib t false true)) -> readable valid_key bins valid_sig t ->
  decode_stib valid_key bins valid_sig (encode (stib_value (mkStib t false true)) ++ rest) = Some (mkStib t true false).
Proof. exact (decode_stib_ok valid_key bins valid_sig (mkStib t false true) rest). Qed.
Print Assumptions c184_hash_only.
(** Signed transactions that cannot be read make the transactions of the whole block unreadable,
    also if only an inner transaction is such a one. *)
Theorem c184_one_signature_refuted valid_key bins valid_sig p rest s t : wf (VArr (map stib_value p)) -> In t p -> within s (stib_tx t) ->
  one_signature s -> decode_payset valid_key bins valid_sig (encode (VArr (map stib_value p)) ++ rest) = None.
Proof. exact (decode_payset_bad valid_key bins valid_sig p rest s t). Qed.
Print Assumptions c184_one_signature_refuted.
(** What holds: the transactions of a block are read back if none is marked as naming the genesis by its hash
    only and all signed transactions, including inner ones, can be read. *)
Theorem c184_read_back_partial valid_key bins valid_sig p rest : wf (VArr (map stib_value p)) ->
  Forall (fun s => readable valid_key bins valid_sig (stib_tx s)) p ->
  (forall s, In s p -> has_genesis_hash s = true -> has_genesis_id s = true) ->
  decode_payset valid_key bins valid_sig (encode (VArr (map stib_value p)) ++ rest) = Some p.
Proof. exact (decode_payset_same valid_key bins valid_sig p rest). Qed.
Print Assumptions c184_read_back_partial.
Definition busy_results : apply_data :=
  mkAD 1 2 3 4 5
    (mkED [(str "counter", mkDelta SetUint [] 7); (str "name", mkDelta SetBytes (str "x") 0)] [(0, [(str "k", mkDelta Delete [] 0)]); (2, [])]
      [str "log line"] [(all_three, no_apply_data); (all_three, mkAD 0 0 0 0 0 (mkED [] [] [] [(all_three, no_apply_data)]) 9 0)]) 6 7.
Definition busy_payset : list signed_tx_in_block :=
  [mkStib (all_three, busy_results) true true; mkStib (all_three, no_apply_data) true false; mkStib (all_three, no_apply_data) false false].
Example c184_example : wf (VArr (map stib_value busy_payset)) /\
  Forall (fun s => readable (fun _ => true) true (fun _ => true) (stib_tx s)) busy_payset /\
  (forall s, In s busy_payset -> has_genesis_hash s = true -> has_genesis_id s = true) /\
  decode_payset (fun _ => true) true (fun _ => true) (encode (VArr (map stib_value busy_payset))) = Some busy_payset.
Proof.
  assert (R0 : signed_readable (fun _ => true) true (fun _ => true) all_three).
  { split; [exact (proj2 c103_partial_example)|]. split; [exact (proj1 c102_example)|]. split; [reflexivity|].
    split; [exact (proj1 (proj2 c102_example))|left; reflexivity]. }
  assert (R1 : readable (fun _ => true) true (fun _ => true) (all_three, no_apply_data)).
  { constructor; try exact R0; try solve_small. contradiction. }
  assert (R2 : readable (fun _ => true) true (fun _ => true) (all_three, mkAD 0 0 0 0 0 (mkED [] [] [] [(all_three, no_apply_data)]) 9 0)).
  { constructor; try exact R0; try solve_small. intros t [<-|[]]. exact R1. }
  assert (R3 : readable (fun _ => true) true (fun _ => true) (all_three, busy_results)).
  { constructor; try exact R0; try solve_small.
    - split; [|repeat constructor]. constructor; [intros [E|[]]; vm_compute in E; discriminate E|constructor; [intros []|constructor]].
    - constructor; [intros [E|[]]; vm_compute in E; discriminate E|constructor; [intros []|constructor]].
    - constructor; [|constructor; [|constructor]]; (split; [vm_compute; reflexivity|]); split; try constructor; try constructor; try (intros []); try constructor; vm_compute; reflexivity.
    - repeat constructor.
    - intros t [<-|[<-|[]]]; [exact R1|exact R2]. }
  split; [apply BlockBind.wfb_sound; vm_compute; reflexivity|]. split; [repeat apply Forall_cons; (assumption || apply Forall_nil)|].
  split; [intros s [<-|[<-|[<-|[]]]]; cbn; congruence|vm_compute; reflexivity].
Qed.
Example c184_inner_example : one_signature (ex_signed 1000) /\
  within (ex_signed 1000) (all_three, mkAD 0 0 0 0 0 (mkED [] [] [] [(ex_signed 1000, no_apply_data)]) 0 0) /\
  wf (VArr (map stib_value [mkStib (all_three, mkAD 0 0 0 0 0 (mkED [] [] [] [(ex_signed 1000, no_apply_data)]) 0 0) true true])).
Proof.
  split; [right; left; reflexivity|]. split; [apply (within_inner _ (ex_signed 1000, no_apply_data)); [left; reflexivity|constructor]|].
  apply BlockBind.wfb_sound. vm_compute. reflexivity.
Qed.
