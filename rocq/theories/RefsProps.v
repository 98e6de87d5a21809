(** C182, and the part of C48 on wrapped transactions. *)
From Verif Require Import Base Toy BasicsModel BasicsProps TxModel TxSpec TxProps BlockModel BlockSpec BlockProps RefsProofs.
Local Open Scope N_scope.

(** C182.  An index in a well-formed application call that stands for an account or an application lies within the limits
    of the protocol, and stands for the sender, the application called, or something that the call lists. *)
Theorem c182_references H m spec proto t c :
  is_well_formed H m spec proto t = Ok tt -> fields t = AppCall c -> limits_fit proto -> last_valid (tx_head t) < 2 ^ 64 - 1 ->
  (forall i a, address_by_index (refs_of c) i (sender (tx_head t)) = Some a ->
     i <= max_app_tx_accounts proto /\ (a = sender (tx_head t) \/ In a (app_accounts c))) /\
  (forall i a, app_id_by_index (refs_of c) i = Some a ->
     i <= max_app_tx_foreign_apps proto /\ (a = called_app c \/ In a (app_foreign_apps c))) /\
  (forall i j a b, address_by_index (refs_of c) i (sender (tx_head t)) = Some a -> app_id_by_index (refs_of c) j = Some b ->
     i + j <= max_app_total_tx_references proto).
Proof. exact (call_refs_lemma H m spec proto t c). Qed.
Print Assumptions c182_references.
Example c182_example : exists c, fields ex_call = AppCall c /\ is_well_formed toy_hash Debug ex_spec v30 ex_call = Ok tt /\ limits_fit v30 /\
  address_by_index (refs_of c) 1 alice = Some bob /\ app_id_by_index (refs_of c) 1 = Some 4 /\ app_id_by_index (refs_of c) 2 = None.
Proof.
  eexists. split; [reflexivity|]. split; [vm_compute; reflexivity|]. split; [apply (c42_limits V30); reflexivity|].
  split; [|split]; vm_compute; reflexivity.
Qed.

(** C48, transactions wrapped for a block: the same ones in the same order, without effects, and in the same groups. *)
Theorem c48_wrapped l :
  map fst (wrap_signed_txs_with_ad l) = l /\ Forall (fun s => snd s = no_apply_data) (wrap_signed_txs_with_ad l) /\
  grouping (fun s => tx_group (fst s)) (wrap_signed_txs_with_ad l) (map wrap_signed_txs_with_ad (signed_txs_to_group l)).
Proof. exact (wrap_lemma l). Qed.
Print Assumptions c48_wrapped.
Example c48_wrapped_example :
  let a := member (repeat x01 32) 1 in let b := member (repeat x01 32) 2 in let d := member zero32 4 in
  map wrap_signed_txs_with_ad (signed_txs_to_group [d; a; b]) = [[(d, no_apply_data)]; [(a, no_apply_data); (b, no_apply_data)]].
Proof. vm_compute. reflexivity. Qed.
