(** C183. *)
From Verif Require Import Base Toy BlockModel BlockSpec BlockProps TxModel TxProps FilledSpec FilledProofs.
Local Open Scope N_scope.

(** C183.  Transactions with their results, put into a block one by one, come out of the block unchanged, in order, and in
    the groups in which they are. *)
Theorem c183_groups table b ts gs : filled table b ts -> grouping (fun s => tx_group (fst s)) ts gs ->
  decode_payset_flat table b = Ok ts /\ decode_payset_groups table b = Ok gs.
Proof. exact (filled_lemma table b ts gs). Qed.
Print Assumptions c183_groups.
(** In particular for signed transactions without results. *)
Theorem c183_signed table b l : filled table b (wrap_signed_txs_with_ad l) ->
  exists gs, decode_payset_groups table b = Ok gs /\ map (map fst) gs = signed_txs_to_group l /\ grouping tx_group l (map (map fst) gs).
Proof. exact (filled_signed_lemma table b l). Qed.
Print Assumptions c183_signed.
(** A block can be filled with all transactions whose genesis fields are right for its header. *)
Theorem c183_can_fill table h p ts : params_of table h = Some p -> Forall (fun t => genesis_fields_ok p h (stx_tx (fst t))) ts ->
  exists ss, filled table (mkBlock h ss) ts.
Proof. exact (can_fill table h p ts). Qed.
Print Assumptions c183_can_fill.
(** A group of two and one more transaction. *)
Definition ex_grouped (g : bytes) (n : N) : signed_tx :=
  let t := stx_tx (ex_signed n) in let h := tx_head t in
  mkSigned (stx_sig (ex_signed n)) (stx_msig (ex_signed n)) (stx_lsig (ex_signed n))
    (mkTx (mkTxHeader (sender h) (fee h) (first_valid h) (last_valid h) (note h) (tx_genesis_id h) (tx_genesis_hash h) g (lease h) (rekey_to h)) (fields t))
    (stx_auth (ex_signed n)).
Example c183_example :
  let a := ex_grouped (repeat x01 32) 1 in let b := ex_grouped (repeat x01 32) 2 in let c := ex_signed 3 in
  exists ss, filled built_in (mkBlock ex_prev ss) (wrap_signed_txs_with_ad [a; b; c]) /\ length ss = 3%nat /\
    signed_txs_to_group [a; b; c] = [[a; b]; [c]].
Proof.
  eexists [_; _; _]. split; [|split; [reflexivity|vm_compute; reflexivity]].
  unfold filled. cbn [head payset wrap_signed_txs_with_ad map]. repeat constructor; vm_compute; reflexivity.
Qed.
