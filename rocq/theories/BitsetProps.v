(** Property C14: the 256-bit set. *)
From Verif Require Import Base BitsetModel BitsetSpec BitsetProofs.
Local Open Scope N_scope.

(** C14.  After any history of set and clear calls on indices below 256, querying an
    index below 256 answers whether the last call touching it was a set; querying a
    larger one panics ([None]). *)
Theorem c14_bits_follow_history :
  forall ops, Forall (fun o => op_index o < 256) ops ->
  exists s, bit_run ops default_bitset = Some s /\
    (forall i, i < 256 -> exists v, bit i s = Some v /\ (v = true <-> last_was_set ops i)) /\
    (forall i, 256 <= i -> bit i s = None).
Proof. exact bitset_lemma. Qed.
Print Assumptions c14_bits_follow_history.

(** Setting or clearing an index of 256 or more panics, after any history. *)
Theorem c14_large_index_panics :
  forall ops o, Forall (fun o => op_index o < 256) ops -> 256 <= op_index o ->
  bit_run (ops ++ [o]) default_bitset = None.
Proof. exact bitset_panic_lemma. Qed.
Print Assumptions c14_large_index_panics.

(** The emptiness test answers whether no index is set. *)
Theorem c14_is_zero_means_empty :
  forall ops s, Forall (fun o => op_index o < 256) ops -> bit_run ops default_bitset = Some s ->
  is_zero s = true <-> forall i, i < 256 -> ~ last_was_set ops i.
Proof. exact bitset_zero_lemma. Qed.
Print Assumptions c14_is_zero_means_empty.

Example c14_case :
  exists s, bit_run [SetBit 0; SetBit 255; SetBit 64; ClearBit 64; SetBit 63] default_bitset = Some s /\
    bit 0 s = Some true /\ bit 255 s = Some true /\ bit 64 s = Some false /\ bit 63 s = Some true /\
    bit 256 s = None /\ is_zero s = false.
Proof. eexists. vm_compute. repeat split. Qed.
