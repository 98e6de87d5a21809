(** Property C131: encoded lengths. *)
From Coq Require Import Permutation.
From Verif Require Import Base MsgpackModel BlockBind TxModel TxCodecSpec TxProps LengthModel LengthProofs.

(** C131.  Equal transactions of a block have the same encoded length, whatever order
    their maps are in (the encodings themselves can differ, see C73). *)
Theorem c131_same_length : forall s s', same_stib s s' -> stib_encoded_length s = stib_encoded_length s'.
Proof. exact stib_size. Qed.
Print Assumptions c131_same_length.
Example c131_case : same_stib (stib_with two_deltas) (stib_with (rev two_deltas)) /\
  encode (stib_value (stib_with two_deltas)) <> encode (stib_value (stib_with (rev two_deltas))) /\
  stib_encoded_length (stib_with two_deltas) = stib_encoded_length (stib_with (rev two_deltas)).
Proof.
  split; [|split; vm_compute; [discriminate|reflexivity]].
  split; [reflexivity|]. split; [|split; reflexivity]. constructor. constructor; [apply Permutation_rev|exists []; split; constructor|constructor].
Qed.

(** The length is the number of bytes that are needed to read the transaction where it
    was written, whatever follows: with as many it is read, with fewer nothing is. *)
Theorem c131_bytes_needed : forall s rest, wf (signed_tx_value s) ->
  decode (firstn (signed_encoded_length s) (encode (signed_tx_value s) ++ rest)) = Some (signed_tx_value s) /\
  forall n, (n < signed_encoded_length s)%nat -> decode (firstn n (encode (signed_tx_value s) ++ rest)) = None.
Proof. exact signed_length. Qed.
Print Assumptions c131_bytes_needed.
Theorem c131_bytes_needed_in_block : forall s rest, wf (stib_value s) ->
  decode (firstn (stib_encoded_length s) (encode (stib_value s) ++ rest)) = Some (stib_value s) /\
  forall n, (n < stib_encoded_length s)%nat -> decode (firstn n (encode (stib_value s) ++ rest)) = None.
Proof. exact stib_length. Qed.
Print Assumptions c131_bytes_needed_in_block.
Example c131_case_needed : wf (signed_tx_value (ex_signed 1000)) /\ wf (stib_value (stib_with two_deltas)) /\
  (0 < signed_encoded_length (ex_signed 1000))%nat.
Proof. split; [apply wfb_sound; vm_compute; reflexivity|]. split; [apply wfb_sound; vm_compute; reflexivity|]. apply Nat.ltb_lt. vm_compute. reflexivity. Qed.
