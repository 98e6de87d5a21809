(** C191. *)
From Verif Require Import Base Toy TrieModel TrieSpec TrieLongProofs.
Local Open Scope N_scope.

(** C191, full statement: a key that was added to the trie can be deleted again, whatever its length.  False for keys of 2^32 bytes
    and more: the first one is added, and asking for its deletion is an error; *)
Theorem c191_deleted_refuted H m (d : bytes) : 2 ^ 32 <= N.of_nat (length d) ->
  exists t, run H m [Add d] new_trie = Ok ([RBool true], t) /\ step H m (Delete d) t = Err ElementLengthMismatch.
Proof. exact (long_key H m d). Qed.
Print Assumptions c191_deleted_refuted.
(** after any history no such key is deleted. *)
Theorem c191_never_refuted H m ops xs t d : run H m ops new_trie = Ok (xs, t) -> 2 ^ 32 <= N.of_nat (length d) ->
  step H m (Delete d) t = Err ElementLengthMismatch \/ step H m (Delete d) t = Ok (RBool false, t).
Proof. exact (never_deleted H m ops xs t d). Qed.
Print Assumptions c191_never_refuted.
(** Every shorter key can be added, deleted and added again; histories with more keys are C07. *)
Theorem c191_deleted_partial H m (d : bytes) : hash32 H -> N.of_nat (length d) < 2 ^ 32 ->
  exists t, run H m [Add d; Delete d; Add d; RootHash; Delete d; RootHash] new_trie =
    Ok ([RBool true; RBool true; RBool true; RHash (set_root H (length d) [d]); RBool true; RHash zero32], t).
Proof. exact (short_key H m d). Qed.
Print Assumptions c191_deleted_partial.
(** C12: lengths are told apart up to multiples of 2^32 only.  After a key of 2^32 more bytes than another was added, asking for the
    deletion of the other one is not refused for its length. *)
Theorem c12_truncated_refuted H m (d k : bytes) : N.of_nat (length d) = N.of_nat (length k) + 2 ^ 32 -> N.of_nat (length d) < 2 ^ 64 -> N.of_nat (length k) < 2 ^ 32 ->
  exists t, run H m [Add d] new_trie = Ok ([RBool true], t) /\ exists t', step H m (Delete k) t = Ok (RBool false, t').
Proof. exact (lengths_confused H m d k). Qed.
Print Assumptions c12_truncated_refuted.
Example c12_truncated_example : exists d k : bytes, N.of_nat (length d) = N.of_nat (length k) + 2 ^ 32 /\ N.of_nat (length d) < 2 ^ 64 /\ N.of_nat (length k) < 2 ^ 32.
Proof.
  exists (repeat x00 (N.to_nat (7 + 2 ^ 32))), (repeat x00 (N.to_nat 7)). rewrite !repeat_length, !N2Nat.id. split; [reflexivity|]. split; reflexivity.
Qed.

(** There are such keys; and a short one. *)
Example c191_example : (exists d : bytes, 2 ^ 32 <= N.of_nat (length d)) /\ hash32 toy_hash /\ N.of_nat (length (str "key")) < 2 ^ 32 /\
  set_root toy_hash 3 [str "key"] <> zero32.
Proof.
  split. { exists (repeat x00 (N.to_nat (2 ^ 32))). rewrite repeat_length, N2Nat.id. apply N.le_refl. }
  split; [apply toy_hash32|]. split; vm_compute; [reflexivity|discriminate].
Qed.
