(** Property C179: the Merkle trie on storage that can fail. *)
From Verif Require Import Base TrieModel TrieSpec TrieFaultModel TrieFaultSpec TrieFaultProofs TrieFaultKeepProofs Toy.

(** C179.  No failure of the storage goes unnoticed: a call makes some number of accesses to it; if none
    of them fails, answer and trie are those of C07 and C145; if one fails, the call gives the error, or
    panics in case of the first addition. *)
Theorem c179_reported :
  forall (H : bytes -> bytes) (m : mode) (o : op) (t : trie), exists n,
  (forall k, spared n k -> unharmed (step H m o t) (f_step H m o t k)) /\
  forall j, j < n -> fst (f_step H m o t (Some j)) = Err StorageAccessFailed \/ (fst (f_step H m o t (Some j)) = Panic /\ root t = None).
Proof. exact reported_lemma. Qed.
Print Assumptions c179_reported.

(** A call that changes nothing does no damage when it fails: all later answers are as if it had not been
    made, however many such calls fail.  Missing from the full statement: additions and deletions that
    do change the trie, see below. *)
Theorem c179_harmless_partial :
  forall (H : bytes -> bytes), hash32 H ->
  forall (m : mode) (n : nat) (calls : list (op * option nat)),
  Forall (key_upto n) (map fst calls) -> small_history n (map fst calls) -> only_harmless H [] 0 calls ->
  answered H [] 0 calls (fst (f_run H m calls new_trie)).
Proof. exact keeps_lemma. Qed.
Print Assumptions c179_harmless_partial.

Definition three : list (op * option nat) := [(Add (str "aaa"), None); (Add (str "aab"), None); (Add (str "abc"), None)].
(** After an addition that failed, looking for a member panics. *)
Theorem c179_add_refuted :
  exists H m j, hash32 H /\
  fst (f_run H m (three ++ [(Add (str "aac"), Some j); (Add (str "aaa"), None)]) new_trie) =
  [Ok (RBool true); Ok (RBool true); Ok (RBool true); Err StorageAccessFailed; Panic].
Proof. exists toy_hash, Debug, 7. split; [exact toy_hash32|]. vm_compute. reflexivity. Qed.
Print Assumptions c179_add_refuted.
(** The same after a deletion that failed. *)
Theorem c179_delete_refuted :
  exists H m j, hash32 H /\
  fst (f_run H m (three ++ [(Delete (str "aab"), Some j); (Add (str "aaa"), None)]) new_trie) =
  [Ok (RBool true); Ok (RBool true); Ok (RBool true); Err StorageAccessFailed; Panic].
Proof. exists toy_hash, Debug, 10. split; [exact toy_hash32|]. vm_compute. reflexivity. Qed.
Print Assumptions c179_delete_refuted.
(** The first addition panics. *)
Theorem c179_first_refuted :
  forall (H : bytes -> bytes) (m : mode) (d : bytes), fst (f_run H m [(Add d, Some 0)] new_trie) = [Panic].
Proof. intros H [|] d; reflexivity. Qed.
Print Assumptions c179_first_refuted.

(** Root hashes and lookups that fail at various places. *)
Definition rough : list (op * option nat) :=
  three ++ [(RootHash, Some 0); (RootHash, Some 3); (RootHash, Some 5); (Add (str "aab"), Some 2); (Delete (str "abb"), Some 1); (RootHash, Some 7); (Delete (str "ab"), None);
            (RootHash, Some 100); (Add (str "aab"), None); (Delete (str "abc"), None); (RootHash, Some 2); (RootHash, None)].
Example c179_example :
  Forall (key_upto 3) (map fst rough) /\ small_history 3 (map fst rough) /\
  fst (f_run toy_hash Debug rough new_trie) =
    [Ok (RBool true); Ok (RBool true); Ok (RBool true); Err StorageAccessFailed; Err StorageAccessFailed; Err StorageAccessFailed; Err StorageAccessFailed; Err StorageAccessFailed;
     Err StorageAccessFailed; Err (Other ElementLengthMismatch); Ok (RHash (set_root toy_hash 3 [str "aaa"; str "aab"; str "abc"])); Ok (RBool false); Ok (RBool true);
     Err StorageAccessFailed; Ok (RHash (set_root toy_hash 3 [str "aaa"; str "aab"]))].
Proof. split; [repeat constructor|]. split; [split; vm_compute; reflexivity|]. vm_compute. reflexivity. Qed.
Example c179_example_harmless : only_harmless toy_hash [] 0 rough.
Proof. vm_compute. repeat (split; [first [left; reflexivity|right; left; reflexivity|right; right; eexists; reflexivity]|]). exact Logic.I. Qed.
