(** Properties C12 and C145 for histories that go on after a refused call. *)
From Verif Require Import Base TrieModel TrieSpec TrieGoOnModel TrieGoOnSpec TrieGoOnProofs Toy.

(** A refused call changes nothing: the later ones are answered as if it had not been made. *)
Theorem c145_goes_on :
  forall (H : bytes -> bytes), hash32 H ->
  forall (m : mode) (n : nat) (ops : list op),
  Forall (key_upto n) ops -> small_history n ops ->
  run_on H m ops new_trie = ref_run_on H ops [] 0.
Proof. exact go_on_lemma. Qed.
Print Assumptions c145_goes_on.

Definition refused_history : list op :=
  [Add (str "ab"); Add (str "cde"); Delete (str "cde"); Delete (str "a"); Add (str "cde"); Delete (str "ab"); Delete (str "cde"); Delete (str "xy")].
Example c145_goes_on_case :
  Forall (key_upto 3) refused_history /\ small_history 3 refused_history /\
  run_on toy_hash Debug refused_history new_trie =
    [Ok (RBool true); Ok (RBool true); Err ElementLengthMismatch; Err ElementLengthMismatch; Ok (RBool false); Ok (RBool true);
     Err ElementLengthMismatch; Ok (RBool false)].
Proof. split; [repeat constructor|]. split; [split; vm_compute; reflexivity|]. vm_compute. reflexivity. Qed.
