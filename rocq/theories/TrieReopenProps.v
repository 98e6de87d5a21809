(** Property C177: a trie that goes on after a restart. *)
From Verif Require Import Base TrieModel TrieSpec TrieReopenModel TrieReopenSpec TrieReopenProofs TrieProps Toy.

(** C177, full statement: a trie reopened from its storage and the identifier of its root answers all
    calls like the trie it was, [answers (run H m later (reopen t)) = answers (run H m later t)].
    Proved: if its root hash was computed last, the reopened trie has the same root hash and knows all
    members. *)
Theorem c177_reopen_partial :
  forall (H : bytes -> bytes), hash32 H ->
  forall (m : mode) (n : nat) (ops : list op) xs S t0 h t,
  Forall (key_upto n) ops -> small_history n ops -> ref_run H ops [] 0 = Ok (xs, S) ->
  run H m ops new_trie = Ok (xs, t0) -> root_hash H t0 = Ok (h, t) ->
  (exists t', root_hash H (reopen t) = Ok (h, t')) /\
  forall m' k, In k S -> exists t', add m' k (reopen t) = Ok (false, t').
Proof. exact reopen_hash. Qed.
Print Assumptions c177_reopen_partial.

(** It is false of deletions: a reopened trie refuses all of them, having lost the length of its
    elements. *)
Theorem c177_deletes_refuted :
  forall (t : trie) (k : bytes), root t <> None -> k <> [] -> delete k (reopen t) = Err ElementLengthMismatch.
Proof. exact reopen_delete. Qed.
Print Assumptions c177_deletes_refuted.

(** It is false of additions: new nodes overwrite stored ones.  After one addition a member cannot be
    looked up any more. *)
Definition three : list op := [Add (str "aa"); Add (str "ab"); Add (str "ba"); RootHash].
Definition restarted (before later : list op) : outcome trie_error (list result) :=
  match run toy_hash Debug before new_trie with
  | Ok (_, t) => answers (run toy_hash Debug later (reopen t))
  | _ => Err MissingNode
  end.
Definition not_restarted (before later : list op) : outcome trie_error (list result) :=
  match run toy_hash Debug before new_trie with
  | Ok (_, t) => answers (run toy_hash Debug later t)
  | _ => Err MissingNode
  end.
Theorem c177_adds_refuted :
  exists before later, Forall (key_length 2) (before ++ later) /\ small_history 2 (before ++ later) /\
  not_restarted (before ++ [RootHash]) later = Ok [RBool true; RBool false] /\
  restarted (before ++ [RootHash]) later = Panic.
Proof.
  exists three, [Add (str "cc"); Add (str "aa")]. split; [repeat constructor|]. split; [split; vm_compute; reflexivity|]. split; vm_compute; reflexivity.
Qed.
Print Assumptions c177_adds_refuted.

(** And if the root hash was not computed before, the reopened trie has another one: that a hash is
    out of date is not stored. *)
Theorem c177_unhashed_refuted :
  exists before, Forall (key_length 2) before /\ small_history 2 before /\
  exists h h', not_restarted before [RootHash] = Ok [RHash h] /\ restarted before [RootHash] = Ok [RHash h'] /\ h <> h'.
Proof.
  exists [Add (str "aa"); Add (str "ab")]. split; [repeat constructor|]. split; [split; vm_compute; reflexivity|].
  do 2 eexists. split; [vm_compute; reflexivity|]. split; [vm_compute; reflexivity|]. discriminate.
Qed.
Print Assumptions c177_unhashed_refuted.

(** What is missing are the counter of nodes and the length of the elements: a restart that loses the
    cache only, after the root hash was computed, changes no answer of any calls that follow. *)
Theorem c177_intended :
  forall (H : bytes -> bytes), hash32 H ->
  forall (m : mode) (n : nat) (ops : list op) xs t0 h t (m' : mode) (later : list op),
  Forall (key_upto n) ops -> small_history n ops ->
  run H m ops new_trie = Ok (xs, t0) -> root_hash H t0 = Ok (h, t) ->
  answers (run H m' later (drop_cache t)) = answers (run H m' later t).
Proof. exact drop_cache_lemma. Qed.
Print Assumptions c177_intended.

Example c177_case :
  Forall (key_upto 2) three /\ small_history 2 three /\
  restarted three [Add (str "aa"); Add (str "ab"); Add (str "ba")] = Ok [RBool false; RBool false; RBool false] /\
  restarted three [RootHash] = not_restarted three [RootHash] /\
  restarted three [Delete (str "aa")] = Err ElementLengthMismatch /\
  not_restarted three [Delete (str "aa")] = Ok [RBool true].
Proof. split; [repeat constructor|]. split; [split; vm_compute; reflexivity|]. repeat split; vm_compute; reflexivity. Qed.
Example c177_intended_case :
  match run toy_hash Debug three new_trie with
  | Ok (_, t) => answers (run toy_hash Debug [Add (str "cc"); Delete (str "aa"); Add (str "ba"); RootHash] (drop_cache t)) =
                 answers (run toy_hash Debug [Add (str "cc"); Delete (str "aa"); Add (str "ba"); RootHash] t)
  | _ => False
  end.
Proof. vm_compute. reflexivity. Qed.
