(** Property C153: how many nodes the storage of a trie holds. *)
From Verif Require Import Base TrieModel TrieSpec TrieProofs TrieAny TrieProps TrieSizeSpec TrieSizeProofs Toy.

(** C153, size.  After any history that succeeds, with keys of any lengths up to [n], the storage
    holds one node for every member and one for every string with which two or more members begin,
    and nothing else. *)
Theorem c153_size :
  forall (H : bytes -> bytes), hash32 H ->
  forall (m : mode) (n : nat) (ops : list op) xs S,
  Forall (key_upto n) ops -> small_history n ops -> ref_run H ops [] 0 = Ok (xs, S) ->
  exists t ids, run H m ops new_trie = Ok (xs, t) /\
    NoDup ids /\ (forall id, storage (tstore t) id <> None <-> In id ids) /\
    length ids = length S + length (shared S).
Proof. exact trie_size_lemma. Qed.
Print Assumptions c153_size.

(** C153, meaning.  [shared] lists, each once, the strings with which two different members begin. *)
Theorem c153_shared :
  forall S, NoDup S -> NoDup (shared S) /\
  forall p, In p (shared S) <-> exists r1 r2, In (p ++ r1) S /\ In (p ++ r2) S /\ r1 <> r2.
Proof. exact shared_lemma. Qed.
Print Assumptions c153_shared.

(** C153, bound.  Members of at most [n] bytes take at most [n + 1] nodes each, and the first one takes
    a single node. *)
Theorem c153_bound :
  forall (H : bytes -> bytes), hash32 H ->
  forall (m : mode) (n : nat) (ops : list op) xs S t ids,
  Forall (key_upto n) ops -> small_history n ops -> ref_run H ops [] 0 = Ok (xs, S) ->
  run H m ops new_trie = Ok (xs, t) -> NoDup ids -> (forall id, In id ids -> storage (tstore t) id <> None) ->
  length ids <= length S + (length S - 1) * n.
Proof. exact trie_bound_lemma. Qed.
Print Assumptions c153_bound.

(** Three keys, two with a common beginning: "", "a" and "ab" are shared. Removing one of the two
    leaves the members and the node they part at. *)
Definition shared_history : list op := [Add (str "abc"); Add (str "abxy"); Add (str "q"); RootHash; Add (str "abc")].
Definition stored_ids (t : trie) : list N :=
  filter (fun id => match storage (tstore t) id with Some _ => true | None => false end) (map N.of_nat (seq 0 60)).
Example c153_case :
  Forall (key_upto 4) shared_history /\ small_history 4 shared_history /\
  (exists xs, ref_run toy_hash shared_history [] 0 = Ok (xs, [str "q"; str "abxy"; str "abc"])) /\
  shared [str "q"; str "abxy"; str "abc"] = [[]; str "a"; str "ab"] /\
  (exists ids, look shared_history stored_ids = Some ids /\ length ids = 6) /\
  shared [str "q"; str "abxy"] = [[]] /\
  exists ids, look (shared_history ++ [RootHash; Delete (str "abc")]) stored_ids = Some ids /\ length ids = 3.
Proof.
  split; [repeat constructor|]. split; [split; vm_compute; reflexivity|]. split; [eexists; vm_compute; reflexivity|].
  split; [vm_compute; reflexivity|]. split; [eexists; split; vm_compute; reflexivity|]. split; [vm_compute; reflexivity|].
  eexists. split; vm_compute; reflexivity.
Qed.
