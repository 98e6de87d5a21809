(** Property C145: the trie with keys of any lengths. *)
From Verif Require Import Base TrieModel TrieSpec TrieProofs TrieAny TrieProps Toy.

(** C145, results.  Every history with keys of at most [n] bytes gives the results of the reference
    of TrieSpec, which knows the set of members and the length of the first key only; in particular it
    says which histories end in an error or a panic. *)
Theorem c145_results :
  forall (H : bytes -> bytes), hash32 H ->
  forall (m : mode) (n : nat) (ops : list op),
  Forall (key_upto n) ops -> small_history n ops ->
  match ref_run H ops [] 0 with
  | Ok (xs, _) => exists t, run H m ops new_trie = Ok (xs, t)
  | Err e => run H m ops new_trie = Err e
  | Panic => run H m ops new_trie = Panic
  end.
Proof. exact any_behaviour_lemma. Qed.
Print Assumptions c145_results.

(** C145, members.  No key is there twice and no member begins with another. *)
Theorem c145_members :
  forall (H : bytes -> bytes), hash32 H ->
  forall (n : nat) (ops : list op) xs S,
  Forall (key_upto n) ops -> small_history n ops ->
  ref_run H ops [] 0 = Ok (xs, S) -> NoDup S /\ prefix_free S.
Proof. exact any_free_lemma. Qed.
Print Assumptions c145_members.

(** C145, root hash.  Histories that end with the same members have the same root hash. *)
Theorem c145_root_depends_on_set_only :
  forall (H : bytes -> bytes), hash32 H ->
  forall (m m' : mode) (n n' : nat) (ops ops' : list op) xs xs' S S',
  Forall (key_upto n) ops -> small_history n ops ->
  Forall (key_upto n') ops' -> small_history n' ops' ->
  ref_run H ops [] 0 = Ok (xs, S) -> ref_run H ops' [] 0 = Ok (xs', S') ->
  (forall k, In k S <-> In k S') ->
  exists t t' h t1 t1', run H m ops new_trie = Ok (xs, t) /\ run H m' ops' new_trie = Ok (xs', t') /\
    root_hash H t = Ok (h, t1) /\ root_hash H t' = Ok (h, t1').
Proof. exact any_root_lemma. Qed.
Print Assumptions c145_root_depends_on_set_only.

(** C145, commitment.  Equal root hashes mean equal sets, also between sets whose keys have
    different lengths, up to collisions among the strings hashed for the two sets. *)
Theorem c145_root_commits_to_set :
  forall (H : bytes -> bytes), hash32 H ->
  forall (m m' : mode) (n : nat) (ops ops' : list op) xs xs' S S' t t' h t1 t1',
  n <= 256 ->
  Forall (key_upto n) ops -> small_history n ops ->
  Forall (key_upto n) ops' -> small_history n ops' ->
  ref_run H ops [] 0 = Ok (xs, S) -> ref_run H ops' [] 0 = Ok (xs', S') ->
  run H m ops new_trie = Ok (xs, t) -> run H m' ops' new_trie = Ok (xs', t') ->
  root_hash H t = Ok (h, t1) -> root_hash H t' = Ok (h, t1') ->
  (forall k, In k S <-> In k S') \/
  collision_in H (root_strings H n S) (root_strings H n S') \/
  zero_preimage_in H (root_strings H n S ++ root_strings H n S').
Proof. exact any_commits_lemma. Qed.
Print Assumptions c145_root_commits_to_set.

(** C145, storage.  The storage holds exactly the nodes reachable from the root, each with one parent. *)
Theorem c145_storage_is_live_nodes :
  forall (H : bytes -> bytes), hash32 H ->
  forall (m : mode) (n : nat) (ops : list op) xs S,
  Forall (key_upto n) ops -> small_history n ops -> ref_run H ops [] 0 = Ok (xs, S) ->
  exists t, run H m ops new_trie = Ok (xs, t) /\
    (forall id, storage (tstore t) id <> None <->
                exists r, root t = Some r /\ reachable (storage (tstore t)) r id) /\
    (forall p b p' b' c, child (storage (tstore t)) p b c -> child (storage (tstore t)) p' b' c ->
        root t <> Some c /\ p = p' /\ b = b') /\
    (S = [] <-> forall id, storage (tstore t) id = None).
Proof. exact any_storage_lemma. Qed.
Print Assumptions c145_storage_is_live_nodes.

(** A history with keys of one, two, three and four bytes, the longer ones below a common node. *)
Definition mixed_history : list op :=
  [Add (str "abc"); Add (str "abxy"); Add (str "q"); RootHash; Add (str "zz"); Add (str "abxy"); Delete (str "abz");
   Delete (str "abc"); RootHash; Delete (str "qqq")].
Lemma mixed_keys : Forall (key_upto 4) mixed_history.
Proof. repeat constructor. Qed.
Lemma mixed_small : small_history 4 mixed_history.
Proof. split; vm_compute; reflexivity. Qed.
Example c145_case :
  verdict (ref_run toy_hash mixed_history [] 0) = verdict (run toy_hash Debug mixed_history new_trie) /\
  (exists xs, ref_run toy_hash mixed_history [] 0 = Ok (xs, [str "zz"; str "q"; str "abxy"])) /\
  exists h1 h2, verdict (run toy_hash Debug mixed_history new_trie) =
    Ok [RBool true; RBool true; RBool true; RHash h1; RBool true; RBool false; RBool false; RBool true; RHash h2; RBool false] /\ h1 <> h2.
Proof.
  split; [vm_compute; reflexivity|]. split; [eexists; vm_compute; reflexivity|].
  do 2 eexists. split; [vm_compute; reflexivity|]. vm_compute. discriminate.
Qed.

(** The same members in another order, with another first key. *)
Definition mixed_history' : list op := [Add (str "q"); Add (str "abxy"); Add (str "zz")].
Example c145_order :
  exists xs', ref_run toy_hash mixed_history' [] 0 = Ok (xs', [str "zz"; str "abxy"; str "q"]) /\
  exists h, look mixed_history ex_root = Some (Some h) /\ look mixed_history' ex_root = Some (Some h).
Proof. eexists. split; [vm_compute; reflexivity|]. eexists. split; vm_compute; reflexivity. Qed.

(** Adding a key that a member begins with, or that begins with a member, panics; deleting a member
    of another length than the first key is refused; deleting an absent key of that length panics when
    two members begin with it. *)
Example c145_failures :
  let after o := verdict (run toy_hash Release (mixed_history ++ [o]) new_trie) in
  after (Add (str "ab")) = Panic /\ after (Add (str "qa")) = Panic /\
  after (Delete (str "q")) = Err ElementLengthMismatch /\
  verdict (run toy_hash Release [Add (str "q"); Add (str "abc"); Add (str "abd"); Delete (str "a")] new_trie) = Panic /\
  verdict (run toy_hash Release [Add (str "q"); Add (str "abc"); Delete (str "a")] new_trie) = Ok [RBool true; RBool true; RBool false].
Proof. repeat split; vm_compute; reflexivity. Qed.
