(** Properties C07-C13: Merkle trie. *)
From Verif Require Import Base TrieModel TrieSpec TrieCodecProofs TrieRefine TrieBind TrieOther Toy.

Definition key3 (a b c : N) : bytes := [b8 a; b8 b; b8 c].

(** A history with splits at several depths, a repeated insertion, collapses, root
    hashes in between and a removal of an absent key. *)
Definition ex_history : list op :=
  [Add (key3 1 2 3); Add (key3 1 2 4); RootHash; Add (key3 9 9 9); Add (key3 1 2 3);
   Delete (key3 1 2 4); RootHash; Delete (key3 1 2 4); Add (key3 1 7 200); RootHash].

(** For the examples: run a history from the empty trie and look at the state. *)
Definition look {A} (ops : list op) (f : trie -> A) : option A :=
  match run toy_hash Debug ops new_trie with Ok (_, t) => Some (f t) | _ => None end.
Definition ex_root (t : trie) : option bytes :=
  match root_hash toy_hash t with Ok (h, _) => Some h | _ => None end.
Definition verdict {E A B} (o : outcome E (A * B)) : outcome E A :=
  match o with Ok (a, _) => Ok a | Err e => Err e | Panic => Panic end.

Lemma ex_history_keys : Forall (key_length 3) ex_history.
Proof. repeat constructor. Qed.
Lemma ex_history_small : small_history 3 ex_history.
Proof. split; vm_compute; reflexivity. Qed.

(** C07.  The results of a history are those of a set: insertion answers whether the
    key was absent, removal whether it was present ([expected] follows the set of
    members defined in TrieSpec). *)
Theorem c07_behaves_as_a_set :
  forall (H : bytes -> bytes), hash32 H ->
  forall (m : mode) (n : nat) (ops : list op),
  Forall (key_length n) ops -> small_history n ops ->
  exists t, run H m ops new_trie = Ok (expected H n [] ops, t).
Proof. exact set_behaviour_lemma. Qed.
Print Assumptions c07_behaves_as_a_set.

Example c07_case :
  exists h1 h2 h3, verdict (run toy_hash Debug ex_history new_trie) =
    Ok [RBool true; RBool true; RHash h1; RBool true; RBool false; RBool true; RHash h2;
        RBool false; RBool true; RHash h3] /\ h1 <> h2 /\ h2 <> h3.
Proof.
  do 3 eexists. split; [vm_compute; reflexivity|]. split; vm_compute; discriminate.
Qed.

(** C08.  Histories that end with the same members have the same root hash, and the
    root hash of the empty set is zero. *)
Theorem c08_root_depends_on_set_only :
  forall (H : bytes -> bytes), hash32 H ->
  forall (m m' : mode) (n : nat) (ops ops' : list op) xs xs' t t',
  Forall (key_length n) ops -> small_history n ops ->
  Forall (key_length n) ops' -> small_history n ops' ->
  (forall k, In k (members ops) <-> In k (members ops')) ->
  run H m ops new_trie = Ok (xs, t) -> run H m' ops' new_trie = Ok (xs', t') ->
  exists h t1 t1', root_hash H t = Ok (h, t1) /\ root_hash H t' = Ok (h, t1') /\
    (members ops = [] -> h = zero32).
Proof. exact root_set_lemma. Qed.
Print Assumptions c08_root_depends_on_set_only.

(** The members of [ex_history], inserted in another order. *)
Definition ex_history' : list op :=
  [Add (key3 1 7 200); Add (key3 9 9 9); Add (key3 1 2 3)].
Example c08_case :
  (forall k, In k (members ex_history) <-> In k (members ex_history')) /\
  exists h, look ex_history ex_root = Some (Some h) /\
    look ex_history' ex_root = Some (Some h) /\ h <> zero32 /\
    look [Add (key3 1 2 3); Delete (key3 1 2 3)] ex_root = Some (Some zero32).
Proof.
  split; [intros k; cbn; tauto|].
  eexists. split; [vm_compute; reflexivity|]. split; [vm_compute; reflexivity|].
  split; [vm_compute; discriminate|vm_compute; reflexivity].
Qed.

(** C09.  Equal root hashes of tries over keys of the same length mean equal sets, up
    to collisions among the strings hashed for the two sets. *)
Theorem c09_root_commits_to_set :
  forall (H : bytes -> bytes), hash32 H ->
  forall (m m' : mode) (n : nat) (ops ops' : list op) xs xs' t t' h t1 t1',
  n <= 256 ->
  Forall (key_length n) ops -> small_history n ops ->
  Forall (key_length n) ops' -> small_history n ops' ->
  run H m ops new_trie = Ok (xs, t) -> run H m' ops' new_trie = Ok (xs', t') ->
  root_hash H t = Ok (h, t1) -> root_hash H t' = Ok (h, t1') ->
  let S := root_strings H n (members ops) in
  let S' := root_strings H n (members ops') in
  (forall k, In k (members ops) <-> In k (members ops')) \/
  collision_in H S S' \/ zero_preimage_in H (S ++ S').
Proof. exact root_commits_lemma. Qed.
Print Assumptions c09_root_commits_to_set.

(** Different sets with different roots; the histories of [c08_case] meet the premises. *)
Example c09_case :
  exists h h', look ex_history ex_root = Some (Some h) /\
    look [Add (key3 1 2 3); Add (key3 1 2 4)] ex_root = Some (Some h') /\ h <> h'.
Proof.
  do 2 eexists. split; [vm_compute; reflexivity|]. split; [vm_compute; reflexivity|].
  vm_compute. discriminate.
Qed.

(** C10.  After any history the storage holds exactly the nodes reachable from the
    root; every node has at most one parent and slot, the root none; the storage is
    empty exactly when the set is. *)
Theorem c10_storage_is_live_nodes :
  forall (H : bytes -> bytes), hash32 H ->
  forall (m : mode) (n : nat) (ops : list op),
  Forall (key_length n) ops -> small_history n ops ->
  exists xs t, run H m ops new_trie = Ok (xs, t) /\
    (forall id, storage (tstore t) id <> None <->
                exists r, root t = Some r /\ reachable (storage (tstore t)) r id) /\
    (forall p b p' b' c, child (storage (tstore t)) p b c -> child (storage (tstore t)) p' b' c ->
        root t <> Some c /\ p = p' /\ b = b') /\
    (members ops = [] <-> forall id, storage (tstore t) id = None).
Proof. exact storage_lemma. Qed.
Print Assumptions c10_storage_is_live_nodes.

(** After [ex_history] five nodes of the eleven allocated remain. *)
Example c10_case :
  look ex_history (fun t =>
    (next_node_id (tstore t),
     length (filter (fun i => match storage (tstore t) (N.of_nat i) with Some _ => true | None => false end)
                    (seq 0 20)))) = Some (11%N, 5).
Proof. vm_compute. reflexivity. Qed.

(** C11.  No call fails or panics, as long as the node counter does not overflow. *)
Theorem c11_no_internal_failure :
  forall (H : bytes -> bytes), hash32 H ->
  forall (m : mode) (n : nat) (ops : list op) (o : op),
  Forall (key_length n) (ops ++ [o]) -> small_history n (ops ++ [o]) ->
  exists xs t, run H m ops new_trie = Ok (xs, t) /\
    exists r t', step H m o t = Ok (r, t').
Proof. exact no_failure_lemma. Qed.
Print Assumptions c11_no_internal_failure.

Example c11_case :
  look ex_history (fun t => verdict (step toy_hash Debug (Delete (key3 9 9 9)) t))
  = Some (Ok (RBool true)).
Proof. vm_compute. reflexivity. Qed.

(** C12, removal.  Removing a key of another length from a non-empty trie is refused
    (an error returns no new state: nothing changed).  What is missing for the whole
    of C12: the same for insertion, which is false, see the two refutations. *)
Theorem c12_other_length_rejected_partial :
  forall (H : bytes -> bytes), hash32 H ->
  forall (m : mode) (n : nat) (ops : list op) xs t (k : bytes),
  Forall (key_length n) ops -> small_history n ops ->
  run H m ops new_trie = Ok (xs, t) -> members ops <> [] -> length k <> n ->
  delete k t = Err ElementLengthMismatch.
Proof. exact delete_other_length_lemma. Qed.
Print Assumptions c12_other_length_rejected_partial.

Example c12_case :
  members ex_history <> [] /\
  look ex_history (fun t => (verdict (delete (str "ab") t), verdict (delete (str "abcd") t)))
  = Some (Err ElementLengthMismatch, Err ElementLengthMismatch).
Proof. split; vm_compute; (reflexivity || discriminate). Qed.

(** C12 is false for insertion: a trie holding a two-byte key accepts a one-byte key... *)
Theorem c12_add_other_length_refuted :
  exists (k k' : bytes) t t',
    length k <> length k' /\ add Debug k new_trie = Ok (true, t) /\ add Debug k' t = Ok (true, t').
Proof. exact add_other_length_accepted_lemma. Qed.
Print Assumptions c12_add_other_length_refuted.

(** ... and panics when that key is a prefix of the member. *)
Theorem c12_add_prefix_panics_refuted :
  exists (k k' : bytes) t,
    length k <> length k' /\ add Debug k new_trie = Ok (true, t) /\ add Debug k' t = Panic.
Proof. exact add_prefix_panics_lemma. Qed.
Print Assumptions c12_add_prefix_panics_refuted.

(** What insertion of a key of another length does: it panics if the key begins with a
    member or a member with the key, and is accepted otherwise. *)
Theorem c12_add_other_length_partial :
  forall (H : bytes -> bytes), hash32 H ->
  forall (m : mode) (n : nat) (ops : list op) xs t (k : bytes),
  Forall (key_length n) ops -> small_history n ops ->
  (N.of_nat (length ops) * (N.of_nat n + 3) + N.of_nat (length k) + 3 < two64)%N ->
  run H m ops new_trie = Ok (xs, t) -> length k <> n ->
  ((exists x, In x (members ops) /\ comparable x k) /\ add m k t = Panic) \/
  ((forall x, In x (members ops) -> ~ comparable x k) /\ exists t', add m k t = Ok (true, t')).
Proof. exact add_other_lemma. Qed.
Print Assumptions c12_add_other_length_partial.
Example c12_add_case :
  look ex_history (fun t => (verdict (add Debug (str "ab") t), verdict (add Debug (firstn 2 (hd [] (members ex_history))) t),
                             verdict (add Debug (hd [] (members ex_history) ++ [x07]) t))) = Some (Ok true, Panic, Panic).
Proof. vm_compute. reflexivity. Qed.

(** C13.  The stored form of a node keeps the hash bytes, the kind and the children;
    the dirty mark is not stored. *)
Theorem c13_stored_node_round_trip :
  forall (dirty0 : bool) (h : bytes) (cs : option (list (option N))),
  u64 (N.of_nat (length h)) ->
  (forall l, cs = Some l -> length l = 256 /\ (forall i id, nth_error l i = Some (Some id) -> u64 id)) ->
  deserialize (serialize (mkNode dirty0 h cs)) = Some (mkNode false h cs).
Proof. exact round_trip_lemma. Qed.
Print Assumptions c13_stored_node_round_trip.

Example c13_case :
  let n := mkNode true (str "abc")
      (Some (set_nth 255 (Some 18446744073709551615%N) (set_nth 0 (Some 128%N) (set_nth 7 (Some 0%N) no_children)))) in
  deserialize (serialize n) = Some (mkNode false (nhash n) (children n)).
Proof. vm_compute. reflexivity. Qed.
