(** Property C176: how many stored nodes an update of the trie changes. *)
From Verif Require Import Base TrieModel TrieSpec TrieCostSpec TrieCostProofs TrieProps Toy.

(** C176, one call.  Whatever the trie holds, an addition changes at most three stored nodes more than
    its key has bytes and a deletion at most one more than twice as many; a call that answers false
    changes none. *)
Theorem c176_call :
  forall (H : bytes -> bytes) (m : mode) (o : op) (t : trie) (r : result) (t' : trie),
  o <> RootHash -> step H m o t = Ok (r, t') ->
  exists ids, length ids <= most_changes o /\ changes_only ids t t' /\ (r = RBool false -> ids = []).
Proof. exact step_changes. Qed.
Print Assumptions c176_call.

(** C176, with the hashes.  If the root hash was computed before, then computing it again after one
    more call changes at most one stored node in addition, however many members there are. *)
Theorem c176_rehash :
  forall (H : bytes -> bytes), hash32 H ->
  forall (m : mode) (n : nat) (ops : list op) xs t0 h0 t o r t1 h t2,
  Forall (key_upto n) ops -> small_history n ops ->
  run H m ops new_trie = Ok (xs, t0) -> root_hash H t0 = Ok (h0, t) ->
  step H m o t = Ok (r, t1) -> root_hash H t1 = Ok (h, t2) ->
  exists ids, length ids <= most_changes o + 1 /\ changes_only ids t t2.
Proof. exact hashed_update. Qed.
Print Assumptions c176_rehash.

(** Sixteen members below four first bytes, in more than twenty nodes.  Adding or deleting one and
    hashing again changes few of them; the first root hash changes all nodes with children. *)
Definition grid : list op :=
  flat_map (fun x => map (fun y => Add [x; y; x07]) [x01; x02; x03; x04]) [x0a; x0b; x0c; x0d].
Definition differ (a b : option bytes) : bool :=
  match a, b with None, None => false | Some x, Some y => negb (if list_eq_dec Byte.byte_eq_dec x y then true else false) | _, _ => true end.
Definition changed (t t' : trie) : nat :=
  length (filter (fun i => differ (storage (tstore t) (N.of_nat i)) (storage (tstore t') (N.of_nat i))) (seq 0 (N.to_nat (next_node_id (tstore t'))))).
Definition change (before after : list op) : option nat :=
  match run toy_hash Debug before new_trie with
  | Ok (_, t) => match run toy_hash Debug after t with Ok (_, t') => Some (changed t t') | _ => None end
  | _ => None
  end.
Example c176_case :
  Forall (key_upto 3) grid /\ small_history 3 grid /\
  match run toy_hash Debug grid new_trie with Ok (_, t) => changed new_trie t | _ => 0 end = 21 /\
  change grid [RootHash] = Some 5 /\
  change (grid ++ [RootHash]) [Add [x0b; x05; x07]; RootHash] = Some 4 /\
  change (grid ++ [RootHash]) [Add [x0b; x02; x08]; RootHash] = Some 6 /\
  change (grid ++ [RootHash]) [Delete [x0b; x02; x07]; RootHash] = Some 3 /\
  change (grid ++ [RootHash]) [Add [x0b; x02; x07]; RootHash] = Some 0.
Proof. split; [repeat constructor|]. split; [split; vm_compute; reflexivity|]. repeat split; vm_compute; reflexivity. Qed.
