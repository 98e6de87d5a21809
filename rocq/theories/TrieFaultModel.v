(** The Merkle trie on storage whose accesses can fail: src/crypto/merkletrie/{trie,node,cache}.rs again,
    with the error [StorageAccessFailed], and with what a failed call leaves behind. *)
From Verif Require Import Base TrieModel.

(** CacheError, cache.rs:16-24, and TrieError, trie.rs:22-39: the failure of an access to the storage
    beside the errors of [trie_error]. *)
Inductive fault_error := StorageAccessFailed | Other (e : trie_error).

(** A piece of a call, trie.rs:61-142: it finds a cache with its storage and the number of further accesses to
    the storage that will succeed ([None]: all), and leaves the same behind. *)
Definition act (A : Type) := store -> option nat -> outcome fault_error A * store * option nat.
(** the end of a piece of a call, trie.rs:61-142 *)
Definition ret {A} (a : A) : act A := fun st k => (Ok a, st, k).
(** the operator [?], as at cache.rs:58 *)
Definition andthen {A B} (a : act A) (f : A -> act B) : act B := fun st k =>
  match a st k with
  | (Ok x, st', k') => f x st' k'
  | (Err e, st', k') => (Err e, st', k')
  | (Panic, st', k') => (Panic, st', k')
  end.
Notation "'do' x <- a ; b" := (andthen a (fun x => b)) (at level 200, x pattern, a at level 100, b at level 200).
(** a panic, as at node.rs:52 *)
Definition panics {A} : act A := fun st k => (Panic, st, k).
(** a piece that does not access the storage, or the rest of one that has, cache.rs:44-82 *)
Definition plain {A} (f : store -> outcome trie_error (A * store)) : act A := fun st k =>
  match f st with
  | Ok (a, st') => (Ok a, st', k)
  | Err e => (Err (Other e), st, k)
  | Panic => (Panic, st, k)
  end.
(** An access to the storage, storage.rs:10-11. *)
Definition access : act unit := fun st k =>
  match k with
  | Some O => (Err StorageAccessFailed, st, Some O)
  | Some (S j) => (Ok tt, st, Some j)
  | None => (Ok tt, st, None)
  end.

(** MerkleTrieCache::allocate_new_node, cache.rs:44-50 *)
Definition f_allocate (m : mode) : act (node * N) := plain (allocate_new_node m).
(** MerkleTrieCache::get_node, cache.rs:54-66: the storage is asked first *)
Definition f_get (id : N) : act node := do _ <- access; plain (get_node id).
(** MerkleTrieCache::set_node, cache.rs:68-74: the cache is changed first *)
Definition f_set (id : N) (n : node) : act unit :=
  do _ <- plain (fun st => Ok (tt, mkStore (storage st) (upd (cache st) id (Some n)) (next_node_id st)));
  do _ <- access;
  plain (fun st => Ok (tt, mkStore (store_node (storage st) id (serialize n)) (cache st) (next_node_id st))).
(** MerkleTrieCache::delete_node, cache.rs:78-82: the cache is changed first *)
Definition f_remove (id : N) : act unit :=
  do _ <- plain (fun st => Ok (tt, mkStore (storage st) (upd (cache st) id None) (next_node_id st)));
  do _ <- access;
  plain (fun st => Ok (tt, mkStore (store_node (storage st) id []) (cache st) (next_node_id st))).

(** Node::find, node.rs:28-38 *)
Fixpoint f_find (d : bytes) (self : node) : act bool :=
  match children self with
  | None => ret (bytes_eqb d (nhash self))
  | Some cs =>
      match d with
      | [] => panics
      | b :: d' =>
          match nth_error cs (idx b) with
          | None => panics
          | Some None => ret false
          | Some (Some child_id) => do child <- f_get child_id; f_find d' child
          end
      end
  end.
(** The loop [for i in (0..idiff).rev()], node.rs:75-85 *)
Fixpoint f_parent_chain (m : mode) (d path : bytes) (i : nat) (id : N) : act N :=
  match i with
  | O => ret id
  | S i' =>
      match nth_error d i' with
      | None => panics
      | Some b =>
          do (_, id2) <- f_allocate m;
          do _ <- f_set id2 (mkNode true (path ++ firstn i' d) (Some (set_nth (idx b) (Some id) no_children)));
          f_parent_chain m d path i' id2
      end
  end.
(** The leaf case of Node::add, node.rs:49-87 *)
Definition f_split_leaf (m : mode) (d path : bytes) (self : node) : act N :=
  match first_diff (nhash self) d with
  | None => panics
  | Some idiff =>
      match nth_error d idiff, nth_error (nhash self) idiff with
      | Some bd, Some bh =>
          do (_, cur_child_id) <- f_allocate m;
          do _ <- f_set cur_child_id (mkNode false (skipn (S idiff) (nhash self)) None);
          do (_, new_child_id) <- f_allocate m;
          do _ <- f_set new_child_id (mkNode false (skipn (S idiff) d) None);
          do (_, id) <- f_allocate m;
          do _ <- f_set id (mkNode true (path ++ firstn idiff d)
                    (Some (set_nth (idx bh) (Some cur_child_id) (set_nth (idx bd) (Some new_child_id) no_children))));
          f_parent_chain m d path idiff id
      | _, _ => panics
      end
  end.
(** Node::add, node.rs:42-114 *)
Fixpoint f_node_add (m : mode) (d path : bytes) (self : node) : act N :=
  match children self with
  | None => f_split_leaf m d path self
  | Some cs =>
      match d with
      | [] => panics
      | b :: d' =>
          match nth_error cs (idx b) with
          | None => panics
          | Some None =>
              do (_, child_id) <- f_allocate m;
              do _ <- f_set child_id (mkNode false d' None);
              do (_, id) <- f_allocate m;
              do _ <- f_set id (mkNode true path (Some (set_nth (idx b) (Some child_id) cs)));
              ret id
          | Some (Some cur_id) =>
              do child <- f_get cur_id;
              do updated_child <- f_node_add m d' (path ++ [b]) child;
              do _ <- f_set cur_id (mkNode true path (Some (set_nth (idx b) (Some updated_child) cs)));
              ret cur_id
          end
      end
  end.
(** Node::remove, node.rs:164-214 *)
Fixpoint f_node_remove (key path : bytes) (self : node) : act N :=
  match children self with
  | None => panics
  | Some cs =>
      match key with
      | [] => panics
      | b :: key' =>
          match nth_error cs (idx b) with
          | Some (Some nid) =>
              do n <- f_get nid;
              do cs' <- (if is_leaf n then ret (set_nth (idx b) None cs)
                         else do updated <- f_node_remove key' (path ++ [b]) n; ret (set_nth (idx b) (Some updated) cs));
              let '(hash_idx, child_id, num_children) := scan_children 0 cs' (0, 0%N, 0%N) in
              do n' <- (if (num_children =? 1)%N
                        then do child <- f_get child_id;
                             if is_leaf child
                             then do _ <- f_remove child_id; ret (mkNode false (b8 (N.of_nat hash_idx) :: nhash child) None)
                             else ret (mkNode true path (Some cs'))
                        else ret (mkNode true path (Some cs')));
              do _ <- f_set nid n';
              ret nid
          | _ => panics
          end
      end
  end.
(** First loop of Node::calculate_hash, node.rs:127-133; [rec] is the recursive call *)
Fixpoint f_hash_children (rec : node -> act node) (cs : list (option N)) : act unit :=
  match cs with
  | [] => ret tt
  | None :: r => f_hash_children rec r
  | Some id :: r =>
      do child <- f_get id;
      if negb (is_leaf child) && dirty child
      then do child' <- rec child; do _ <- f_set id child'; f_hash_children rec r
      else f_hash_children rec r
  end.
(** Second loop of Node::calculate_hash, node.rs:141-155 *)
Fixpoint f_accumulate (i : nat) (cs : list (option N)) : act bytes :=
  match cs with
  | [] => ret []
  | None :: r => f_accumulate (S i) r
  | Some id :: r =>
      do child <- f_get id;
      do rest <- f_accumulate (S i) r;
      ret ((if is_leaf child then x00 else x01) :: b8 (N.of_nat (length (nhash child))) :: b8 (N.of_nat i) :: nhash child ++ rest)
  end.
(** Node::calculate_hash, node.rs:117-160 *)
Fixpoint f_calculate_hash (H : bytes -> bytes) (fuel : nat) (self : node) : act node :=
  match fuel with
  | O => panics
  | S f =>
      match children self with
      | None => ret self
      | Some cs =>
          if negb (dirty self) then ret self
          else
            do _ <- f_hash_children (f_calculate_hash H f) cs;
            do acc <- f_accumulate 0 cs;
            ret (mkNode false (H (b8 (N.of_nat (length (nhash self))) :: nhash self ++ acc)) (Some cs))
      end
  end.

(** [unwrap()] on a failed access, trie.rs:84 *)
Definition unwrapped {A} (a : act A) : act A := fun st k =>
  match a st k with (Err _, st', k') => (Panic, st', k') | r => r end.
(** The inside of Trie::root_hash, Trie::add and Trie::delete, trie.rs:61-142: the result with the new
    root and element length. *)
Definition f_call (H : bytes -> bytes) (m : mode) (o : op) (t : trie) : act (result * option N * N) :=
  match o, root t with
  | RootHash, None => ret (RHash zero32, None, element_length t)
  | RootHash, Some root_id =>
      do r <- f_get root_id;
      do r <- f_calculate_hash H (S (N.to_nat (element_length t) + N.to_nat (next_node_id (tstore t)))) r;
      do _ <- f_set root_id r;
      ret (RHash (H ((if is_leaf r then x00 else x01) :: nhash r)), root t, element_length t)
  | Add d, None =>
      do (_, id) <- f_allocate m;
      do _ <- unwrapped (f_set id (mkNode false d None));
      ret (RBool true, Some id, len32 d)
  | Add d, Some root_id =>
      do pnode <- f_get root_id;
      do found <- f_find d pnode;
      if found then ret (RBool false, root t, element_length t)
      else do updated_root <- f_node_add m d [] pnode;
           do _ <- f_remove root_id;
           ret (RBool true, Some updated_root, element_length t)
  | Delete d, None => ret (RBool false, None, element_length t)
  | Delete d, Some root_id =>
      if negb (N.of_nat (length d) =? element_length t)%N then plain (fun _ => Err ElementLengthMismatch)
      else
        do pnode <- f_get root_id;
        do found <- f_find d pnode;
        if negb found then ret (RBool false, root t, element_length t)
        else if is_leaf pnode
        then do _ <- f_remove root_id; ret (RBool true, None, 0%N)
        else do updated_root <- f_node_remove d [] pnode;
             do _ <- f_remove root_id;
             ret (RBool true, Some updated_root, element_length t)
  end.
(** A call of Trie::root_hash, Trie::add or Trie::delete, trie.rs:61-142, of whose accesses to the storage
    the first [k] succeed and the next one, if there is one, fails; [None]: none fails.  A call that fails
    leaves root and element length alone; what a panic leaves is not modelled. *)
Definition f_step (H : bytes -> bytes) (m : mode) (o : op) (t : trie) (k : option nat) : outcome fault_error result * trie :=
  match f_call H m o t (tstore t) k with
  | (Ok (x, r, l), st, _) => (Ok x, mkTrie r st l)
  | (Err e, st, _) => (Err e, mkTrie (root t) st (element_length t))
  | (Panic, st, _) => (Panic, mkTrie (root t) st (element_length t))
  end.
(** Calls one after the other, each with its fault, up to a panic; trie.rs:61-142. *)
Fixpoint f_run (H : bytes -> bytes) (m : mode) (calls : list (op * option nat)) (t : trie) : list (outcome fault_error result) * trie :=
  match calls with
  | [] => ([], t)
  | (o, k) :: r =>
      match f_step H m o t k with
      | (Panic, t') => ([Panic], t')
      | (x, t') => let (xs, t'') := f_run H m r t' in (x :: xs, t'')
      end
  end.
