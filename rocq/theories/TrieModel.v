(** Merkle trie with node cache and in-memory storage: translation of
    src/crypto/merkletrie/{trie,node,cache,storage}.rs. *)
From Verif Require Import Base.

(** ** Nodes, node.rs:12-26 *)

(** Node, node.rs:13-19.  [children] is [Option<[Option<NodeID>; 256]>]. *)
Record node := mkNode {
  dirty : bool;
  nhash : bytes;
  children : option (list (option N))
}.

(** #[derive(Default)] of Node, node.rs:12. *)
Definition default_node : node := mkNode false [] None.

(** Node::is_leaf, node.rs:23-25. *)
Definition is_leaf (n : node) : bool :=
  match children n with None => true | Some _ => false end.

(** [[None; 256]], node.rs:69, 79, 246. *)
Definition no_children : list (option N) := repeat None 256.

(** Position of a byte used as array index, [usize::from(b)]. node.rs:32, 70, 80, 89, 171, 253. *)
Definition idx (b : byte) : nat := N.to_nat (Byte.to_N b).

(** [array[i] = v]. node.rs:70-71, 80, 98, 108, 175, 180, 253. *)
Fixpoint set_nth {A} (i : nat) (v : A) (l : list A) : list A :=
  match l, i with
  | [], _ => []
  | _ :: r, O => v :: r
  | x :: r, S i' => x :: set_nth i' v r
  end.

(** ** Stored form of a node *)

(** LEB128 as written by [write_varint] of the crate integer_encoding
    (node.rs:218, 229): seven bits per byte, lowest first, top bit set on all but the
    last byte.  A u64 needs at most ten bytes. *)
Fixpoint write_varint_fuel (fuel : nat) (n : N) : bytes :=
  match fuel with
  | O => []
  | S f => if (n <? 128)%N then [b8 n] else b8 (n mod 128 + 128)%N :: write_varint_fuel f (n / 128)%N
  end.
(** node.rs:218, 229. *)
Definition write_varint (n : N) : bytes := write_varint_fuel 10 n.

(** [read_varint] of the same crate (node.rs:238, 252): at most ten bytes are read;
    bits beyond the 64th are shifted out. *)
Fixpoint read_varint_fuel (fuel : nat) (buf : bytes) : option (N * bytes) :=
  match fuel, buf with
  | S f, b :: r =>
      let v := Byte.to_N b in
      if (v <? 128)%N then Some (v, r)
      else match read_varint_fuel f r with
           | Some (hi, r') => Some ((v - 128) + 128 * hi, r')%N
           | None => None
           end
  | _, _ => None
  end.
(** node.rs:238, 252. *)
Definition read_varint (buf : bytes) : option (N * bytes) :=
  match read_varint_fuel 10 buf with
  | Some (v, r) => Some (v mod two64, r)%N
  | None => None
  end.

(** The loop of Node::serialize, node.rs:226-231, from slot [i] on. *)
Fixpoint serialize_children (i : nat) (cs : list (option N)) : bytes :=
  match cs with
  | [] => []
  | None :: r => serialize_children (S i) r
  | Some cid :: r => b8 (N.of_nat i) :: write_varint cid ++ serialize_children (S i) r
  end.

(** Node::serialize, node.rs:217-232. *)
Definition serialize (n : node) : bytes :=
  write_varint (N.of_nat (length (nhash n))) ++ nhash n ++
  match children n with
  | None => [x00]
  | Some cs => x01 :: serialize_children 0 cs
  end.

(** The [while cursor.position() < buf.len()] loop of Node::deserialize,
    node.rs:248-254; every iteration consumes input, so the length of the input is
    enough fuel. *)
Fixpoint deserialize_children (fuel : nat) (buf : bytes) (cs : list (option N))
  : option (list (option N)) :=
  match buf with
  | [] => Some cs
  | b :: r =>
      match fuel with
      | O => None
      | S f =>
          match read_varint r with
          | Some (cid, r') => deserialize_children f r' (set_nth (idx b) (Some cid) cs)
          | None => None
          end
      end
  end.

(** [read_exact] of [n] bytes. node.rs:240, 243, 250. *)
Definition read_exact (n : N) (buf : bytes) : option (bytes * bytes) :=
  if (N.of_nat (length buf) <? n)%N then None
  else Some (firstn (N.to_nat n) buf, skipn (N.to_nat n) buf).

(** Node::deserialize, node.rs:235-257.  Simplified: a length field too large to be
    allocated ([vec![0; hash_length]]) gives [None] instead of aborting; it cannot
    come from [serialize]. *)
Definition deserialize (buf : bytes) : option node :=
  match read_varint buf with
  | None => None
  | Some (len, r) =>
      match read_exact len r with
      | None => None
      | Some (h, r) =>
          match r with
          | [] => None
          | is_inner :: r =>
              if Byte.eqb is_inner x01
              then match deserialize_children (length r) r no_children with
                   | Some cs => Some (mkNode false h (Some cs))
                   | None => None
                   end
              else Some (mkNode false h None)
          end
      end
  end.

(** ** Cache and storage *)

(** Errors of CacheError (cache.rs:16-24) and TrieError (trie.rs:22-39) that can occur
    with in-memory storage. *)
Inductive trie_error := MissingNode | NodeDecodingFailure | ElementLengthMismatch.

(** Finite maps (HashMap) as functions. cache.rs:26-31, storage.rs:44-46. *)
Definition upd {A} (f : N -> option A) (k : N) (v : option A) : N -> option A :=
  fun x => if (x =? k)%N then v else f x.

(** MerkleTrieCache, cache.rs:26-31, with InMemoryStorage, storage.rs:44-46. *)
Record store := mkStore {
  storage : N -> option bytes;
  cache : N -> option node;
  next_node_id : N
}.

(** MerkleTrieCache::new, cache.rs:35-41. *)
Definition new_store : store := mkStore (fun _ => None) (fun _ => None) 0.

(** InMemoryStorage::store_node, storage.rs:50-57. *)
Definition store_node (s : N -> option bytes) (id : N) (content : bytes) : N -> option bytes :=
  upd s id (match content with [] => None | _ => Some content end).

(** MerkleTrieCache::allocate_new_node, cache.rs:44-50; the counter is a u64. *)
Definition allocate_new_node (m : mode) (st : store) : outcome trie_error (node * N * store) :=
  let id := next_node_id st in
  match add64 m id 1 with
  | None => Panic
  | Some nxt => Ok (default_node, id, mkStore (storage st) (upd (cache st) id (Some default_node)) nxt)
  end.

(** MerkleTrieCache::get_node, cache.rs:54-66: storage is consulted (and must hold a
    decodable node) even when the cache has an entry, which then takes precedence. *)
Definition get_node (id : N) (st : store) : outcome trie_error (node * store) :=
  match storage st id with
  | None => Err MissingNode
  | Some data =>
      match deserialize data with
      | None => Err NodeDecodingFailure
      | Some n =>
          match cache st id with
          | Some c => Ok (c, st)
          | None => Ok (n, mkStore (storage st) (upd (cache st) id (Some n)) (next_node_id st))
          end
      end
  end.

(** MerkleTrieCache::set_node, cache.rs:68-74. *)
Definition set_node (id : N) (n : node) (st : store) : store :=
  mkStore (store_node (storage st) id (serialize n)) (upd (cache st) id (Some n)) (next_node_id st).

(** MerkleTrieCache::delete_node, cache.rs:78-82. *)
Definition delete_node (id : N) (st : store) : store :=
  mkStore (store_node (storage st) id []) (upd (cache st) id None) (next_node_id st).

(** ** Node operations *)

(** Node::find, node.rs:28-38. *)
Fixpoint find (d : bytes) (self : node) (st : store) : outcome trie_error (bool * store) :=
  (match children self with
   | None => Ok (bytes_eqb d (nhash self), st)
   | Some cs =>
       match d with
       | [] => Panic
       | b :: d' =>
           match nth_error cs (idx b) with
           | None => Panic
           | Some None => Ok (false, st)
           | Some (Some child_id) =>
               let? (child, st) := get_node child_id st in
               find d' child st
           end
       end
   end)%outcome.

(** The loop [while self.hash[idiff] == d[idiff]], node.rs:51-54; [None]: an index is
    out of bounds. *)
Fixpoint first_diff (a b : bytes) : option nat :=
  match a, b with
  | x :: a', y :: b' => if Byte.eqb x y then option_map S (first_diff a' b') else Some 0
  | _, _ => None
  end.

(** The loop [for i in (0..idiff).rev()], node.rs:75-85. *)
Fixpoint parent_chain (m : mode) (d path : bytes) (i : nat) (id : N) (st : store)
  : outcome trie_error (N * store) :=
  (match i with
   | O => Ok (id, st)
   | S i' =>
       match nth_error d i' with
       | None => Panic
       | Some b =>
           let? (_, id2, st) := allocate_new_node m st in
           let pnode2 := mkNode true (path ++ firstn i' d) (Some (set_nth (idx b) (Some id) no_children)) in
           parent_chain m d path i' id2 (set_node id2 pnode2 st)
       end
   end)%outcome.

(** The leaf case of Node::add, node.rs:49-87. *)
Definition split_leaf (m : mode) (d path : bytes) (self : node) (st : store)
  : outcome trie_error (N * store) :=
  (match first_diff (nhash self) d with
   | None => Panic
   | Some idiff =>
       match nth_error d idiff, nth_error (nhash self) idiff with
       | Some bd, Some bh =>
           let? (_, cur_child_id, st) := allocate_new_node m st in
           let st := set_node cur_child_id (mkNode false (skipn (S idiff) (nhash self)) None) st in
           let? (_, new_child_id, st) := allocate_new_node m st in
           let st := set_node new_child_id (mkNode false (skipn (S idiff) d) None) st in
           let? (_, id, st) := allocate_new_node m st in
           let cs := set_nth (idx bh) (Some cur_child_id)
                       (set_nth (idx bd) (Some new_child_id) no_children) in
           let st := set_node id (mkNode true (path ++ firstn idiff d) (Some cs)) st in
           parent_chain m d path idiff id st
       | _, _ => Panic
       end
   end)%outcome.

(** Node::add, node.rs:42-114.  In the last case the child's record is reused: only
    its [dirty], [children] and [hash] fields exist and all three are overwritten. *)
Fixpoint node_add (m : mode) (d path : bytes) (self : node) (st : store)
  : outcome trie_error (N * store) :=
  (match children self with
   | None => split_leaf m d path self st
   | Some cs =>
       match d with
       | [] => Panic
       | b :: d' =>
           match nth_error cs (idx b) with
           | None => Panic
           | Some None =>
               let? (_, child_id, st) := allocate_new_node m st in
               let st := set_node child_id (mkNode false d' None) st in
               let? (_, id, st) := allocate_new_node m st in
               Ok (id, set_node id (mkNode true path (Some (set_nth (idx b) (Some child_id) cs))) st)
           | Some (Some cur_id) =>
               let? (child, st) := get_node cur_id st in
               let? (updated_child, st) := node_add m d' (path ++ [b]) child st in
               Ok (cur_id,
                   set_node cur_id (mkNode true path (Some (set_nth (idx b) (Some updated_child) cs))) st)
           end
       end
   end)%outcome.

(** The scan for a single child, node.rs:184-194: index and id of the last child looked
    at, and their number (the scan stops at two). *)
Fixpoint scan_children (i : nat) (cs : list (option N)) (acc : nat * N * N) : nat * N * N :=
  match cs with
  | [] => acc
  | None :: r => scan_children (S i) r acc
  | Some cid :: r =>
      let num := (snd acc + 1)%N in
      if (1 <? num)%N then (i, cid, num) else scan_children (S i) r (i, cid, num)
  end.

(** Node::remove, node.rs:164-214. *)
Fixpoint node_remove (key path : bytes) (self : node) (st : store)
  : outcome trie_error (N * store) :=
  (match children self with
   | None => Panic
   | Some cs =>
       match key with
       | [] => Panic
       | b :: key' =>
           match nth_error cs (idx b) with
           | Some (Some nid) =>
               let? (n, st) := get_node nid st in
               let? (cs', st) :=
                 (if is_leaf n
                  then Ok (set_nth (idx b) None cs, st)
                  else let? (updated, st) := node_remove key' (path ++ [b]) n st in
                       Ok (set_nth (idx b) (Some updated) cs, st)) in
               let '(hash_idx, child_id, num_children) := scan_children 0 cs' (0, 0%N, 0%N) in
               let? (n', st) :=
                 (if (num_children =? 1)%N
                  then let? (child, st) := get_node child_id st in
                       if is_leaf child
                       then Ok (mkNode false (b8 (N.of_nat hash_idx) :: nhash child) None,
                                delete_node child_id st)
                       else Ok (mkNode true path (Some cs'), st)
                  else Ok (mkNode true path (Some cs'), st)) in
               Ok (nid, set_node nid n' st)
           | _ => Panic
           end
       end
   end)%outcome.

(** First loop of Node::calculate_hash, node.rs:127-133; [rec] is the recursive call. *)
Fixpoint hash_children (rec : node -> store -> outcome trie_error (node * store))
    (cs : list (option N)) (st : store) : outcome trie_error store :=
  (match cs with
   | [] => Ok st
   | None :: r => hash_children rec r st
   | Some id :: r =>
       let? (child, st) := get_node id st in
       if negb (is_leaf child) && dirty child
       then let? (child', st) := rec child st in
            hash_children rec r (set_node id child' st)
       else hash_children rec r st
   end)%outcome.

(** Second loop of Node::calculate_hash, node.rs:141-155, from slot [i] on. *)
Fixpoint accumulate (i : nat) (cs : list (option N)) (st : store)
  : outcome trie_error (bytes * store) :=
  (match cs with
   | [] => Ok ([], st)
   | None :: r => accumulate (S i) r st
   | Some id :: r =>
       let? (child, st) := get_node id st in
       let? (rest, st) := accumulate (S i) r st in
       Ok ((if is_leaf child then x00 else x01) :: b8 (N.of_nat (length (nhash child)))
             :: b8 (N.of_nat i) :: nhash child ++ rest, st)
   end)%outcome.

(** Node::calculate_hash, node.rs:117-160.  The recursion follows stored ids; running
    out of fuel counts as a panic (the Rust stack would overflow on a cyclic store). *)
Fixpoint calculate_hash (H : bytes -> bytes) (fuel : nat) (self : node) (st : store)
  : outcome trie_error (node * store) :=
  (match fuel with
   | O => Panic
   | S f =>
       match children self with
       | None => Ok (self, st)
       | Some cs =>
           if negb (dirty self) then Ok (self, st)
           else
             let? st := hash_children (calculate_hash H f) cs st in
             let? (acc, st) := accumulate 0 cs st in
             Ok (mkNode false
                   (H (b8 (N.of_nat (length (nhash self))) :: nhash self ++ acc)) (Some cs), st)
       end
   end)%outcome.

(** ** The trie *)

(** Trie, trie.rs:42-48. *)
Record trie := mkTrie {
  root : option N;
  tstore : store;
  element_length : N
}.

(** Trie::new, trie.rs:52-58. *)
Definition new_trie : trie := mkTrie None new_store 0.

(** [d.len() as u32], trie.rs:85. *)
Definition len32 (d : bytes) : N := (N.of_nat (length d) mod 2 ^ 32)%N.

(** Trie::root_hash, trie.rs:61-74.  No path has more nodes than were ever allocated, so
    that number is enough fuel also for elements of different lengths. *)
Definition root_hash (H : bytes -> bytes) (t : trie) : outcome trie_error (bytes * trie) :=
  (match root t with
   | None => Ok (zero32, t)
   | Some root_id =>
       let? (r, st) := get_node root_id (tstore t) in
       let? (r, st) := calculate_hash H (S (N.to_nat (element_length t) + N.to_nat (next_node_id (tstore t)))) r st in
       let st := set_node root_id r st in
       Ok (H ((if is_leaf r then x00 else x01) :: nhash r), mkTrie (root t) st (element_length t))
   end)%outcome.

(** Trie::add, trie.rs:78-107. *)
Definition add (m : mode) (d : bytes) (t : trie) : outcome trie_error (bool * trie) :=
  (match root t with
   | None =>
       let? (_, id, st) := allocate_new_node m (tstore t) in
       Ok (true, mkTrie (Some id) (set_node id (mkNode false d None) st) (len32 d))
   | Some root_id =>
       let? (pnode, st) := get_node root_id (tstore t) in
       let? (found, st) := find d pnode st in
       if found then Ok (false, mkTrie (root t) st (element_length t))
       else let? (updated_root, st) := node_add m d [] pnode st in
            Ok (true, mkTrie (Some updated_root) (delete_node root_id st) (element_length t))
   end)%outcome.

(** Trie::delete, trie.rs:111-142. *)
Definition delete (d : bytes) (t : trie) : outcome trie_error (bool * trie) :=
  (match root t with
   | None => Ok (false, t)
   | Some root_id =>
       if negb (N.of_nat (length d) =? element_length t)%N then Err ElementLengthMismatch
       else
         let? (pnode, st) := get_node root_id (tstore t) in
         let? (found, st) := find d pnode st in
         if negb found then Ok (false, mkTrie (root t) st (element_length t))
         else if is_leaf pnode
         then Ok (true, mkTrie None (delete_node root_id st) 0)
         else let? (updated_root, st) := node_remove d [] pnode st in
              Ok (true, mkTrie (Some updated_root) (delete_node root_id st) (element_length t))
   end)%outcome.

(** Calls of the public API and their results. trie.rs:61, 78, 111. *)
Inductive op := Add (k : bytes) | Delete (k : bytes) | RootHash.
(** What the calls return, trie.rs:61, 78, 111. *)
Inductive result := RBool (b : bool) | RHash (h : bytes).

(** One call, trie.rs:61-140. *)
Definition step (H : bytes -> bytes) (m : mode) (o : op) (t : trie)
  : outcome trie_error (result * trie) :=
  (match o with
   | Add k => let? (b, t) := add m k t in Ok (RBool b, t)
   | Delete k => let? (b, t) := delete k t in Ok (RBool b, t)
   | RootHash => let? (h, t) := root_hash H t in Ok (RHash h, t)
   end)%outcome.

(** A history: the calls one after the other, up to the first error or panic.
    (What a failed call leaves in the cache is not modelled.); trie.rs:61-140. *)
Fixpoint run (H : bytes -> bytes) (m : mode) (ops : list op) (t : trie)
  : outcome trie_error (list result * trie) :=
  (match ops with
   | [] => Ok ([], t)
   | o :: r =>
       let? (x, t) := step H m o t in
       let? (xs, t) := run H m r t in
       Ok (x :: xs, t)
   end)%outcome.
