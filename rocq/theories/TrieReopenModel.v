(** A trie that goes on with what is in a storage, as after a restart of the node. *)
From Verif Require Import Base TrieModel.

(** [let mut t = Trie::new(storage); t.root = root;], the way the interface offers to go on with stored
    nodes: Trie::new, trie.rs:52-58; MerkleTrieCache::new, cache.rs:35-41; the public field [root],
    trie.rs:43.  The cache is empty, the counter of nodes starts at 0, and the length of the elements,
    which is private, is 0. *)
Definition reopen (t : trie) : trie := mkTrie (root t) (mkStore (storage (tstore t)) (fun _ => None) 0) 0.
