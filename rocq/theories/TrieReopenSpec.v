(** Vocabulary for tries that go on after a restart. *)
From Verif Require Import Base TrieModel.

(** What the calls return. *)
Definition answers (o : outcome trie_error (list result * trie)) : outcome trie_error (list result) :=
  match o with Ok (xs, _) => Ok xs | Err e => Err e | Panic => Panic end.
(** A restart that loses the cache only: not what the code does, for comparison. *)
Definition drop_cache (t : trie) : trie :=
  mkTrie (root t) (mkStore (storage (tstore t)) (fun _ => None) (next_node_id (tstore t))) (element_length t).
