(** The documented size of nodes, src/crypto/merkletrie/trie.rs. *)
From Verif Require Import Base.
Local Open Scope N_scope.

(** "Serialized size of the biggest node", trie.rs:13-15; no code uses it *)
Definition MAX_NODE_SERIALIZED_SIZE : N := 3000.
