(** Vocabulary for the size of the storage of a Merkle trie. *)
From Verif Require Import Base BaseFacts TrieSpec.

(** ** C153 *)
(** The strings with which a key begins. *)
Definition prefixes (k : bytes) : list bytes := map (fun i => firstn i k) (seq 0 (S (length k))).
(** The strings with which at least two of the keys begin, each once. *)
Definition shared (S : list bytes) : list bytes :=
  nodup bytes_eq_dec (filter (fun p => Nat.leb 2 (length (filter (begins_with p) S))) (flat_map prefixes S)).
