(** Vocabulary for the cost of operations on the trie. *)
From Verif Require Import Base TrieModel.

(** Outside of [ids] the storage holds what it held before. *)
Definition changes_only (ids : list N) (t t' : trie) : Prop :=
  forall id, ~ In id ids -> storage (tstore t') id = storage (tstore t) id.
(** How many stored nodes a call may change, and how many together with the root hash after it. *)
Definition most_changes (o : op) : nat :=
  match o with
  | Add k => length k + 3
  | Delete k => 2 * length k + 1
  | RootHash => 1
  end.
