(** Histories that go on after a refused call. *)
From Verif Require Import Base TrieModel.

(** The calls one after the other.  A call refused because of the length of its key returns before it
    changes anything (trie.rs:114-116), so the next one finds the same trie.  Other failures end the
    history: what they leave behind is not modelled.  trie.rs:61-142. *)
Fixpoint run_on (H : bytes -> bytes) (m : mode) (ops : list op) (t : trie) : list (outcome trie_error result) :=
  match ops with
  | [] => []
  | o :: r =>
      match step H m o t with
      | Ok (x, t') => Ok x :: run_on H m r t'
      | Err ElementLengthMismatch => Err ElementLengthMismatch :: run_on H m r t
      | Err e => [Err e]
      | Panic => [Panic]
      end
  end.
