(** The reference of TrieSpec for histories that go on after a refused call. *)
From Verif Require Import Base TrieModel TrieSpec.

Fixpoint ref_run_on (H : bytes -> bytes) (ops : list op) (S : list bytes) (L : nat) : list (outcome trie_error result) :=
  match ops with
  | [] => []
  | o :: r =>
      match ref_step H S L o with
      | Ok (x, (S', L')) => Ok x :: ref_run_on H r S' L'
      | Err e => Err e :: ref_run_on H r S L
      | Panic => [Panic]
      end
  end.
