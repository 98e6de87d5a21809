(** Vocabulary for tries on storage that can fail. *)
From Verif Require Import Base TrieModel TrieSpec TrieFaultModel.

(** The fault, if any, comes after the first [n] accesses. *)
Definition spared (n : nat) (k : option nat) : Prop := match k with None => True | Some j => n <= j end.
(** The answer and the trie after it are those of a call that met no fault. *)
Definition unharmed (o : outcome trie_error (result * trie)) (f : outcome fault_error result * trie) : Prop :=
  match o with
  | Ok (x, t') => f = (Ok x, t')
  | Err e => fst f = Err (Other e)
  | Panic => fst f = Panic
  end.

(** Faults meet only calls that change nothing: root hashes, additions of members and deletions of
    others; [S] and [L] are the members and the element length as in [ref_step]. *)
Fixpoint only_harmless (H : bytes -> bytes) (S : list bytes) (L : nat) (calls : list (op * option nat)) : Prop :=
  match calls with
  | [] => True
  | (o, k) :: r =>
      (k = None \/ o = RootHash \/ exists s, ref_step H S L o = Ok (RBool false, s)) /\
      match ref_step H S L o with
      | Ok (_, (S', L')) => only_harmless H S' L' r
      | Err _ => only_harmless H S L r
      | Panic => True
      end
  end.
(** The answers are those of the set, except that calls with a fault may fail without any effect. *)
Inductive answered (H : bytes -> bytes) : list bytes -> nat -> list (op * option nat) -> list (outcome fault_error result) -> Prop :=
| no_calls S L : answered H S L [] []
| answer S L o k x S' L' calls xs : ref_step H S L o = Ok (x, (S', L')) -> answered H S' L' calls xs -> answered H S L ((o, k) :: calls) (Ok x :: xs)
| refusal S L o k e calls xs : ref_step H S L o = Err e -> answered H S L calls xs -> answered H S L ((o, k) :: calls) (Err (Other e) :: xs)
| panic S L o k calls : ref_step H S L o = Panic -> answered H S L ((o, k) :: calls) [Panic]
| fault S L o j calls xs : answered H S L calls xs -> answered H S L ((o, Some j) :: calls) (Err StorageAccessFailed :: xs).
