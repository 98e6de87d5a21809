(** Vocabulary for Merkle proofs for roots of unknown origin. *)
From Verif Require Import Base MerkleArraySpec.

(** The number of levels that a verifier climbs from the given nodes until the proof is used up and one node is left
    (at most [fuel]). *)
Fixpoint levels_climbed (H : bytes -> bytes) (fuel : nat) (nodes : list (N * bytes)) (proof : list bytes) : nat :=
  match fuel, proof, nodes with
  | O, _, _ | _, [], [_] => 0
  | S f, _, _ =>
      match climb nodes proof with
      | None => 0
      | Some (up, lft) => S (levels_climbed H f (map (fun n => (fst n, H (snd n))) up) lft)
      end
  end.
