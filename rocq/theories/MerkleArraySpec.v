(** Vocabulary for the Merkle array properties. *)
From Verif Require Import Base.

(** The byte string hashed for an interior node with children [l] and [r]. *)
Definition node_string (l r : bytes) : bytes := str "MA" ++ l ++ r.

(** The strings hashed to get from one layer to the next one: neighbours are
    paired, a missing right neighbour counts as the all-zero hash. *)
Fixpoint pair_strings (layer : list bytes) : list bytes :=
  match layer with
  | [] => []
  | [a] => [node_string a zero32]
  | a :: b :: r => node_string a b :: pair_strings r
  end.

(** All strings hashed while building the tree above [layer]. *)
Fixpoint interior_strings (H : bytes -> bytes) (fuel : nat) (layer : list bytes) : list bytes :=
  match fuel with
  | O => []
  | S f => if Nat.leb (length layer) 1 then []
           else pair_strings layer ++ interior_strings H f (map H (pair_strings layer))
  end.

(** All strings hashed while building the tree for the array [xs]. *)
Definition tree_strings (H : bytes -> bytes) (xs : list bytes) : list bytes :=
  xs ++ interior_strings H (length xs) (map H xs).

(** One level of recomputation by a verifier: each known node (position, hash) is
    combined with its sibling, which is either the next known node or the next
    element of the proof.  Gives the parent positions with the strings to be hashed,
    and the unused part of the proof. *)
Fixpoint climb (nodes : list (N * bytes)) (proof : list bytes)
  : option (list (N * bytes) * list bytes) :=
  match nodes with
  | [] => Some ([], proof)
  | (p, h) :: rest =>
      let order s := if N.even p then node_string h s else node_string s h in
      let sibling := if N.even p then (p + 1)%N else (p - 1)%N in
      let use_proof :=
        match proof with
        | [] => None
        | s :: proof' =>
            match climb rest proof' with
            | Some (up, lft) => Some (((p / 2)%N, order s) :: up, lft)
            | None => None
            end
        end in
      match rest with
      | (q, s) :: rest' =>
          if (q =? sibling)%N
          then match climb rest' proof with
               | Some (up, lft) => Some (((p / 2)%N, order s) :: up, lft)
               | None => None
               end
          else use_proof
      | [] => use_proof
      end
  end.

(** All strings hashed by a verifier that starts from the given nodes and climbs
    until the proof is used up and one node is left (at most [fuel] levels). *)
Fixpoint climb_strings (H : bytes -> bytes) (fuel : nat)
    (nodes : list (N * bytes)) (proof : list bytes) : list bytes :=
  match fuel with
  | O => []
  | S f =>
      match climb nodes proof with
      | None => []
      | Some (up, lft) =>
          map snd up ++ climb_strings H f (map (fun n => (fst n, H (snd n))) up) lft
      end
  end.

(** The entries (position, hash) sorted by position. *)
Definition sorted_by_position (l : list (N * bytes)) : Prop :=
  forall i j a b, nth_error l i = Some a -> nth_error l j = Some b ->
    (i < j)%nat -> (fst a < fst b)%N.

(** Data of a leaf never starts with the interior-node prefix. *)
Definition leaf_data (x : bytes) : Prop := ~ prefix_of (str "MA") x.
