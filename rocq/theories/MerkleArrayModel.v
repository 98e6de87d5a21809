(** Merkle tree over an array: translation of
    src/crypto/merklearray/{layer,partial,merkle}.rs. *)
From Verif Require Import Base.

(** Hash identifier of an interior node, src/protocol/hash.rs (MERKLE_ARRAY_NODE). *)
Definition MERKLE_ARRAY_NODE : bytes := str "MA".

(** impl Hashable for Pair, src/crypto/merklearray/layer.rs:39-46, together with
    Hashable::hash_rep, src/crypto/hashable.rs:35-38. *)
Definition pair_rep (l r : bytes) : bytes := MERKLE_ARRAY_NODE ++ l ++ r.

(** Layer, layer.rs:12: a list of 32-byte hashes.  Layer::up, layer.rs:23-36:
    [par_chunks(2)] with a missing right neighbour replaced by the zero hash. *)
Fixpoint layer_up (H : bytes -> bytes) (l : list bytes) : list bytes :=
  match l with
  | [] => []
  | [a] => [H (pair_rep a zero32)]
  | a :: b :: r => H (pair_rep a b) :: layer_up H r
  end.

(** The [while tree.top_layer().0.len() > 1] loop, merkle.rs:30-32: the levels from
    [top] on.  [None]: the fuel did not suffice. *)
Fixpoint levels_from (H : bytes -> bytes) (fuel : nat) (top : list bytes)
  : option (list (list bytes)) :=
  if Nat.leb (length top) 1 then Some [top]
  else match fuel with
       | O => None
       | S f => match levels_from H f (layer_up H top) with
                | Some ls => Some (top :: ls)
                | None => None
                end
       end.

(** Tree::from_array, merkle.rs:23-35.  An array element is represented by its
    [hash_rep] (the byte string that [hash_obj] hashes).  rayon's [par_iter] is
    order preserving, hence a [map].  Halving needs no more steps than elements. *)
Definition from_array (H : bytes -> bytes) (array : list bytes)
  : option (list (list bytes)) :=
  levels_from H (length array) (map H array).

(** Tree::root, merkle.rs:70-77.  [levels[0]] panics when there are no levels. *)
Definition root (levels : list (list bytes)) : outcome unit bytes :=
  match levels with
  | [] => Panic
  | l0 :: _ =>
      match l0 with
      | [] => Ok zero32
      | _ => match last levels [] with
             | r :: _ => Ok r
             | [] => Panic
             end
      end
  end.

(** LayerItem, partial.rs:25-28: position and hash. *)
Notation item := (N * bytes)%type (only parsing).

(** Siblings::get, partial.rs:32-54: returns the sibling and the new hints.
    [tree = []] is verify mode. *)
Definition siblings_get (tree : list (list bytes)) (hints : list bytes) (l i : N)
  : outcome unit (bytes * list bytes) :=
  match tree with
  | [] => match hints with
          | h :: hs => Ok (h, hs)
          | [] => Err tt
          end
  | _ =>
      if (N.of_nat (length tree) <=? l)%N then Err tt
      else match nth_error tree (N.to_nat l) with
           | None => Panic
           | Some layer =>
               let res := match nth_error layer (N.to_nat i) with
                          | Some h => h
                          | None => zero32
                          end in
               Ok (res, hints ++ [res])
           end
  end.

(** One iteration of PartialLayer::up, partial.rs:82-105: the item of the next layer. *)
Definition next_item (H : bytes -> bytes) (do_hash : bool) (pos : N) (hash sibling : bytes)
  : item :=
  ((pos / 2)%N,
    if do_hash
    then if N.even pos then H (pair_rep hash sibling) else H (pair_rep sibling hash)
    else zero32).

(** PartialLayer::up, partial.rs:65-109. *)
Fixpoint partial_up (H : bytes -> bytes) (tree : list (list bytes)) (hints : list bytes)
    (l : N) (do_hash : bool) (items : list item)
  : outcome unit (list item * list bytes) :=
  (match items with
   | [] => Ok ([], hints)
   | (pos, hash) :: rest =>
       let sibling_pos := N.lxor pos 1 in
       let from_hints :=
         let? (sib, hints1) := siblings_get tree hints l sibling_pos in
         let? (res, hints2) := partial_up H tree hints1 l do_hash rest in
         Ok (next_item H do_hash pos hash sib :: res, hints2) in
       match rest with
       | (pos2, hash2) :: rest2 =>
           if (pos2 =? sibling_pos)%N
           then let? (res, hints2) := partial_up H tree hints l do_hash rest2 in
                Ok (next_item H do_hash pos hash hash2 :: res, hints2)
           else from_hints
       | [] => from_hints
       end
   end)%outcome.

(** [sort_unstable] on the positions (merkle.rs:93) and [sort_by] on the items
    (merkle.rs:160), both as insertion sort. *)
Fixpoint insert_pos (p : N) (l : list N) : list N :=
  match l with
  | [] => [p]
  | q :: r => if (p <=? q)%N then p :: q :: r else q :: insert_pos p r
  end.
(** merkle.rs:93 *)
Definition sort_pos (l : list N) : list N := fold_right insert_pos [] l.
(** merkle.rs:160 *)
Fixpoint insert_item (i : item) (l : list item) : list item :=
  match l with
  | [] => [i]
  | q :: r => if (fst i <=? fst q)%N then i :: q :: r else q :: insert_item i r
  end.
(** merkle.rs:160 *)
Definition sort_items (l : list item) : list item := fold_right insert_item [] l.

(** The [for &pos in idxs.iter()] loop of Tree::prove, merkle.rs:96-111: [pl] is the
    partial layer built so far. *)
Fixpoint collect (l0 : list bytes) (pl : list item) (idxs : list N) : outcome unit (list item) :=
  match idxs with
  | [] => Ok pl
  | pos :: r =>
      if (N.of_nat (length l0) <=? pos)%N then Err tt
      else if match pl with
              | [] => false
              | _ => (fst (last pl (0%N, [])) =? pos)%N
              end
      then collect l0 pl r
      else match nth_error l0 (N.to_nat pos) with
           | Some h => collect l0 (pl ++ [(pos, h)]) r
           | None => Panic
           end
  end.

(** The [for l in 0..self.levels.len() - 1] loop of Tree::prove, merkle.rs:118-120:
    [n] iterations from level [l] on. *)
Fixpoint prove_loop (H : bytes -> bytes) (tree : list (list bytes)) (n : nat) (l : N)
    (pl : list item) (hints : list bytes) : outcome unit (list item * list bytes) :=
  (match n with
   | O => Ok (pl, hints)
   | S n' =>
       let? (pl', hints') := partial_up H tree hints l false pl in
       prove_loop H tree n' (l + 1)%N pl' hints'
   end)%outcome.

(** Tree::prove, merkle.rs:80-137 (VALIDATE_PROOF is [false]). *)
Definition prove (H : bytes -> bytes) (tree : list (list bytes)) (idxs : list N)
  : outcome unit (list bytes) :=
  (match idxs with
   | [] => Ok []
   | _ =>
       match tree with
       | [] => Err tt
       | l0 :: _ =>
           let? pl := collect l0 [] (sort_pos idxs) in
           let? (pl', hints) := prove_loop H tree (length tree - 1) 0%N pl [] in
           if Nat.eqb (length pl') 1 then Ok hints else Err tt
       end
   end)%outcome.

Definition MAX_HEIGHT : N := 64. (* merkle.rs:12 *)

(** The [while !s.hints.is_empty() || pl.0.len() > 1] loop of Tree::verify,
    merkle.rs:168-177.  [None]: the fuel did not suffice. *)
Fixpoint verify_loop (H : bytes -> bytes) (fuel : nat) (l : N)
    (pl : list item) (hints : list bytes) : option (outcome unit (list item)) :=
  if match hints with [] => false | _ => true end || Nat.ltb 1 (length pl)
  then match fuel with
       | O => None
       | S f =>
           match partial_up H [] hints l true pl with
           | Ok (pl', hints') =>
               if (MAX_HEIGHT <? l + 1)%N then Some (Err tt)
               else verify_loop H f (l + 1)%N pl' hints'
           | Err e => Some (Err e)
           | Panic => Some Panic
           end
       end
  else Some (Ok pl).

(** Tree::verify, merkle.rs:141-186.  [elems] lists the entries of the [HashMap] in
    its (arbitrary) iteration order. *)
Definition verify (H : bytes -> bytes) (root : bytes) (elems : list item)
    (proof : list bytes) : option (outcome unit unit) :=
  match elems with
  | [] => match proof with
          | [] => Some (Ok tt)
          | _ => Some (Err tt)
          end
  | _ =>
      match verify_loop H 65 0%N (sort_items elems) proof with
      | None => None
      | Some (Ok pl) =>
          match pl with
          | [] => Some Panic
          | (pos, h) :: _ =>
              if negb (pos =? 0)%N || negb (bytes_eqb h root)
              then Some (Err tt)
              else Some (Ok tt)
          end
      | Some (Err e) => Some (Err e)
      | Some Panic => Some Panic
      end
  end.
