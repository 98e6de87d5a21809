(** What the Merkle trie is supposed to be: a set of keys of one length, and a hash of
    that set defined directly from the set. *)
From Verif Require Import Base TrieModel.

(** ** Set of members after a history *)

Definition is_member (k : bytes) (S : list bytes) : bool := existsb (bytes_eqb k) S.
Definition remove_key (k : bytes) (S : list bytes) : list bytes :=
  filter (fun x => negb (bytes_eqb k x)) S.

(** Members after one call. *)
Definition members_step (S : list bytes) (o : op) : list bytes :=
  match o with
  | Add k => if is_member k S then S else k :: S
  | Delete k => remove_key k S
  | RootHash => S
  end.
Definition members (ops : list op) : list bytes := fold_left members_step ops [].

(** ** Hash of a set of keys *)

Definition all_bytes : list byte := map (fun i => b8 (N.of_nat i)) (seq 0 256).

(** What remains of the keys starting with [b]. *)
Fixpoint tails (b : byte) (S : list bytes) : list bytes :=
  match S with
  | [] => []
  | (c :: k) :: r => if Byte.eqb b c then k :: tails b r else tails b r
  | [] :: r => tails b r
  end.

(** The label of the subtree holding the keys [path ++ s], [s] in [S] (all of length
    [n]): a single key is a leaf labelled with what remains of the key; otherwise the
    label is the hash of the path and of the labels of the non-empty subtrees, each
    with its kind, length and first byte. *)
Fixpoint set_label (H : bytes -> bytes) (n : nat) (path : bytes) (S : list bytes)
  : bool * bytes :=
  match S with
  | [s] => (true, s)
  | _ =>
      match n with
      | O => (false, [])
      | Datatypes.S n' =>
          (false,
           H (b8 (N.of_nat (length path)) :: path ++
              flat_map (fun b =>
                match tails b S with
                | [] => []
                | T => let '(leaf, h) := set_label H n' (path ++ [b]) T in
                       (if leaf then x00 else x01) :: b8 (N.of_nat (length h)) :: b :: h
                end) all_bytes))
      end
  end.

(** The root hash of a set of keys of length [n]. *)
Definition set_root (H : bytes -> bytes) (n : nat) (S : list bytes) : bytes :=
  match S with
  | [] => zero32
  | _ => let '(leaf, h) := set_label H n [] S in H ((if leaf then x00 else x01) :: h)
  end.

(** The strings hashed to compute the label of a subtree. *)
Fixpoint label_strings (H : bytes -> bytes) (n : nat) (path : bytes) (S : list bytes)
  : list bytes :=
  match S with
  | [s] => []
  | _ =>
      match n with
      | O => []
      | Datatypes.S n' =>
          (b8 (N.of_nat (length path)) :: path ++
              flat_map (fun b =>
                match tails b S with
                | [] => []
                | T => let '(leaf, h) := set_label H n' (path ++ [b]) T in
                       (if leaf then x00 else x01) :: b8 (N.of_nat (length h)) :: b :: h
                end) all_bytes)
          :: flat_map (fun b =>
                match tails b S with
                | [] => []
                | T => label_strings H n' (path ++ [b]) T
                end) all_bytes
      end
  end.

(** The strings hashed to compute the root hash. *)
Definition root_strings (H : bytes -> bytes) (n : nat) (S : list bytes) : list bytes :=
  match S with
  | [] => []
  | _ => (let '(leaf, h) := set_label H n [] S in (if leaf then x00 else x01) :: h)
         :: label_strings H n [] S
  end.

(** ** Expected results of a history *)

Definition expected_step (H : bytes -> bytes) (n : nat) (S : list bytes) (o : op) : result :=
  match o with
  | Add k => RBool (negb (is_member k S))
  | Delete k => RBool (is_member k S)
  | RootHash => RHash (set_root H n S)
  end.
Fixpoint expected (H : bytes -> bytes) (n : nat) (S : list bytes) (ops : list op) : list result :=
  match ops with
  | [] => []
  | o :: r => expected_step H n S o :: expected H n (members_step S o) r
  end.

Definition key_length (n : nat) (o : op) : Prop :=
  match o with
  | Add k | Delete k => length k = n
  | RootHash => True
  end.

(** The history is short enough for the 64-bit node counter (an insertion needs at
    most [n + 2] new nodes), and keys are shorter than 2^32 bytes. *)
Definition small_history (n : nat) (ops : list op) : Prop :=
  (N.of_nat n < 2 ^ 32)%N /\ (N.of_nat (length ops) * (N.of_nat n + 3) < two64)%N.

(** One of the two keys begins with the other. *)
Definition comparable (a b : bytes) : Prop := (exists r, a = b ++ r) \/ (exists r, b = a ++ r).

(** No key begins with another. *)
Definition prefix_free (S : list bytes) : Prop := forall a b, In a S -> In b S -> comparable a b -> a = b.

(** ** Keys of any lengths *)

(** [k] begins with [p]. *)
Fixpoint begins_with (p k : bytes) : bool :=
  match p, k with
  | [], _ => true
  | x :: p', y :: k' => Byte.eqb x y && begins_with p' k'
  | _ :: _, [] => false
  end.
Definition longest (S : list bytes) : nat := fold_right (fun k n => Nat.max (length k) n) 0%nat S.

(** What the trie does, in terms of the set of members [S] and the length [L] of the key that was
    added first since the trie was last empty.  A key that begins with a member, or with which a member
    begins, cannot be added; only keys of length [L] can be deleted; and asking for the deletion of a
    key of that length that is not a member fails if two members begin with it. *)
Definition ref_add (S : list bytes) (L : nat) (k : bytes) : outcome trie_error (bool * (list bytes * nat)) :=
  if is_member k S then Ok (false, (S, L)) else
  match S with
  | [] => Ok (true, ([k], length k))
  | _ => if existsb (fun x => begins_with k x || begins_with x k) S then Panic else Ok (true, (k :: S, L))
  end.
Definition ref_delete (S : list bytes) (L : nat) (k : bytes) : outcome trie_error (bool * (list bytes * nat)) :=
  match S with
  | [] => Ok (false, (S, L))
  | _ =>
      if negb (length k =? L)%nat then Err ElementLengthMismatch
      else if is_member k S then Ok (true, (remove_key k S, L))
      else if (2 <=? length (filter (begins_with k) S))%nat then Panic
      else Ok (false, (S, L))
  end.
Definition ref_step (H : bytes -> bytes) (S : list bytes) (L : nat) (o : op) : outcome trie_error (result * (list bytes * nat)) :=
  match o with
  | Add k => let? (b, s) := ref_add S L k in Ok (RBool b, s)
  | Delete k => let? (b, s) := ref_delete S L k in Ok (RBool b, s)
  | RootHash => Ok (RHash (set_root H (longest S) S), (S, L))
  end%outcome.
Fixpoint ref_run (H : bytes -> bytes) (ops : list op) (S : list bytes) (L : nat) : outcome trie_error (list result * list bytes) :=
  match ops with
  | [] => Ok ([], S)
  | o :: r => let? (x, (S', L')) := ref_step H S L o in let? (xs, S'') := ref_run H r S' L' in Ok (x :: xs, S'')
  end%outcome.
Definition key_upto (n : nat) (o : op) : Prop :=
  match o with
  | Add k | Delete k => (length k <= n)%nat
  | RootHash => True
  end.

(** ** Contents of the storage *)

(** [child s p b c]: the stored node [p] has [c] in slot [b]. *)
Definition child (s : N -> option bytes) (p : N) (b : nat) (c : N) : Prop :=
  exists data h cs, s p = Some data /\ deserialize data = Some (mkNode false h (Some cs)) /\
    nth_error cs b = Some (Some c).

Inductive reachable (s : N -> option bytes) : N -> N -> Prop :=
| reach_self r : reachable s r r
| reach_child r p b c : reachable s r p -> child s p b c -> reachable s r c.
