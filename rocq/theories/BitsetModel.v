(** Model of the 256-bit set, src/crypto/merkletrie/bitset.rs.  [None] is a panic. *)
From Verif Require Import Base.
Local Open Scope N_scope.

(** src/crypto/merkletrie/bitset.rs:8-11 [struct Bitset { data: [u64; 4] }], a list of four words. *)
Definition bitset := list N.
(** src/crypto/merkletrie/bitset.rs:8 [derive(Default)] *)
Definition default_bitset : bitset := [0; 0; 0; 0].

(** Replaces word [i] if there is one. Helper for bitset.rs:15-23. *)
Fixpoint put (i : nat) (w : N) (s : bitset) : bitset :=
  match s, i with
  | [], _ => []
  | _ :: r, O => w :: r
  | x :: r, S i' => x :: put i' w r
  end.

(** src/crypto/merkletrie/bitset.rs:16,22,27 [1 << (bit & 63)] on [u64] *)
Definition mask (bit : N) : N := (N.shiftl 1 (N.land bit 63)) mod two64.

(** src/crypto/merkletrie/bitset.rs:15-17; indexing past the fourth word panics *)
Definition set_bit (bit : N) (s : bitset) : option bitset :=
  match nth_error s (N.to_nat (bit / 64)) with
  | Some w => Some (put (N.to_nat (bit / 64)) (N.lor w (mask bit)) s)
  | None => None
  end.

(** src/crypto/merkletrie/bitset.rs:20-23; [!x] on [u64] is exclusive or with all ones *)
Definition clear_bit (bit : N) (s : bitset) : option bitset :=
  match nth_error s (N.to_nat (bit / 64)) with
  | Some w => Some (put (N.to_nat (bit / 64)) (N.land w (N.lxor (mask bit) max64)) s)
  | None => None
  end.

(** src/crypto/merkletrie/bitset.rs:26-28 *)
Definition bit (b : N) (s : bitset) : option bool :=
  match nth_error s (N.to_nat (b / 64)) with
  | Some w => Some (negb (N.land w (mask b) =? 0))
  | None => None
  end.

(** src/crypto/merkletrie/bitset.rs:31-33 [self.data == [0; 4]] *)
Definition is_zero (s : bitset) : bool :=
  match s with
  | [a; b; c; d] => (a =? 0) && (b =? 0) && (c =? 0) && (d =? 0)
  | _ => false
  end.

(** One mutating call, and a history of them. src/crypto/merkletrie/bitset.rs:15-23. *)
Inductive bit_op := SetBit (b : N) | ClearBit (b : N).
(** the call of src/crypto/merkletrie/bitset.rs:15-23 *)
Definition bit_step (s : bitset) (o : bit_op) : option bitset :=
  match o with SetBit b => set_bit b s | ClearBit b => clear_bit b s end.
(** calls in a row; no counterpart, helper for statements about histories *)
Fixpoint bit_run (ops : list bit_op) (s : bitset) : option bitset :=
  match ops with
  | [] => Some s
  | o :: r => match bit_step s o with Some s' => bit_run r s' | None => None end
  end.
