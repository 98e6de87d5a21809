(** Common vocabulary: bytes, outcomes of calls, machine integers, hashing. *)
From Coq Require Export List NArith ZArith Lia Bool Arith.
From Coq Require Export Init.Byte.
From Coq Require Strings.Byte Strings.String Strings.Ascii.
From Coq Require Export ZifyBool ZifyNat ZifyN.
Export ListNotations.
Export Coq.Strings.String.StringSyntax.

Ltac Zify.zify_post_hook ::= Z.div_mod_to_equations.

Definition bytes := list byte.

(** Result of a Rust call returning [Result<A, E>]: a panic (failed [unwrap],
    slice index out of bounds, [unreachable!], checked arithmetic in a debug
    build) is the separate value [Panic]. *)
Inductive outcome (E A : Type) : Type :=
| Ok (a : A)
| Err (e : E)
| Panic.
Arguments Ok {E A} a.
Arguments Err {E A} e.
Arguments Panic {E A}.

Definition bind {E A B} (o : outcome E A) (f : A -> outcome E B) : outcome E B :=
  match o with
  | Ok a => f a
  | Err e => Err e
  | Panic => Panic
  end.

Declare Scope outcome_scope.
Delimit Scope outcome_scope with outcome.
Notation "'let?' x ':=' o 'in' k" := (bind o (fun x => k))
  (at level 200, x pattern, o at level 100, k at level 200, right associativity)
  : outcome_scope.

(** Build mode: integer overflow panics in a debug build and wraps in a
    release build. *)
Inductive mode := Debug | Release.

Definition two64 : N := 2 ^ 64.
Definition max64 : N := 2 ^ 64 - 1.
Definition u64 (n : N) : Prop := (n < two64)%N.

(** [a + b], [a - b], [a * b] on [u64]; [None] is a panic. *)
Definition add64 (m : mode) (a b : N) : option N :=
  if (a + b <? two64)%N then Some (a + b)%N
  else match m with Debug => None | Release => Some ((a + b) mod two64)%N end.
Definition sub64 (m : mode) (a b : N) : option N :=
  if (b <=? a)%N then Some (a - b)%N
  else match m with Debug => None | Release => Some (a + two64 - b)%N end.
Definition mul64 (m : mode) (a b : N) : option N :=
  if (a * b <? two64)%N then Some (a * b)%N
  else match m with Debug => None | Release => Some ((a * b) mod two64)%N end.
(** [a / b] and [a % b]: division by zero panics in every build. *)
Definition div64 (a b : N) : option N := if (b =? 0)%N then None else Some (a / b)%N.
Definition rem64 (a b : N) : option N := if (b =? 0)%N then None else Some (a mod b)%N.
(** [saturating_add], [saturating_sub], [saturating_mul] on [u64]. *)
Definition sat_add (a b : N) : N := N.min (a + b) max64.
Definition sat_sub (a b : N) : N := (a - b)%N.
Definition sat_mul (a b : N) : N := N.min (a * b) max64.

(** Equality of byte strings. *)
Fixpoint bytes_eqb (a b : bytes) : bool :=
  match a, b with
  | [], [] => true
  | x :: a', y :: b' => Byte.eqb x y && bytes_eqb a' b'
  | _, _ => false
  end.

(** The bytes of a string literal (used for hash identifiers). *)
Definition str (s : String.string) : bytes := String.list_byte_of_string s.
Arguments str s%string_scope.

(** Byte with the low eight bits of a number ([n as u8]). *)
Definition b8 (n : N) : byte :=
  match Byte.of_N (n mod 256) with Some b => b | None => x00 end.

Definition HASH_LEN : nat := 32. (* src/crypto/hashable.rs *)
Definition zero32 : bytes := repeat x00 32.

(** A hash function: any function with 32-byte values. *)
Definition hash32 (H : bytes -> bytes) : Prop := forall x, length (H x) = 32.

(** Ingredients of binding statements.  [collision_in H A B]: a string of [A]
    and a different string of [B] have the same hash. *)
Definition collision_in (H : bytes -> bytes) (A B : list bytes) : Prop :=
  exists x y, In x A /\ In y B /\ x <> y /\ H x = H y.
(** some string of [A] hashes to the all-zero string *)
Definition zero_preimage_in (H : bytes -> bytes) (A : list bytes) : Prop :=
  exists x, In x A /\ H x = zero32.

Definition prefix_of (p s : bytes) : Prop := exists r, s = p ++ r.
