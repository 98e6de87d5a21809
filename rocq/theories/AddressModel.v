(** Text forms of addresses and hashes: base 32 without padding (crate data-encoding,
    [BASE32_NOPAD]), src/data/basics/address.rs, src/crypto/hashable.rs. *)
From Verif Require Import Base.
Local Open Scope N_scope.

(** The low [n] bits of [v], most significant first. Helper for the crate data-encoding. *)
Fixpoint bits (n : nat) (v : N) : list bool :=
  match n with
  | O => []
  | S k => N.testbit v (N.of_nat k) :: bits k v
  end.
(** the number with these bits; helper for the crate data-encoding *)
Definition num (l : list bool) : N := fold_left (fun a (b : bool) => 2 * a + if b then 1 else 0) l 0.

(** Pieces of [k] elements; a shorter last piece is kept. Helper for the crate data-encoding. *)
Fixpoint group_from {A} (k room : nat) (cur l : list A) : list (list A) :=
  match l with
  | [] => match cur with [] => [] | _ => [rev cur] end
  | x :: r =>
      match room with
      | O | 1%nat => rev (x :: cur) :: group_from k k [] r
      | S room' => group_from k room' (x :: cur) r
      end
  end.
(** helper for the crate data-encoding *)
Definition group {A} (k : nat) (l : list A) : list (list A) := group_from k k [] l.

(** the symbols of [BASE32_NOPAD] of the crate data-encoding *)
Definition ALPHABET : bytes := str "ABCDEFGHIJKLMNOPQRSTUVWXYZ234567".
(** the same crate: the symbol of five bits *)
Definition symbol (v : N) : byte := nth (N.to_nat v) ALPHABET x00.
(** helper: the place of [b] in [l] *)
Fixpoint index_in (b : byte) (l : bytes) (i : N) : option N :=
  match l with
  | [] => None
  | x :: r => if Byte.eqb b x then Some i else index_in b r (i + 1)
  end.
(** the same crate: the five bits of a symbol *)
Definition symbol_value (b : byte) : option N := index_in b ALPHABET 0.

(** [BASE32_NOPAD.encode]: bits in order, five to a symbol, the last one filled with
    zeros.  Written over bit lists instead of the crate's blocks of five bytes. *)
Definition base32_encode (data : bytes) : bytes :=
  let all := concat (map (fun b => bits 8 (Byte.to_N b)) data) in
  let missing := ((5 - length all mod 5) mod 5)%nat in
  map (fun g => symbol (num g)) (group 5 (all ++ repeat false missing)).

(** the same crate: the values of all symbols *)
Fixpoint values (text : bytes) : option (list N) :=
  match text with
  | [] => Some []
  | b :: r =>
      match symbol_value b, values r with
      | Some v, Some vs => Some (v :: vs)
      | _, _ => None
      end
  end.

(** [BASE32_NOPAD.decode]: refuses impossible lengths, characters outside the alphabet and
    trailing bits that are not zero.  The crate's error detail is dropped. *)
Definition base32_decode (text : bytes) : option bytes :=
  match values text with
  | None => None
  | Some vs =>
      let all := concat (map (bits 5) vs) in
      let extra := (length all mod 8)%nat in
      if (extra <? 5)%nat && forallb negb (skipn (length all - extra) all)
      then Some (map (fun g => b8 (num g)) (group 8 (firstn (length all - extra) all)))
      else None
  end.

(** src/data/basics/address.rs:16-24 *)
Inductive address_error := InvalidBase32 | WrongLength | InvalidChecksum.

Section WithHash.
Variable H : bytes -> bytes.

(** src/data/basics/address.rs:42-46 *)
Definition checksum (addr : bytes) : bytes := skipn (length (H addr) - 4) (H addr).

(** src/data/basics/address.rs:59-71 *)
Definition address_to_string (addr : bytes) : bytes := base32_encode (addr ++ checksum addr).

(** src/data/basics/address.rs:79-107; [unreachable!] of line 103 is [Panic] *)
Definition address_from_str (text : bytes) : outcome address_error bytes :=
  match base32_decode text with
  | None => Err InvalidBase32
  | Some decoded =>
      if (length decoded <? 32)%nat then Err WrongLength
      else
        let short := firstn 32 decoded in
        let incoming := skipn (length decoded - 4) decoded in
        if negb (bytes_eqb incoming (checksum short)) then Err InvalidChecksum
        else if negb (bytes_eqb (address_to_string short) text) then Panic
        else Ok short
  end.
End WithHash.

(** src/crypto/hashable.rs:22-28 *)
Inductive hash_error := HInvalidBase32 | HWrongLength (n : nat).

(** src/crypto/hashable.rs:60-64 *)
Definition hash_to_string (h : bytes) : bytes := base32_encode h.
(** src/crypto/hashable.rs:68-78; [try_into().unwrap()] cannot fail after the test *)
Definition hash_from_str (text : bytes) : outcome hash_error bytes :=
  match base32_decode text with
  | None => Err HInvalidBase32
  | Some decoded =>
      if negb (length decoded =? HASH_LEN)%nat then Err (HWrongLength (length decoded))
      else Ok decoded
  end.

(** src/crypto/hashable.rs:49-51: the first eight bytes as a little-endian number *)
Definition trim_to_u64 (h : bytes) : N :=
  fold_right (fun b a => Byte.to_N b + 256 * a) 0 (firstn 8 h).
(** src/crypto/hashable.rs:54-56 *)
Definition is_zero (h : bytes) : bool := bytes_eqb h zero32.
