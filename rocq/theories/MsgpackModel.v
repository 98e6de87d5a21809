(** Model of the message-pack codec behind src/protocol/codec.rs:6-12 ([rmp_serde::to_vec]
    and [from_slice], crates rmp 0.8.11 and rmp-serde 1.1.1, which are not part of /repo):
    a value of the serde data model is first turned into a message-pack value and then
    written with the shortest marker.

    How serde values become message-pack values (rmp-serde, default configuration):
    integers and booleans as themselves; [String]/[&str] as [VStr]; [serialize_bytes]
    as [VBin]; sequences, tuples, fixed-size arrays and plain structs as [VArr] (structs
    positionally, skipped fields left out); structs with a flattened field as [VMap]
    with field names; [None] as [VNil], [Some x] as [x]; unit enum variants as their
    name.  No type of /repo that is serialized contains floating point numbers or
    extensions; they are here, as the bytes that stand for them, because they may be in
    places of the input that are passed over. *)
From Verif Require Import Base.
Local Open Scope N_scope.

(** Message-pack values (crates rmp and rmp-serde, for src/protocol/codec.rs:6-12) *)
Inductive value :=
| VNil
| VBool (b : bool)
| VInt (z : Z)
| VStr (s : bytes)
| VBin (s : bytes)
| VFloat (s : bytes)
| VExt (t : byte) (s : bytes)
| VArr (l : list value)
| VMap (l : list (value * value)).

(** [k] bytes, most significant first; crate rmp, for src/protocol/codec.rs:6-12 *)
Fixpoint be (k : nat) (v : N) : bytes :=
  match k with
  | O => []
  | S k' => b8 (v / 256 ^ N.of_nat k') :: be k' v
  end.
(** [be_val] with an accumulator; crate rmp, for src/protocol/codec.rs:6-12 *)
Fixpoint be_acc (acc : N) (s : bytes) : N :=
  match s with
  | [] => acc
  | b :: r => be_acc (acc * 256 + Byte.to_N b) r
  end.
(** the number bytes stand for, most significant first; crate rmp, for src/protocol/codec.rs:6-12 *)
Definition be_val (s : bytes) : N := be_acc 0 s.

(** What one marker with its length or number announces. crate rmp, for src/protocol/codec.rs:6-12 *)
Inductive header :=
| HNil | HBool (b : bool) | HInt (z : Z)
| HStr (n : N) | HBin (n : N) | HFloat (n : N) | HExt (n : N) | HArr (n : N) | HMap (n : N).

(** rmp encode::write_uint (shortest form) *)
Definition write_uint (n : N) : bytes :=
  if n <? 128 then [b8 n]
  else if n <? 256 then xcc :: be 1 n
  else if n <? 65536 then xcd :: be 2 n
  else if n <? 4294967296 then xce :: be 4 n
  else xcf :: be 8 n.
(** rmp encode::write_sint (shortest form) *)
Definition write_sint (z : Z) : bytes :=
  if (0 <=? z)%Z then write_uint (Z.to_N z)
  else if (-32 <=? z)%Z then [b8 (Z.to_N (z + 256))]
  else if (-128 <=? z)%Z then xd0 :: be 1 (Z.to_N (z + 256))
  else if (-32768 <=? z)%Z then xd1 :: be 2 (Z.to_N (z + 65536))
  else if (-2147483648 <=? z)%Z then xd2 :: be 4 (Z.to_N (z + 4294967296))
  else xd3 :: be 8 (Z.to_N (z + 18446744073709551616)).
(** rmp encode::write_nil, write_bool, write_str_len, write_bin_len, write_f32, write_f64,
    write_ext_meta, write_array_len, write_map_len *)
Definition write_header (h : header) : bytes :=
  match h with
  | HNil => [xc0]
  | HBool b => [if b then xc3 else xc2]
  | HInt z => write_sint z
  | HStr n => if n <? 32 then [b8 (160 + n)]
              else if n <? 256 then xd9 :: be 1 n
              else if n <? 65536 then xda :: be 2 n
              else xdb :: be 4 n
  | HBin n => if n <? 256 then xc4 :: be 1 n
              else if n <? 65536 then xc5 :: be 2 n
              else xc6 :: be 4 n
  | HFloat n => [if n =? 4 then xca else xcb]
  | HExt n => if n =? 1 then [xd4] else if n =? 2 then [xd5] else if n =? 4 then [xd6]
              else if n =? 8 then [xd7] else if n =? 16 then [xd8]
              else if n <? 256 then xc7 :: be 1 n
              else if n <? 65536 then xc8 :: be 2 n
              else xc9 :: be 4 n
  | HArr n => if n <? 16 then [b8 (144 + n)]
              else if n <? 65536 then xdc :: be 2 n
              else xdd :: be 4 n
  | HMap n => if n <? 16 then [b8 (128 + n)]
              else if n <? 65536 then xde :: be 2 n
              else xdf :: be 4 n
  end.

(** rmp_serde::to_vec *)
Fixpoint encode (v : value) : bytes :=
  match v with
  | VNil => write_header HNil
  | VBool b => write_header (HBool b)
  | VInt z => write_header (HInt z)
  | VStr s => write_header (HStr (N.of_nat (length s))) ++ s
  | VBin s => write_header (HBin (N.of_nat (length s))) ++ s
  | VFloat s => write_header (HFloat (N.of_nat (length s))) ++ s
  | VExt t s => write_header (HExt (N.of_nat (length s))) ++ t :: s
  | VArr l => write_header (HArr (N.of_nat (length l))) ++ concat (map encode l)
  | VMap l => write_header (HMap (N.of_nat (length l))) ++
              concat (map (fun '(k, x) => encode k ++ encode x) l)
  end.

(** ** Reading *)

(** [n] bytes and the rest; crate rmp, for src/protocol/codec.rs:6-12 *)
Definition take (n : N) (s : bytes) : option (bytes * bytes) :=
  if N.of_nat (length s) <? n then None
  else Some (firstn (N.to_nat n) s, skipn (N.to_nat n) s).
(** a number of [n] bytes; crate rmp, for src/protocol/codec.rs:6-12 *)
Definition read_num (k : N) (s : bytes) (f : N -> header) : option (header * bytes) :=
  match take k s with
  | Some (d, r) => Some (f (be_val d), r)
  | None => None
  end.
(** a number in two's complement; crate rmp, for src/protocol/codec.rs:6-12 *)
Definition signed (m : N) (n : N) : Z := if n <? m / 2 then Z.of_N n else (Z.of_N n - Z.of_N m)%Z.

(** rmp decode::read_marker and the number after it *)
Definition read_header (s : bytes) : option (header * bytes) :=
  match s with
  | [] => None
  | b :: r =>
      let m := Byte.to_N b in
      if m <? 128 then Some (HInt (Z.of_N m), r)
      else if m <? 144 then Some (HMap (m - 128), r)
      else if m <? 160 then Some (HArr (m - 144), r)
      else if m <? 192 then Some (HStr (m - 160), r)
      else if m =? 192 then Some (HNil, r)
      else if m =? 194 then Some (HBool false, r)
      else if m =? 195 then Some (HBool true, r)
      else if m =? 196 then read_num 1 r HBin
      else if m =? 197 then read_num 2 r HBin
      else if m =? 198 then read_num 4 r HBin
      else if m =? 199 then read_num 1 r HExt
      else if m =? 200 then read_num 2 r HExt
      else if m =? 201 then read_num 4 r HExt
      else if m =? 202 then Some (HFloat 4, r)
      else if m =? 203 then Some (HFloat 8, r)
      else if m =? 204 then read_num 1 r (fun n => HInt (Z.of_N n))
      else if m =? 205 then read_num 2 r (fun n => HInt (Z.of_N n))
      else if m =? 206 then read_num 4 r (fun n => HInt (Z.of_N n))
      else if m =? 207 then read_num 8 r (fun n => HInt (Z.of_N n))
      else if m =? 208 then read_num 1 r (fun n => HInt (signed 256 n))
      else if m =? 209 then read_num 2 r (fun n => HInt (signed 65536 n))
      else if m =? 210 then read_num 4 r (fun n => HInt (signed 4294967296 n))
      else if m =? 211 then read_num 8 r (fun n => HInt (signed 18446744073709551616 n))
      else if m =? 212 then Some (HExt 1, r)
      else if m =? 213 then Some (HExt 2, r)
      else if m =? 214 then Some (HExt 4, r)
      else if m =? 215 then Some (HExt 8, r)
      else if m =? 216 then Some (HExt 16, r)
      else if m =? 217 then read_num 1 r HStr
      else if m =? 218 then read_num 2 r HStr
      else if m =? 219 then read_num 4 r HStr
      else if m =? 220 then read_num 2 r HArr
      else if m =? 221 then read_num 4 r HArr
      else if m =? 222 then read_num 2 r HMap
      else if m =? 223 then read_num 4 r HMap
      else if m <? 224 then None
      else Some (HInt (Z.of_N m - 256), r)
  end.

(** [n] things one after the other; crate rmp-serde, for src/protocol/codec.rs:6-12 *)
Fixpoint read_many {A} (read : bytes -> option (A * bytes)) (n : nat) (s : bytes) : option (list A * bytes) :=
  match n with
  | O => Some ([], s)
  | S n' => match read s with
            | Some (x, r) => match read_many read n' r with
                             | Some (l, r') => Some (x :: l, r')
                             | None => None
                             end
            | None => None
            end
  end.
(** a key and its value; crate rmp-serde, for src/protocol/codec.rs:6-12 *)
Definition read_pair {A} (read : bytes -> option (A * bytes)) (s : bytes) : option (A * A * bytes) :=
  match read s with
  | Some (k, r) => match read r with
                   | Some (x, r') => Some (k, x, r')
                   | None => None
                   end
  | None => None
  end.

(** One value and the rest; [None] for malformed or too short input.  The fuel bounds
    nesting and is never exhausted when started with the input length.
    crate rmp-serde, for src/protocol/codec.rs:6-12 *)
Fixpoint read_value (fuel : nat) (s : bytes) : option (value * bytes) :=
  match fuel with
  | O => None
  | S fuel' =>
      match read_header s with
      | Some (HNil, r) => Some (VNil, r)
      | Some (HBool b, r) => Some (VBool b, r)
      | Some (HInt z, r) => Some (VInt z, r)
      | Some (HStr n, r) => match take n r with Some (d, r') => Some (VStr d, r') | None => None end
      | Some (HBin n, r) => match take n r with Some (d, r') => Some (VBin d, r') | None => None end
      | Some (HFloat n, r) => match take n r with Some (d, r') => Some (VFloat d, r') | None => None end
      | Some (HExt n, t :: r) => match take n r with Some (d, r') => Some (VExt t d, r') | None => None end
      | Some (HExt _, []) => None
      | Some (HArr n, r) => match read_many (read_value fuel') (N.to_nat n) r with
                            | Some (l, r') => Some (VArr l, r') | None => None end
      | Some (HMap n, r) => match read_many (read_pair (read_value fuel')) (N.to_nat n) r with
                            | Some (l, r') => Some (VMap l, r') | None => None end
      | None => None
      end
  end.
(** rmp_serde::from_slice ignores bytes after the first value *)
Definition decode (s : bytes) : option value :=
  match read_value (S (length s)) s with
  | Some (v, _) => Some v
  | None => None
  end.

(** Values that exist in Rust: integers of at most 64 bits, lengths that fit the format. *)
Fixpoint wf (v : value) : Prop :=
  match v with
  | VNil | VBool _ => True
  | VInt z => (- 2 ^ 63 <= z < 2 ^ 64)%Z
  | VStr s | VBin s | VExt _ s => N.of_nat (length s) < 2 ^ 32
  | VFloat s => length s = 4%nat \/ length s = 8%nat
  | VArr l => N.of_nat (length l) < 2 ^ 32 /\ fold_right (fun x p => wf x /\ p) True l
  | VMap l => N.of_nat (length l) < 2 ^ 32 /\
              fold_right (fun '(k, x) p => (wf k /\ wf x) /\ p) True l
  end.

(** Byte arrays serialized element by element ([u8] sequences, [\[u8; N\]], signatures).
    crate rmp-serde, for src/protocol/codec.rs:6-12 *)
Definition VBytes (s : bytes) : value := VArr (map (fun b => VInt (Z.of_N (Byte.to_N b))) s).
(** unsigned integers; crate rmp-serde, for src/protocol/codec.rs:6-12 *)
Definition VNum (n : N) : value := VInt (Z.of_N n).
