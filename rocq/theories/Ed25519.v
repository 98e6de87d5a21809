(** The curve of curve25519-dalek 4.0.0-pre.1 with affine points, as far as needed to
    execute point decompression (edwards.rs CompressedEdwardsY::decompress and
    field.rs sqrt_ratio_i, which are not part of /repo).  Hashing is replaced by toy functions: only point
    encoding is studied with this instance. *)
From Verif Require Import Base Digits Toy VrfModel.
Local Open Scope Z_scope.

(** 2^255 - 19 *)
Definition P25519 : Z := 57896044618658097711785492504343953926634992332820282019728792003956564819949.
Definition fmul (a b : Z) : Z := (a * b) mod P25519.
Fixpoint fpow_pos (a : Z) (e : positive) : Z :=
  match e with
  | xH => a mod P25519
  | xO e' => let r := fpow_pos a e' in fmul r r
  | xI e' => let r := fpow_pos a e' in fmul (fmul r r) a
  end.
Definition fpow (a e : Z) : Z := match e with Zpos e' => fpow_pos a e' | _ => 1 end.
Definition finv (a : Z) : Z := fpow a (P25519 - 2).
Definition fneg (a : Z) : Z := (- a) mod P25519.
(** -121665/121666 *)
Definition D25519 : Z := 37095705934669439343138083508754565189542113879843219016388785533085940283555.
(** square root of -1 *)
Definition SQRT_M1 : Z := 19681161376707505956807079304988542015446066515923890162744021073123829784752.

(** field.rs sqrt_ratio_i: (is u/v a square, nonnegative root) *)
Definition sqrt_ratio_i (u v : Z) : bool * Z :=
  let v3 := fmul (fmul v v) v in
  let v7 := fmul (fmul v3 v3) v in
  let r := fmul (fmul u v3) (fpow (fmul u v7) ((P25519 - 5) / 8)) in
  let check := fmul v (fmul r r) in
  let correct := check =? u in
  let flipped := check =? fneg u in
  let flipped_i := check =? fmul (fneg u) SQRT_M1 in
  let r := if flipped || flipped_i then fmul r SQRT_M1 else r in
  (correct || flipped, if Z.odd r then fneg r else r).

(** edwards.rs decompress: the field element ignores the top bit and is not required to
    be reduced; the sign bit is applied also to zero *)
Definition ed_decompress (s : bytes) : option (Z * Z) :=
  let n := Z.of_N (le_num s) in
  let y := (n mod 2 ^ 255) mod P25519 in
  let yy := fmul y y in
  let u := (yy - 1) mod P25519 in
  let v := (fmul yy D25519 + 1) mod P25519 in
  let '(ok, x) := sqrt_ratio_i u v in
  if negb ok then None
  else Some ((if n / 2 ^ 255 =? 1 then fneg x else x), y).
Definition ed_compress (P : Z * Z) : bytes :=
  let '(x, y) := P in
  le_bytes 32 (Z.to_N (y + if Z.odd x then 2 ^ 255 else 0)).

(** twisted Edwards addition (a = -1) *)
Definition ed_add (P Q : Z * Z) : Z * Z :=
  let '(x1, y1) := P in let '(x2, y2) := Q in
  let t := fmul D25519 (fmul (fmul x1 x2) (fmul y1 y2)) in
  (fmul ((fmul x1 y2 + fmul y1 x2) mod P25519) (finv ((1 + t) mod P25519)),
   fmul ((fmul y1 y2 + fmul x1 x2) mod P25519) (finv ((1 - t) mod P25519))).
Definition ed_neg (P : Z * Z) : Z * Z := (fneg (fst P), snd P).
Fixpoint ed_mul_pos (e : positive) (P : Z * Z) : Z * Z :=
  match e with
  | xH => P
  | xO e' => let r := ed_mul_pos e' P in ed_add r r
  | xI e' => let r := ed_mul_pos e' P in ed_add (ed_add r r) P
  end.
Definition ed_mul (n : Z) (P : Z * Z) : Z * Z :=
  match n with
  | Z0 => (0, 1)
  | Zpos e => ed_mul_pos e P
  | Zneg e => ed_neg (ed_mul_pos e P)
  end.
(** the base point has y = 4/5 and even x *)
Definition ed_base : Z * Z :=
  (15112221349535400772501151409588531511454012693041857206046113283949847762202,
   46316835694926478169428394003475163141307993866256225615783033603165251855960).

Definition ed25519 : curve := {|
  pt := Z * Z;
  padd := ed_add; pneg := ed_neg; pzero := (0, 1); pmul := ed_mul;
  base := ed_base;
  order := (2 ^ 252 + 27742317777372353535851937790883648493)%N;
  compress := ed_compress;
  decompress := ed_decompress;
  sha512 := fun s => toy_hash s ++ toy_hash (x00 :: s);
  elligator := fun s => ed_mul (8 * Z.of_N (le_num s)) ed_base
|}.
