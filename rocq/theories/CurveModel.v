(** The curve edwards25519 and the signature scheme Ed25519, as the code takes them from the crates
    curve25519-dalek and ed25519-dalek (src/crypto/vrf.rs:10-16, src/crypto/multisig.rs:6-7,
    src/crypto/ots.rs:14).  The theorems about the code hold of every curve and every scheme with the properties
    they name.  This file serves to run the model on known answers, and Curve25519Props.v has the proof that the
    real curve and the real scheme have these properties. *)
From Verif Require Import Base Digits ShaModel Scheme VrfModel.
Local Open Scope Z_scope.

(** ** The field of 2^255 - 19 elements *)
(** curve25519-dalek, field.rs: the number of elements *)
Definition p25519 : Z := Eval vm_compute in 2 ^ 255 - 19.
(** curve25519-dalek, helper: 255 ones *)
Definition low_bits : Z := Eval vm_compute in 2 ^ 255 - 1.
(** curve25519-dalek, helper: 2^255 is 19 *)
Definition fold19 (x : Z) : Z := Z.land x low_bits + 19 * Z.shiftr x 255.
(** of numbers below 2^510; curve25519-dalek, field.rs: reduction of products *)
Definition reduce (x : Z) : Z := let y := fold19 (fold19 x) in if p25519 <=? y then y - p25519 else y.
(** curve25519-dalek, field.rs: [Add] *)
Definition fadd (a b : Z) : Z := let s := a + b in if p25519 <=? s then s - p25519 else s.
(** curve25519-dalek, field.rs: [Sub] *)
Definition fsub (a b : Z) : Z := let s := a - b in if s <? 0 then s + p25519 else s.
(** curve25519-dalek, field.rs: [Mul] *)
Definition fmul (a b : Z) : Z := reduce (a * b).
(** curve25519-dalek, field.rs: [Neg] *)
Definition fneg (a : Z) : Z := fsub 0 a.
(** curve25519-dalek, field.rs: powers, by squaring *)
Fixpoint fpow (a : Z) (n : positive) : Z :=
  match n with xH => a | xO m => let s := fpow a m in fmul s s | xI m => let s := fpow a m in fmul a (fmul s s) end.
(** curve25519-dalek, helper: the power that inverts *)
Definition inverse_power : positive := Eval vm_compute in Z.to_pos (p25519 - 2).
(** curve25519-dalek, field.rs: [invert] *)
Definition finv (a : Z) : Z := fpow a inverse_power.
(** curve25519-dalek, field.rs: [is_negative] *)
Definition odd (a : Z) : bool := Z.odd a.
(** curve25519-dalek, constants.rs: [SQRT_M1] *)
Definition sqrt_m1 : Z := Eval vm_compute in fpow 2 (Z.to_pos ((p25519 - 1) / 4)).
(** curve25519-dalek, field.rs: the power of [pow_p58] *)
Definition root_power : positive := Eval vm_compute in Z.to_pos ((p25519 - 5) / 8).
(** [FieldElement::sqrt_ratio_i]: whether u/v is a square, and its even root; curve25519-dalek, field.rs *)
Definition sqrt_ratio (u v : Z) : bool * Z :=
  let v3 := fmul (fmul v v) v in let v7 := fmul (fmul v3 v3) v in
  let r := fmul (fmul u v3) (fpow (fmul u v7) root_power) in
  let check := fmul v (fmul r r) in
  let correct := check =? u in let flipped := check =? fneg u in
  let r := if correct then r else fmul r sqrt_m1 in
  (correct || flipped, if odd r then fneg r else r).

(** ** Points in extended coordinates (X : Y : Z : T) *)
(** curve25519-dalek, constants.rs: [EDWARDS_D] *)
Definition edwards_d : Z := Eval vm_compute in fmul (fneg 121665) (finv 121666).
(** curve25519-dalek, edwards.rs: [EdwardsPoint] *)
Record point := mkPoint { px : Z; py : Z; pz : Z; p_t : Z }.
(** curve25519-dalek, edwards.rs: [Identity] *)
Definition identity : point := mkPoint 0 1 1 0.
(** curve25519-dalek, edwards.rs: [Add], by the formula for extended coordinates; its caching of intermediate values is left out *)
Definition edwards_add (P Q : point) : point :=
  let a := fmul (fsub (py P) (px P)) (fsub (py Q) (px Q)) in
  let b := fmul (fadd (py P) (px P)) (fadd (py Q) (px Q)) in
  let c := fmul (fmul (p_t P) (fadd edwards_d edwards_d)) (p_t Q) in
  let d := fmul (fadd (pz P) (pz P)) (pz Q) in
  let e := fsub b a in let f := fsub d c in let g := fadd d c in let h := fadd b a in
  mkPoint (fmul e f) (fmul g h) (fmul f g) (fmul e h).
(** curve25519-dalek, edwards.rs: [Neg] *)
Definition edwards_neg (P : point) : point := mkPoint (fneg (px P)) (py P) (pz P) (fneg (p_t P)).
(** curve25519-dalek, edwards.rs: [Mul<Scalar>], by doubling instead of tables *)
Fixpoint edwards_mul_pos (n : positive) (P : point) : point :=
  match n with
  | xH => P
  | xO m => let Q := edwards_mul_pos m P in edwards_add Q Q
  | xI m => let Q := edwards_mul_pos m P in edwards_add P (edwards_add Q Q)
  end.
(** curve25519-dalek, edwards.rs: [Mul<Scalar>] for integers *)
Definition edwards_mul (n : Z) (P : point) : point :=
  match n with Z0 => identity | Zpos m => edwards_mul_pos m P | Zneg m => edwards_neg (edwards_mul_pos m P) end.
(** [EdwardsPoint::compress]; curve25519-dalek, edwards.rs *)
Definition edwards_compress (P : point) : bytes :=
  let i := finv (pz P) in let x := fmul (px P) i in let y := fmul (py P) i in
  le_bytes 32 (Z.to_N (if odd x then y + 2 ^ 255 else y)).
(** [CompressedEdwardsY::decompress]: the y coordinate need not be reduced; curve25519-dalek, edwards.rs *)
Definition edwards_decompress (s : bytes) : option point :=
  let n := Z.of_N (le_num s) in
  let y := reduce (Z.land n low_bits) in let y2 := fmul y y in
  let (square, x) := sqrt_ratio (fsub y2 1) (fadd (fmul edwards_d y2) 1) in
  if square then
    let x := if n <=? low_bits then x else fneg x in Some (mkPoint x y 1 (fmul x y))
  else None.
(** curve25519-dalek, constants.rs: [ED25519_BASEPOINT_POINT] *)
Definition base_point : point :=
  Eval vm_compute in match edwards_decompress (x58 :: repeat x66 31) with Some P => P | None => identity end.
(** curve25519-dalek, constants.rs: [BASEPOINT_ORDER] *)
Definition base_order_25519 : N := Eval vm_compute in (2 ^ 252 + 27742317777372353535851937790883648493)%N.

(** ** [EdwardsPoint::hash_from_bytes] with a hash that is no hash: Elligator 2 of the first 32 bytes *)
(** curve25519-dalek, constants.rs: [MONTGOMERY_A] *)
Definition montgomery_a : Z := 486662.
(** curve25519-dalek, montgomery.rs: [elligator_encode] *)
Definition elligator_encode (r : Z) : Z :=
  let d := fmul (fneg montgomery_a) (finv (fadd 1 (fmul 2 (fmul r r)))) in
  let eps := fmul d (fadd (fadd (fmul d d) (fmul montgomery_a d)) 1) in
  if fst (sqrt_ratio eps 1) then d else fneg (fadd d montgomery_a).
(** [MontgomeryPoint::to_edwards]; curve25519-dalek, montgomery.rs *)
Definition to_edwards (u : Z) (sign : bool) : option point :=
  if u =? p25519 - 1 then None else
  let y := fmul (fsub u 1) (finv (fadd u 1)) in
  edwards_decompress (le_bytes 32 (Z.to_N (if sign then y + 2 ^ 255 else y))).
(** curve25519-dalek, edwards.rs: [hash_from_bytes], as called at src/crypto/vrf.rs:259 *)
Definition elligator_25519 (s : bytes) : point :=
  let n := Z.of_N (le_num (firstn 32 s)) in
  match to_edwards (elligator_encode (reduce (Z.land n low_bits))) (low_bits <? n) with
  | Some P => edwards_mul 8 P
  | None => identity (* a panic in the crate; never, see c143_defined *)
  end.

(** the curve and the hash of src/crypto/vrf.rs:10-18 *)
Definition edwards25519 : curve := {|
  pt := point; padd := edwards_add; pneg := edwards_neg; pzero := identity; pmul := edwards_mul;
  base := base_point; order := base_order_25519; compress := edwards_compress; decompress := edwards_decompress;
  sha512 := ShaModel.sha512; elligator := elligator_25519
|}.

(** ** Ed25519, RFC 8032 and ed25519-dalek's [verify] *)
Definition ed_public (seed : bytes) : bytes := public_key (from_seed edwards25519 seed).
(** [Scalar::from_hash] of curve25519-dalek *)
Definition scalar_hash (s : bytes) : N := (le_num (ShaModel.sha512 s) mod base_order_25519)%N.
(** the nonce of a signature; RFC 8032, 5.1.6 *)
Definition ed_nonce (seed msg : bytes) : N := scalar_hash (skipn 32 (ShaModel.sha512 seed) ++ msg).
(** ed25519-dalek, [sign]: RFC 8032, 5.1.6 *)
Definition ed_sign (seed msg : bytes) : bytes :=
  let a := expand edwards25519 seed in
  let r := ed_nonce seed msg in
  let R := edwards_compress (edwards_mul (Z.of_N r) base_point) in
  let k := scalar_hash (R ++ ed_public seed ++ msg) in
  R ++ le_bytes 32 ((r + (k * a) mod base_order_25519) mod base_order_25519)%N.
(** ed25519-dalek, [verify] *)
Definition ed_check (key msg sig : bytes) : bool :=
  match edwards_decompress key with
  | None => false
  | Some A =>
      let R := firstn 32 sig in let s := le_num (skipn 32 sig) in
      let k := scalar_hash (R ++ key ++ msg) in
      ((length sig =? 64)%nat && (s <? base_order_25519)%N &&
       bytes_eqb R (edwards_compress (edwards_add (edwards_mul (Z.of_N s) base_point) (edwards_neg (edwards_mul (Z.of_N k) A)))))
  end.
(** ed25519-dalek, as the scheme of src/crypto/mod.rs:13-14 *)
Definition ed25519 : scheme := {| public := ed_public; sign_with := ed_sign; check := ed_check |}.

(** ** ed25519-dalek's [verify_strict], used by src/crypto/ots.rs:331,335,339 *)
Definition small_order (P : point) : bool := bytes_eqb (edwards_compress (edwards_mul 8 P)) (edwards_compress identity).
(** ed25519-dalek, [verify_strict] *)
Definition ed_strict (key msg sig : bytes) : bool :=
  match edwards_decompress key, edwards_decompress (firstn 32 sig) with
  | Some A, Some R =>
      let s := le_num (skipn 32 sig) in
      let k := scalar_hash (firstn 32 sig ++ key ++ msg) in
      (negb (small_order A) && negb (small_order R) && (length sig =? 64)%nat && (s <? base_order_25519)%N &&
       bytes_eqb (edwards_compress R) (edwards_compress (edwards_add (edwards_mul (Z.of_N s) base_point) (edwards_neg (edwards_mul (Z.of_N k) A)))))
  | _, _ => false
  end.
(** ed25519-dalek, as used by src/crypto/ots.rs:331,335,339 *)
Definition ed25519_strict : scheme := {| public := ed_public; sign_with := ed_sign; check := ed_strict |}.
