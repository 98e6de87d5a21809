(** Model of src/crypto/vrf.rs over an arbitrary curve: the group, point compression,
    SHA-512 and the Elligator map of the curve25519-dalek, sha2 and ed25519-dalek crates
    are fields of a record. *)
From Verif Require Import Base Digits.
Local Open Scope N_scope.

(** The primitives imported at src/crypto/vrf.rs:10-19 *)
Record curve := {
  pt : Type;
  padd : pt -> pt -> pt;
  pneg : pt -> pt;
  pzero : pt;
  pmul : Z -> pt -> pt;             (** multiplication by an integer *)
  base : pt;                        (** ED25519_BASEPOINT_POINT *)
  order : N;                        (** of the base point; scalars are modulo this *)
  compress : pt -> bytes;
  decompress : bytes -> option pt;
  sha512 : bytes -> bytes;
  elligator : bytes -> pt           (** [hash_from_bytes::<TruncHasher>] of 64 bytes *)
}.
Arguments padd {c}. Arguments pneg {c}. Arguments pzero {c}. Arguments pmul {c}.

(** a + b and a - b on points; n * P; curve25519-dalek, for src/crypto/vrf.rs:84-150 *)
Definition smul {C : curve} (n : N) (P : pt C) : pt C := pmul (Z.of_N n) P.
(** curve25519-dalek, for src/crypto/vrf.rs:116-150 *)
Definition psub {C : curve} (P Q : pt C) : pt C := padd P (pneg Q).

(** src/crypto/vrf.rs:25,28 *)
Definition SUITE_STRING : bytes := [x04].
(** src/crypto/vrf.rs:28 *)
Definition COFACTOR : N := 8.

(** src/crypto/vrf.rs:31-34 *)
Record keypair := mkPair { private : bytes; public_key : bytes }.
(** src/crypto/vrf.rs:47-63, the error that occurs *)
Inductive vrf_error := InvalidProof.

(** ed25519-dalek: the clamped lower half of the digest of the seed, read as an integer *)
Definition clamp (s : bytes) : bytes :=
  match s with
  | [] => []
  | b0 :: r => b8 (N.land (Byte.to_N b0) 248) ::
               removelast r ++ [b8 (N.lor (N.land (Byte.to_N (last r x00)) 63) 64)]
  end.
(** [ExpandedSecretKey], src/crypto/vrf.rs:16 *)
Definition expand (C : curve) (seed : bytes) : N := le_num (clamp (firstn 32 (sha512 C seed))).

(** src/crypto/vrf.rs:67-74 *)
Definition from_seed (C : curve) (seed : bytes) : keypair :=
  mkPair seed (compress C (smul (expand C seed) (base C))).

(** h\[31\] &= 0x7F; src/crypto/vrf.rs:257 *)
Definition clear_top (h : bytes) : bytes :=
  firstn 31 h ++ match nth_error h 31 with
                 | Some b => b8 (N.land (Byte.to_N b) 127) :: skipn 32 h
                 | None => []
                 end.

(** src/crypto/vrf.rs:251-260 *)
Definition hash_to_curve (C : curve) (pk data : bytes) : pt C :=
  elligator C (clear_top (sha512 C (SUITE_STRING ++ [x01] ++ pk ++ data))).

(** src/crypto/vrf.rs:264-270 *)
Definition gen_nonce (C : curve) (sk data : bytes) : N :=
  le_num (sha512 C (skipn 32 (sha512 C sk) ++ data)) mod order C.

(** src/crypto/vrf.rs:274-284 *)
Definition hash_points (C : curve) (ps : list (pt C)) : N :=
  le_num (firstn 16 (sha512 C (SUITE_STRING ++ [x02] ++ concat (map (compress C) ps))) ++ repeat x00 16)
  mod order C.

(** src/crypto/vrf.rs:84-114 *)
Definition prove_bytes (C : curve) (self : keypair) (data : bytes) : bytes :=
  let hash_point := hash_to_curve C (public_key self) data in
  let h_str := compress C hash_point in
  let x := expand C (private self) in
  let gamma := smul x hash_point in
  let k := gen_nonce C (private self) h_str in
  let c := hash_points C [hash_point; gamma; smul k (base C); smul k hash_point] in
  let s := (k + (c * x) mod order C) mod order C in
  compress C gamma ++ firstn 16 (le_bytes 32 c) ++ le_bytes 32 s.

(** Scalar::from_canonical_bytes; src/crypto/vrf.rs:176,178 *)
Definition canonical (C : curve) (s : bytes) : option N :=
  if le_num s <? order C then Some (le_num s) else None.

(** src/crypto/vrf.rs:173-180, on 80 bytes *)
Definition decode (C : curve) (proof : bytes) : option (pt C * N * N) :=
  match decompress C (firstn 32 proof) with
  | None => None
  | Some gamma =>
      match canonical C (firstn 16 (skipn 32 proof) ++ repeat x00 16) with
      | None => None
      | Some c =>
          match canonical C (skipn 48 proof) with
          | None => None
          | Some s => Some (gamma, c, s)
          end
      end
  end.

(** src/crypto/vrf.rs:184-190; [None] is the panic of [unwrap] *)
Definition to_output (C : curve) (proof : bytes) : option bytes :=
  match decode C proof with
  | None => None
  | Some (gamma, _, _) =>
      Some (sha512 C (SUITE_STRING ++ [x03] ++ compress C (smul COFACTOR gamma)))
  end.

(** src/crypto/vrf.rs:138-156 with 160-164: a public key that is no point panics *)
Definition verify_bytes (C : curve) (self proof data : bytes) : outcome vrf_error bytes :=
  match decode C proof with
  | None => Err InvalidProof
  | Some (gamma, c, s) =>
      let hash_point := hash_to_curve C self data in
      match decompress C self with
      | None => Panic
      | Some y =>
          let u := psub (smul s (base C)) (smul c y) in
          let v := psub (smul s hash_point) (smul c gamma) in
          if hash_points C [hash_point; gamma; u; v] =? c
          then match to_output C proof with Some o => Ok o | None => Panic end
          else Err InvalidProof
      end
  end.
