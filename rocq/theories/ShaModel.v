(** SHA-512 and SHA-512/256 (FIPS 180-4), which the code takes from the sha2 crate: [Sha512] in
    src/crypto/vrf.rs:18 and [Sha512Trunc256] in src/crypto/hashable.rs:9, src/crypto/multisig.rs:9 and
    src/crypto/mnemonic.rs.  Words of 64 bits are numbers. *)
From Verif Require Import Base MsgpackModel.
Local Open Scope N_scope.

(** FIPS 180-4, 3.2: words of 64 bits *)
Definition mask : N := 2 ^ 64 - 1.
(** FIPS 180-4, 3.2: addition of words *)
Definition add_words (a b : N) : N := N.land (a + b) mask.
(** 3.2: rotation to the right; FIPS 180-4 *)
Definition rotr (n x : N) : N := N.lor (N.shiftr x n) (N.land (N.shiftl x (64 - n)) mask).
(** 4.1.3; FIPS 180-4 *)
Definition choose (x y z : N) : N := N.lxor (N.land x y) (N.land (N.lxor x mask) z).
(** FIPS 180-4, 4.1.3 *)
Definition majority (x y z : N) : N := N.lxor (N.lxor (N.land x y) (N.land x z)) (N.land y z).
(** FIPS 180-4, 4.1.3 *)
Definition big_sigma0 (x : N) : N := N.lxor (N.lxor (rotr 28 x) (rotr 34 x)) (rotr 39 x).
(** FIPS 180-4, 4.1.3 *)
Definition big_sigma1 (x : N) : N := N.lxor (N.lxor (rotr 14 x) (rotr 18 x)) (rotr 41 x).
(** FIPS 180-4, 4.1.3 *)
Definition small_sigma0 (x : N) : N := N.lxor (N.lxor (rotr 1 x) (rotr 8 x)) (N.shiftr x 7).
(** FIPS 180-4, 4.1.3 *)
Definition small_sigma1 (x : N) : N := N.lxor (N.lxor (rotr 19 x) (rotr 61 x)) (N.shiftr x 6).
(** 4.2.3; FIPS 180-4 *)
Definition round_constants : list N :=
  [0x428a2f98d728ae22; 0x7137449123ef65cd; 0xb5c0fbcfec4d3b2f; 0xe9b5dba58189dbbc; 0x3956c25bf348b538;
   0x59f111f1b605d019; 0x923f82a4af194f9b; 0xab1c5ed5da6d8118; 0xd807aa98a3030242; 0x12835b0145706fbe;
   0x243185be4ee4b28c; 0x550c7dc3d5ffb4e2; 0x72be5d74f27b896f; 0x80deb1fe3b1696b1; 0x9bdc06a725c71235;
   0xc19bf174cf692694; 0xe49b69c19ef14ad2; 0xefbe4786384f25e3; 0xfc19dc68b8cd5b5; 0x240ca1cc77ac9c65;
   0x2de92c6f592b0275; 0x4a7484aa6ea6e483; 0x5cb0a9dcbd41fbd4; 0x76f988da831153b5; 0x983e5152ee66dfab;
   0xa831c66d2db43210; 0xb00327c898fb213f; 0xbf597fc7beef0ee4; 0xc6e00bf33da88fc2; 0xd5a79147930aa725;
   0x6ca6351e003826f; 0x142929670a0e6e70; 0x27b70a8546d22ffc; 0x2e1b21385c26c926; 0x4d2c6dfc5ac42aed;
   0x53380d139d95b3df; 0x650a73548baf63de; 0x766a0abb3c77b2a8; 0x81c2c92e47edaee6; 0x92722c851482353b;
   0xa2bfe8a14cf10364; 0xa81a664bbc423001; 0xc24b8b70d0f89791; 0xc76c51a30654be30; 0xd192e819d6ef5218;
   0xd69906245565a910; 0xf40e35855771202a; 0x106aa07032bbd1b8; 0x19a4c116b8d2d0c8; 0x1e376c085141ab53;
   0x2748774cdf8eeb99; 0x34b0bcb5e19b48a8; 0x391c0cb3c5c95a63; 0x4ed8aa4ae3418acb; 0x5b9cca4f7763e373;
   0x682e6ff3d6b2b8a3; 0x748f82ee5defb2fc; 0x78a5636f43172f60; 0x84c87814a1f0ab72; 0x8cc702081a6439ec;
   0x90befffa23631e28; 0xa4506cebde82bde9; 0xbef9a3f7b2c67915; 0xc67178f2e372532b; 0xca273eceea26619c;
   0xd186b8c721c0c207; 0xeada7dd6cde0eb1e; 0xf57d4f7fee6ed178; 0x6f067aa72176fba; 0xa637dc5a2c898a6;
   0x113f9804bef90dae; 0x1b710b35131c471b; 0x28db77f523047d84; 0x32caab7b40c72493; 0x3c9ebe0a15c9bebc;
   0x431d67c49c100d4c; 0x4cc5d4becb3e42b6; 0x597f299cfc657e2a; 0x5fcb6fab3ad6faec; 0x6c44198c4a475817].

(** FIPS 180-4, 6.4: the eight words of a hash value *)
Record state := mkState { s0 : N; s1 : N; s2 : N; s3 : N; s4 : N; s5 : N; s6 : N; s7 : N }.
(** 5.3.5; FIPS 180-4 *)
Definition sha512_start : state :=
  mkState 0x6a09e667f3bcc908 0xbb67ae8584caa73b 0x3c6ef372fe94f82b 0xa54ff53a5f1d36f1 0x510e527fade682d1 0x9b05688c2b3e6c1f 0x1f83d9abfb41bd6b 0x5be0cd19137e2179.
(** 5.3.6.2; FIPS 180-4 *)
Definition sha512_256_start : state :=
  mkState 0x22312194fc2bf72c 0x9f555fa3c84c64c2 0x2393b86b6f53b151 0x963877195940eabd 0x96283ee2a88effe3 0xbe5e1e2553863992 0x2b0199fc2c85b8aa 0xeb72ddc81c52ca2.

(** 6.4.2: [w] is the message schedule from the current word on, 16 words of it; FIPS 180-4 *)
Fixpoint rounds (ks w : list N) (s : state) : state :=
  match ks with
  | [] => s
  | k :: ks' =>
      match w with
      | w0 :: r =>
          let t1 := add_words (add_words (add_words (s7 s) (big_sigma1 (s4 s))) (add_words (choose (s4 s) (s5 s) (s6 s)) k)) w0 in
          let t2 := add_words (big_sigma0 (s0 s)) (majority (s0 s) (s1 s) (s2 s)) in
          let next := add_words (add_words (small_sigma1 (nth 13 r 0)) (nth 8 r 0)) (add_words (small_sigma0 (nth 0 r 0)) w0) in
          rounds ks' (r ++ [next]) (mkState (add_words t1 t2) (s0 s) (s1 s) (s2 s) (add_words (s3 s) t1) (s4 s) (s5 s) (s6 s))
      | [] => s
      end
  end.
(** FIPS 180-4, 6.4.2, step 4 *)
Definition add_states (a b : state) : state :=
  mkState (add_words (s0 a) (s0 b)) (add_words (s1 a) (s1 b)) (add_words (s2 a) (s2 b)) (add_words (s3 a) (s3 b))
    (add_words (s4 a) (s4 b)) (add_words (s5 a) (s5 b)) (add_words (s6 a) (s6 b)) (add_words (s7 a) (s7 b)).
(** the first [n] words of a byte string; FIPS 180-4, 5.2.2 *)
Fixpoint words (n : nat) (s : bytes) : list N :=
  match n with O => [] | S n' => be_val (firstn 8 s) :: words n' (skipn 8 s) end.
(** 6.4.2: one block of 128 bytes after another; FIPS 180-4 *)
Fixpoint blocks (n : nat) (s : bytes) (h : state) : state :=
  match n with O => h | S n' => blocks n' (skipn 128 s) (add_states h (rounds round_constants (words 16 s) h)) end.
(** 5.1.2; FIPS 180-4 *)
Definition padded (s : bytes) : bytes :=
  s ++ [x80] ++ repeat x00 (N.to_nat ((239 - N.of_nat (length s) mod 128) mod 128)) ++ be 16 (8 * N.of_nat (length s)).
(** FIPS 180-4, 6.4.2: the digest from a start value *)
Definition final (start : state) (s : bytes) : bytes :=
  let p := padded s in let h := blocks (length p / 128) p start in
  be 8 (s0 h) ++ be 8 (s1 h) ++ be 8 (s2 h) ++ be 8 (s3 h) ++ be 8 (s4 h) ++ be 8 (s5 h) ++ be 8 (s6 h) ++ be 8 (s7 h).
(** FIPS 180-4, 6.4: [Sha512] of src/crypto/vrf.rs:19 *)
Definition sha512 (s : bytes) : bytes := final sha512_start s.
(** 6.7; FIPS 180-4: [Sha512Trunc256] of src/crypto/hashable.rs:9 *)
Definition sha512_256 (s : bytes) : bytes := firstn 32 (final sha512_256_start s).
