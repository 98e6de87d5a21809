(** C138: the digests the code computes. *)
From Verif Require Import Base ShaModel AddressModel ShaProofs VrfModel.

(** C138.  Whatever is hashed, the digest has 32 bytes: the hash the code uses is one of those the other
    theorems speak of. *)
Theorem c138_hash : hash32 sha512_256.
Proof. exact sha512_256_length. Qed.
Print Assumptions c138_hash.

(** C138.  The digest inside verifiable random functions has 64 bytes. *)
Theorem c138_long s : length (ShaModel.sha512 s) = 64.
Proof. exact (sha512_length s). Qed.
Print Assumptions c138_long.

(** C138.  A digest is written with 52 letters and digits, which read back as the digest. *)
Theorem c138_text s : length (hash_to_string (sha512_256 s)) = 52 /\ hash_from_str (hash_to_string (sha512_256 s)) = Ok (sha512_256 s).
Proof. exact (hash_text s). Qed.
Print Assumptions c138_text.

(** C138.  An address derived from data by hashing is written with 58 letters and digits. *)
Theorem c138_address s : length (address_to_string sha512_256 (sha512_256 s)) = 58.
Proof. exact (address_text s). Qed.
Print Assumptions c138_address.

(** C138.  A message is hashed in whole blocks of 128 bytes, and different messages (of less than 2^128
    bits) in different blocks: the message, a one bit, less than a block of zeros, and the number of bits. *)
Theorem c138_padding s : exists z, z < 128 /\
  padded s = s ++ [x80] ++ repeat x00 z ++ MsgpackModel.be 16 (8 * N.of_nat (length s)) /\ length (padded s) mod 128 = 0.
Proof. exact (padding_lemma s). Qed.
Print Assumptions c138_padding.
Theorem c138_blocks_determine_message s s' : (N.of_nat (length s) < 2 ^ 125)%N -> (N.of_nat (length s') < 2 ^ 125)%N -> padded s = padded s' -> s = s'.
Proof. exact (padded_inj s s'). Qed.
Print Assumptions c138_blocks_determine_message.

Example c138_example :
  sha512_256 (str "abc") = map b8 [0x53; 0x04; 0x8e; 0x26; 0x81; 0x94; 0x1e; 0xf9; 0x9b; 0x2e; 0x29; 0xb7; 0x6b; 0x4c; 0x7d; 0xab;
    0xe4; 0xc2; 0xd0; 0xc6; 0x34; 0xfc; 0x6d; 0x46; 0xe0; 0xe2; 0xf1; 0x31; 0x07; 0xe7; 0xaf; 0x23]%N.
Proof. vm_compute. reflexivity. Qed.

(** A message whose padding needs a second block, from FIPS 180-2. *)
Definition two_blocks : bytes := str "abcdefghbcdefghicdefghijdefghijkefghijklfghijklmghijklmnhijklmnoijklmnopjklmnopqklmnopqrlmnopqrsmnopqrstnopqrstu".
Definition two_blocks_check : bool := Eval vm_compute in
  (bytes_eqb (sha512_256 two_blocks) (map b8 [0x39; 0x28; 0xe1; 0x84; 0xfb; 0x86; 0x90; 0xf8; 0x40; 0xda; 0x39; 0x88; 0x12; 0x1d; 0x31; 0xbe;
    0x65; 0xcb; 0x9d; 0x3e; 0xf8; 0x3e; 0xe6; 0x14; 0x6f; 0xea; 0xc8; 0x61; 0xe1; 0x9b; 0x56; 0x3a]%N))%bool.
Example c138_two_blocks : length two_blocks = 112 /\ length (padded two_blocks) = 256 /\ two_blocks_check = true.
Proof. repeat split; vm_compute; reflexivity. Qed.
