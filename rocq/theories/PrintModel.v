(** What is shown of rounds, amounts, identifiers and participation keys. *)
From Verif Require Import Base AddressModel KeyfileModel TxModel OtsModel AccountModel.
From Verif Require VrfModel.
Local Open Scope N_scope.

(** the symbols of [BASE64] of the crate data-encoding *)
Definition ALPHABET64 : bytes := str "ABCDEFGHIJKLMNOPQRSTUVWXYZabcdefghijklmnopqrstuvwxyz0123456789+/".
(** the same crate: the symbol of six bits *)
Definition symbol64 (v : N) : byte := nth (N.to_nat v) ALPHABET64 x00.
(** [BASE64.encode] of the same crate: three bytes make four symbols, the end is filled with zero bits and
    padded; used in src/crypto/vrf.rs:245 and src/bin/algokey/part.rs:141 *)
Fixpoint base64_encode (data : bytes) : bytes :=
  match data with
  | [] => []
  | [a] => let n := Byte.to_N a * 16 in [symbol64 (n / 64); symbol64 (n mod 64)] ++ str "=="
  | [a; b] => let n := (Byte.to_N a * 256 + Byte.to_N b) * 4 in [symbol64 (n / 4096); symbol64 (n / 64 mod 64); symbol64 (n mod 64)] ++ str "="
  | a :: b :: c :: r =>
      let n := (Byte.to_N a * 256 + Byte.to_N b) * 256 + Byte.to_N c in
      [symbol64 (n / 262144); symbol64 (n / 4096 mod 64); symbol64 (n / 64 mod 64); symbol64 (n mod 64)] ++ base64_encode r
  end.

(** src/data/basics/units.rs:50-54: the Greek letter is the bytes CE BC *)
Definition show_amount (a : N) : bytes := [xce; xbc] ++ str "A " ++ dec a.
(** src/data/basics/units.rs:64-68 *)
Definition show_round (r : N) : bytes := dec r.
(** src/crypto/vrf.rs:243-247 *)
Definition show_vrf_key (k : bytes) : bytes := base64_encode k.
(** src/data/transactions/transaction.rs:20-25 *)
Definition show_tx_id (id : bytes) : bytes := hash_to_string id.
(** src/data/transactions/transaction.rs:27-33 *)
Definition read_tx_id (text : bytes) : outcome hash_error bytes := hash_from_str text.

(** the newline of [println!], as in src/bin/algokey/part.rs:142-149 *)
Definition line (label value : bytes) : bytes := label ++ value ++ [x0a].
(** src/bin/algokey/part.rs:140-150: what is written to the standard output *)
Definition print_participation_key (H : bytes -> bytes) (p : participation) : bytes :=
  line (str "Parent address: ") (address_to_string H (parent p)) ++
  line (str "VRF public key: ") (show_vrf_key (VrfModel.public_key (vrf p))) ++
  line (str "Voting pub key: ") (base64_encode (verifier (voting p))) ++
  line (str "First valid:    ") (show_round (part_first p)) ++
  line (str "Last valid:     ") (show_round (part_last p)) ++
  line (str "Key dilution:   ") (dec (part_dilution p)) ++
  line (str "First batch:    ") (dec (first_batch (voting p))) ++
  line (str "First offset:   ") (dec (first_offset (voting p))).
