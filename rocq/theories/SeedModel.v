(** Setting and reading the seed of a block, src/data/bookkeeping/block.rs. *)
From Verif Require Import Base BlockModel.

(** helper: the header with another seed, [new_block.header.seed = s]; block.rs:223 *)
Definition set_seed (h : header) (s : bytes) : header :=
  mkHeader (round h) (branch h) s (tx_root h) (timestamp h) (genesis_id h) (genesis_hash h) (rewards h) (upgrade h) (vote h)
    (tx_counter h) (compact_certs h).
(** block.rs:219-225 *)
Definition with_seed (b : block) (s : bytes) : block := mkBlock (set_seed (head b) s) (payset b).
(** block.rs:228-231 *)
Definition block_seed (b : block) : bytes := seed (head b).
(** block.rs:190-193 *)
Definition block_digest (H : bytes -> bytes) (b : block) : bytes := header_hash H (head b).
