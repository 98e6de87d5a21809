(** What C161 says. *)
From Verif Require Import Base BlockModel.

(** Two blocks that differ at most in their seeds. *)
Definition same_but_seed (b b' : block) : Prop :=
  payset b = payset b' /\ round (head b) = round (head b') /\ branch (head b) = branch (head b') /\
  tx_root (head b) = tx_root (head b') /\ timestamp (head b) = timestamp (head b') /\
  genesis_id (head b) = genesis_id (head b') /\ genesis_hash (head b) = genesis_hash (head b') /\
  rewards (head b) = rewards (head b') /\ upgrade (head b) = upgrade (head b') /\ vote (head b) = vote (head b') /\
  tx_counter (head b) = tx_counter (head b') /\ compact_certs (head b) = compact_certs (head b').
