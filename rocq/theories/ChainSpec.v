(** Vocabulary for chains of blocks. *)
From Verif Require Import Base BlockModel BlockSpec UpgradeSpec.
Local Open Scope N_scope.

(** Each header of [hs] passes the check (block.rs:356-427) against a copy of the header before
    it, the first against [g]. *)
Fixpoint linked (table : list (version * params)) (H : bytes -> bytes) (m : mode) (g : header) (hs : list header) : Prop :=
  match hs with
  | [] => True
  | h :: r => snd (pre_check table H m h g) = Ok tt /\ linked table H m h r
  end.
(** The history of votes and protocols that a chain records. *)
Definition recorded (hs : list header) : list round_event := map (fun h => mkEvent (vote h) (current (upgrade h))) hs.
(** The protocols from header [i] to header [j] have genesis hashes. *)
Definition hashed_from (table : list (version * params)) (hs : list header) (i j : nat) : Prop :=
  forall k h, (i <= k <= j)%nat -> nth_error hs k = Some h -> exists p, lookup (current (upgrade h)) table = Some p /\ support_genesis_hash p = true.
(** The transactions of a block are committed to without the ambiguity of the genesis flags:
    by a Merkle tree, or with the genesis hash required. *)
Definition unambiguous (table : list (version * params)) (b : block) : Prop :=
  exists p, lookup (current (upgrade (head b))) table = Some p /\
    (payset_commit p = Merkle \/ (support_signed_tx_in_block p = true /\ require_genesis_hash p = true)).
(** Two blocks with the same header and the same transactions, decoded ones where the
    commitment is unambiguous and else up to the genesis flags. *)
Definition same_block (table : list (version * params)) (b b' : block) : Prop :=
  head b = head b' /\ Forall2 alike (payset b) (payset b') /\
  (unambiguous table b -> forall l l', decode_payset_flat table b = Ok l -> decode_payset_flat table b' = Ok l' -> l = l').
(** The strings hashed in a chain of blocks. *)
Definition chain_strings (table : list (version * params)) (H : bytes -> bytes) (g : header) (bs : list block) : list bytes :=
  map header_rep (g :: map head bs) ++ flat_map (commit_strings table H) bs.
