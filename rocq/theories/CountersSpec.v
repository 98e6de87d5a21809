(** What C164 says. *)
From Verif Require Import Base BlockModel.
Local Open Scope N_scope.

(** The header counts the transactions of its block, and its rewards level has not fallen. *)
Definition counts_on (prev : header) (b : block) : Prop :=
  tx_counter (head b) = tx_counter prev + N.of_nat (length (payset b)) /\ level (rewards prev) <= level (rewards (head b)).
(** Equal in what a header check can see: round, previous hash, time, network, protocol and vote. *)
Definition same_checked (h h' : header) : Prop :=
  round h = round h' /\ branch h = branch h' /\ timestamp h = timestamp h' /\ genesis_id h = genesis_id h' /\
  genesis_hash h = genesis_hash h' /\ upgrade h = upgrade h' /\ vote h = vote h'.
