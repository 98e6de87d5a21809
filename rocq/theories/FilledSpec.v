(** Vocabulary for blocks that are filled with transactions. *)
From Verif Require Import Base BlockModel.
Local Open Scope N_scope.

(** The transactions of the block are [ts] with their results, each encoded for the block. *)
Definition filled (table : list (version * params)) (b : block) (ts : list signed_tx_with_ad) : Prop :=
  Forall2 (fun t s => encode_signed_tx table (head b) (fst t) (snd t) = Ok s) ts (payset b).
