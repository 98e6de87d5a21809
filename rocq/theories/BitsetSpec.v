(** What a history of set and clear calls means. *)
From Verif Require Import Base BitsetModel.

Definition op_index (o : bit_op) : N := match o with SetBit b | ClearBit b => b end.

(** The last call of the history that touched [i] was a set. *)
Definition last_was_set (ops : list bit_op) (i : N) : Prop :=
  exists before after, ops = before ++ SetBit i :: after /\ ~ In i (map op_index after).
