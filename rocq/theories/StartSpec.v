(** Vocabulary for the first blocks of a network. *)
From Verif Require Import Base BlockModel.
Local Open Scope N_scope.

(** The node makes the blocks [bs] one after another, the first after the header [h], reading the times [nows] from its clock. *)
Inductive made_after (table : list (version * params)) (H : bytes -> bytes) (m : mode) : header -> list N -> list block -> Prop :=
| made_none h : made_after table H m h [] []
| made_next h now nows h' b bs : new_block table H m now h = (h', Some b) -> made_after table H m (head b) nows bs ->
    made_after table H m h (now :: nows) (b :: bs).
