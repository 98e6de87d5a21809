(** Vocabulary for the statements about repeated deletions of one-time keys. *)
From Verif Require Import Base OtsModel OtsSpec.
Local Open Scope N_scope.

(** All deletions use the same number of keys per batch. *)
Definition same_size (p : N) (ds : list deletion) : Prop := Forall (fun d => per_batch d = p) ds.

(** [dm] is one of the deletions, and none is of a later identifier. *)
Definition latest (ds : list deletion) (dm : deletion) : Prop :=
  In dm ds /\ forall d, In d ds -> id_le (cur d) (cur dm).

(** What is signed for [id] verifies under [v]. *)
Definition signs (sc : scheme) (md : mode) (st : secrets) (v : bytes) (id : identifier) (msg fresh : bytes) : Prop :=
  exists o, sign sc md st id msg fresh = Some o /\ verify sc o id msg v = true.

(** Batches from [start] on, [n] of them, that come after the batch [b]. *)
Definition batches_after (start n b : N) : N := start + n - N.max start (b + 1).
(** Offsets from [o] on below [p], if the batch [b] is among the [n] from [start] on. *)
Definition offsets_from (start n p : N) (id : identifier) : N :=
  if (start <=? batch id) && (batch id <? start + n) then p - offset id else 0.
