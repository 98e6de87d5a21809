(** Vocabulary for the statements about one-time signatures. *)
From Verif Require Import Base OtsModel.
Local Open Scope N_scope.

(** Identifiers in lexicographic order. *)
Definition id_le (a b : identifier) : Prop :=
  batch a < batch b \/ (batch a = batch b /\ offset a <= offset b).
Definition id_lt (a b : identifier) : Prop :=
  batch a < batch b \/ (batch a = batch b /\ offset a < offset b).

(** A call of [delete_before]: the identifier, the number of keys per batch, and the
    secrets the random generator delivers for the offsets. *)
Record deletion := mkDel { cur : identifier; per_batch : N; rng : N -> bytes }.

(** A sequence of deletions; [None] if one panics. *)
Fixpoint run (sc : scheme) (md : mode) (ds : list deletion) (st : secrets) : option secrets :=
  match ds with
  | [] => Some st
  | d :: r =>
      match delete_before sc md st (cur d) (per_batch d) (rng d) with
      | None => None
      | Some st' => run sc md r st'
      end
  end.

(** Identifiers whose successor numbers still fit 64 bits. *)
Definition id_ok (id : identifier) : Prop := batch id < max64 /\ offset id < max64.

Definition del_ok (d : deletion) : Prop := batch (cur d) < max64 /\ u64 (offset (cur d)) /\ u64 (per_batch d).

(** [id] can still be used after the deletions [ds] on keys for [n] batches from
    [start]: its batch was generated, nothing after it was deleted, and if its batch was
    expanded by a deletion (the first one in that batch), the offset is in the expansion. *)
Definition available (start n : N) (ds : list deletion) (id : identifier) : Prop :=
  start <= batch id < start + n /\
  (forall d, In d ds -> id_le (cur d) id) /\
  match find (fun d => batch (cur d) =? batch id) ds with
  | Some d => offset id < per_batch d
  | None => True
  end.

(** The secrets held in memory. *)
Definition held (st : secrets) : list bytes := map secret (batches st) ++ map secret (offsets st).

(** One of the three signatures does not check under the key of the secret that made it. *)
Definition self_refuted (sc : scheme) (o : ots) : Prop :=
  exists sk m, check sc (public sc sk) m (sign_with sc sk m) = false /\
    (o_sig o = sign_with sc sk m \/ o_pk1_sig o = sign_with sc sk m \/ o_pk2_sig o = sign_with sc sk m).
