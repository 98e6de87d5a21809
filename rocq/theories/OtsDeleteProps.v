(** Property C157: deletions of one-time keys. *)
From Verif Require Import Base Toy OtsModel OtsSpec OtsProofs OtsProps OtsDeleteSpec OtsDeleteProofs.
Local Open Scope N_scope.

(** C157.  Deleting before an identifier that is not after one deleted before changes nothing at all. *)
Theorem c157_earlier : forall sc md st ds d d',
  Forall del_ok ds -> In d ds -> del_ok d' -> id_le (cur d') (cur d) ->
  run sc md (ds ++ [d']) st = run sc md ds st.
Proof. exact earlier_lemma. Qed.
Print Assumptions c157_earlier.

(** Only the latest deletion matters for what can be signed. *)
Theorem c157_latest : forall sc md master start eks p ds dm id msg fresh,
  scheme_correct sc -> (forall pk m, check sc pk m null_sig = false) ->
  start + N.of_nat (length eks) <= two64 -> Forall del_ok ds -> id_ok id -> same_size p ds ->
  latest ds dm ->
  exists st0 st st', generate sc md master start eks = Some st0 /\
    run sc md ds st0 = Some st /\ run sc md [dm] st0 = Some st' /\
    (signs sc md st (verifier st0) id msg fresh <-> signs sc md st' (verifier st0) id msg fresh).
Proof. exact latest_lemma. Qed.
Print Assumptions c157_latest.

(** The secrets in memory are one for each batch after the latest deletion, and one for each identifier of its batch
    that is left. *)
Theorem c157_held : forall sc md master start eks p ds dm,
  start + N.of_nat (length eks) <= two64 -> Forall del_ok ds -> same_size p ds -> latest ds dm ->
  exists st0 st, generate sc md master start eks = Some st0 /\ run sc md ds st0 = Some st /\
    N.of_nat (length (held st)) =
      batches_after start (N.of_nat (length eks)) (batch (cur dm)) + offsets_from start (N.of_nat (length eks)) p (cur dm).
Proof. exact held_count_lemma. Qed.
Print Assumptions c157_held.

(** ** Concrete cases *)

(** Batches 4, 5 and 6 and deletions before (5, 3), (5, 7) and (2, 0): one key for batch 6 and three for (5, 7) to (5, 9). *)
Example c157_case :
  Forall del_ok ex_dels /\ same_size 10 ex_dels /\ (exists dm, nth_error ex_dels 1 = Some dm /\ latest ex_dels dm) /\
  batches_after 4 3 5 + offsets_from 4 3 10 (mkId 5 7) = 4 /\
  match ex_st with Some (_, st) => length (held st) = 4%nat | None => False end.
Proof.
  split; [repeat constructor; cbn; unfold max64, u64, two64; lia|]. split; [repeat constructor|]. split.
  - eexists. split; [reflexivity|]. split; [right; left; reflexivity|].
    intros d [<-|[<-|[<-|[]]]]; unfold id_le; cbn; lia.
  - split; reflexivity.
Qed.
