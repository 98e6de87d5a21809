(** Property C156: merging multisignatures in any order. *)
From Verif Require Import Base MultisigModel MultisigSpec AssemblySpec MultisigProps MergeProofs.

(** C156, order of two. *)
Theorem c156_commutes : forall a b c, merge a b = Ok c -> merge b a = Ok c.
Proof. exact merge_comm. Qed.
Print Assumptions c156_commutes.

(** C156, repetition. *)
Theorem c156_repeats : forall a, merge a a = Ok a.
Proof. exact merge_same. Qed.
Print Assumptions c156_repeats.

(** C156, grouping.  One way of grouping three succeeds if the other does, with the same result. *)
Theorem c156_groups : forall a b c d,
  (exists ab, merge a b = Ok ab /\ merge ab c = Ok d) <-> (exists bc, merge b c = Ok bc /\ merge a bc = Ok d).
Proof. exact merge_groups. Qed.
Print Assumptions c156_groups.

(** C156, assembling.  Merging two is assembling them. Without different signatures for one slot,
    assembling gives the same multisignature in any order and with any repetitions. *)
Theorem c156_assembles : forall a b c, merge a b = Ok c -> assemble [a; b] = Ok c.
Proof. exact assemble_merge. Qed.
Print Assumptions c156_assembles.
Theorem c156_any_order : forall us vs m, assemble us = Ok m ->
  (forall u v, In u us -> In v us -> ~ slot_conflict u v) ->
  (forall u, In u us <-> In u vs) -> 2 <= length vs -> assemble vs = Ok m.
Proof. exact assemble_order. Qed.
Print Assumptions c156_any_order.

(** Three signers' parts merge to one multisignature with three signatures. *)
Example c156_case :
  let a := ex_part (str "alice") in let b := ex_part (str "bob") in let c := ex_part (str "carol") in
  exists ab bc d, merge a b = Ok ab /\ merge ab c = Ok d /\ merge b c = Ok bc /\ merge a bc = Ok d /\
    map is_signed (subsigs d) = [true; true; true] /\ assemble [c; a; b; a] = Ok d.
Proof. cbv zeta. do 3 eexists. split; [vm_compute; reflexivity|]. split; [vm_compute; reflexivity|]. split; [vm_compute; reflexivity|]. split; [vm_compute; reflexivity|]. split; vm_compute; reflexivity. Qed.
(** Different signatures for one slot cannot be merged; assembling keeps the last one. *)
Example c156_conflict :
  let e s := mkMsig 1 1 [mkSubsig (repeat x07 32) (Some s)] in
  merge (e (str "x")) (e (str "y")) = Err InvalidDuplicates /\ assemble [e (str "x"); e (str "y")] = Ok (e (str "y")) /\ assemble [e (str "y"); e (str "x")] = Ok (e (str "x")).
Proof. cbv zeta. repeat split; vm_compute; reflexivity. Qed.
