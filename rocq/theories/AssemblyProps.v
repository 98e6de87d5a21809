(** C104: assembling multisignatures. *)
From Verif Require Import Base BaseFacts MultisigModel MultisigSpec AssemblySpec AssemblyProofs MultisigProps.
Local Open Scope N_scope.

(** Assembling succeeds exactly for two or more over the same version, threshold and keys; the result
    is over these too and carries in each slot the last signature given there. *)
Theorem c104_assemble us :
  assemble us <> Panic /\
  ((exists m, assemble us = Ok m) <-> (2 <= length us)%nat /\ forall u v, In u us -> In v us -> same_preimage u v) /\
  (forall m, assemble us = Ok m -> (forall u, In u us -> same_preimage u m) /\ forall i s, slot_sig m i s <-> latest us i s).
Proof. exact (assemble_lemma us). Qed.
Print Assumptions c104_assemble.
Example c104_case :
  match assemble [ex_part (str "carol"); ex_part (str "alice"); ex_part (str "carol")] with
  | Ok m => map is_signed (subsigs m) = [true; false; true]
  | _ => False
  end /\
  assemble [ex_part (str "carol")] = Err InvalidNumberOfSignatures /\
  assemble [ex_part (str "carol"); mkMsig 1 3 (subsigs (ex_part (str "bob")))] = Err (ThresholdsDontMatch 2 3).
Proof. split; [|split]; vm_compute; reflexivity. Qed.
