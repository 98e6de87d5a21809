(** The tests of src/crypto/multisig.rs:357-468, run on the model with the hash and the signatures the code uses.
    These are tests of the translation, not proofs about it. *)
From Verif Require Import Base ShaModel Scheme CurveModel.
From Verif Require MultisigModel.
Local Open Scope N_scope.

Definition H := sha512_256.
Definition seeds : list bytes := map (fun b => repeat b 32) [x00; x01; x02; x03; x04].
Definition pks : list bytes := Eval vm_compute in map ed_public seeds.
Example address_generation :
  MultisigModel.from_pks H 1 3 (firstn 2 pks) = Err MultisigModel.InvalidThreshold /\
  (exists a, MultisigModel.from_pks H 1 3 (firstn 3 pks) = Ok a) /\ (exists a, MultisigModel.from_pks H 1 3 (firstn 4 pks) = Ok a).
Proof. split; [vm_compute; reflexivity|]. split; (eexists; vm_compute; reflexivity). Qed.
Example address_test_vector : MultisigModel.from_pks H 1 2 (firstn 3 pks) = Ok (map b8
  [215; 156; 40; 176; 255; 146; 124; 48; 105; 103; 167; 143; 244; 248; 78; 177; 30;
   135; 54; 239; 14; 170; 78; 81; 138; 24; 124; 68; 224; 121; 67; 203]).
Proof. vm_compute. reflexivity. Qed.

(** the test [multisig] with the seeds above for random ones *)
Definition signed_by (sk : bytes) (addr : bytes) : outcome MultisigModel.multisig_error MultisigModel.multisig :=
  MultisigModel.sign H ed25519 addr (str "test: txid 1000") 1 3 (firstn 4 pks) sk.
Definition multisig_test : bool := Eval vm_compute in
  match MultisigModel.from_pks H 1 3 (firstn 4 pks) with
  | Ok addr =>
      match MultisigModel.sign H ed25519 addr (str "test: txid 1000") 2 3 (firstn 4 pks) (repeat x00 32), signed_by (repeat x04 32) addr,
            signed_by (repeat x00 32) addr, signed_by (repeat x01 32) addr, signed_by (repeat x02 32) addr with
      | Err _, Err MultisigModel.KeyNotExists, Ok a, Ok b, Ok c =>
          match MultisigModel.assemble [a], MultisigModel.assemble [a; b; c] with
          | Err MultisigModel.InvalidNumberOfSignatures, Ok m =>
              match MultisigModel.verify H ed25519 m (str "test: txid 1000") addr with Ok b => b | _ => false end
          | _, _ => false
          end
      | _, _, _, _, _ => false
      end
  | _ => false
  end.
Example multisig : multisig_test = true. Proof. reflexivity. Qed.

