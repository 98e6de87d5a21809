(** C188. *)
From Coq Require Import String Permutation.
From Verif Require Import Base TxDecodeModel TxDecodeSpec DecodedSpec NamedSpec FormSpec SigFormModel SigFormSpec SigFormProofs TxDecodeProps NamedProps StibTypedProps.
From Verif Require FormProofs BlockBind NamedProofs MultisigModel.
Local Open Scope list_scope.
Local Open Scope N_scope.

(** C188.  A signed transaction reads the same from an array of its fields and from a map of them by name, in any order and with
    other names among them.  By name any kind of signature but the plain one may be missing; *)
Theorem c188_signed :
  forall valid_key bins valid_sig fields v v' b b' rest rest', signed_given fields v -> signed_given fields v' -> form v b -> form v' b' ->
  decode_signed valid_key bins valid_sig (b ++ rest) = decode_signed valid_key bins valid_sig (b' ++ rest').
Proof. exact signed_same. Qed.
Print Assumptions c188_signed.
(** so by name, unlike in what is written (C103), a transaction is read with whichever signatures it has. *)
Theorem c188_meant :
  forall valid_key bins valid_sig s v b rest, signed_in_memory valid_key valid_sig s -> ~ mentions_address (stx_tx s) ->
  signed_given (signed_fields s) v -> form v b -> decode_signed valid_key bins valid_sig (b ++ rest) = Some s.
Proof. exact signed_meant. Qed.
Print Assumptions c188_meant.
(** The signatures of a multisignature, where one that is not there may be missing by name only, *)
Theorem c188_subsig :
  forall valid_key bins valid_sig fields v v' b b' rest rest', subsig_given fields v -> subsig_given fields v' -> form v b -> form v' b' ->
  decode_subsig valid_key bins valid_sig (b ++ rest) = decode_subsig valid_key bins valid_sig (b' ++ rest').
Proof. exact subsig_same. Qed.
Print Assumptions c188_subsig.
(** multisignatures and logic signatures, where nothing may be missing, likewise; *)
Theorem c188_multisig :
  forall valid_key bins valid_sig fields v v' b b' rest rest', struct_has multisig_names fields v -> struct_has multisig_names fields v' -> form v b -> form v' b' ->
  decode_multisig valid_key bins valid_sig (b ++ rest) = decode_multisig valid_key bins valid_sig (b' ++ rest').
Proof. exact multisig_same. Qed.
Print Assumptions c188_multisig.
Theorem c188_lsig :
  forall valid_key bins valid_sig fields v v' b b' rest rest', struct_has lsig_names fields v -> struct_has lsig_names fields v' -> form v b -> form v' b' ->
  decode_lsig valid_key bins valid_sig (b ++ rest) = decode_lsig valid_key bins valid_sig (b' ++ rest').
Proof. exact lsig_same. Qed.
Print Assumptions c188_lsig.
(** and nothing else is read. *)
Theorem c188_signed_only :
  forall valid_key bins valid_sig v b rest s, form v b -> decode_signed valid_key bins valid_sig (b ++ rest) = Some s -> exists fields, signed_given fields v.
Proof. exact signed_only. Qed.
Print Assumptions c188_signed_only.
Theorem c188_subsig_only :
  forall valid_key bins valid_sig v b rest s, form v b -> decode_subsig valid_key bins valid_sig (b ++ rest) = Some s -> exists fields, subsig_given fields v.
Proof. exact subsig_only. Qed.
Print Assumptions c188_subsig_only.
Theorem c188_multisig_only :
  forall valid_key bins valid_sig v b rest s, form v b -> decode_multisig valid_key bins valid_sig (b ++ rest) = Some s -> exists fields, struct_has multisig_names fields v.
Proof. exact multisig_only. Qed.
Print Assumptions c188_multisig_only.
Theorem c188_lsig_only :
  forall valid_key bins valid_sig v b rest s, form v b -> decode_lsig valid_key bins valid_sig (b ++ rest) = Some s -> exists fields, struct_has lsig_names fields v.
Proof. exact lsig_only. Qed.
Print Assumptions c188_lsig_only.

(** A transaction with a plain signature only: the array needs all that comes before the transaction, the map does not. *)
Definition plainly_signed : signed_tx := mkSigned (repeat x05 64) None None anon_call zero32.
Definition signed_in_order : value := VArr [VBytes (repeat x05 64); VNil; VNil; tx_value anon_call].
Definition signed_by_name : value := VMap [(VStr (str "tx"), tx_value anon_call); (VBin (str "extra"), VNil); (VStr (str "sig"), VBytes (repeat x05 64))].
Example c188_example :
  signed_in_memory (fun _ => true) (fun _ => true) plainly_signed /\ ~ mentions_address (stx_tx plainly_signed) /\
  signed_given (signed_fields plainly_signed) signed_in_order /\ signed_given (signed_fields plainly_signed) signed_by_name /\
  form signed_in_order (encode signed_in_order) /\ form signed_by_name (encode signed_by_name) /\
  decode_signed (fun _ => true) true (fun _ => true) (encode signed_by_name) = Some plainly_signed /\
  decode_signed (fun _ => true) true (fun _ => true) (encode (signed_tx_value plainly_signed)) = None.
Proof.
  split. { split; [split; reflexivity|]. split; [discriminate|]. split; [discriminate|]. split; [exact (proj1 c102_example)|reflexivity]. }
  split; [exact (proj1 (proj2 c102_example))|].
  split; [split; [reflexivity|left]|].
  { exists [VBytes (repeat x05 64); VNil; VNil; tx_value anon_call], [VBytes zero32]. split; [reflexivity|]. split; [reflexivity|].
    cbn [skipn length combine signed_names signed_fields plainly_signed]. constructor; [left; reflexivity|constructor]. }
  split; [split; [reflexivity|right]|].
  { exists [(VStr (str "tx"), tx_value anon_call); (VBin (str "extra"), VNil); (VStr (str "sig"), VBytes (repeat x05 64))],
      [(VStr (str "msig"), VNil); (VStr (str "lsig"), VNil); (VStr (str "auth_addr"), VBytes zero32)]. split; [reflexivity|]. split.
    - exists [(VStr (str "sig"), VBytes (repeat x05 64)); (VStr (str "msig"), VNil); (VStr (str "lsig"), VNil); (VStr (str "tx"), tx_value anon_call); (VStr (str "auth_addr"), VBytes zero32)],
        [(VBin (str "extra"), VNil)].
      split; [|split; [|split; [reflexivity|]]].
      + cbn [app]. apply (Permutation_trans (l' := [(VStr (str "sig"), VBytes (repeat x05 64)); (VStr (str "msig"), VNil); (VStr (str "lsig"), VNil); (VStr (str "auth_addr"), VBytes zero32); (VStr (str "tx"), tx_value anon_call); (VBin (str "extra"), VNil)])).
        * exact (Permutation_app_comm [_; _] [_; _; _; _]).
        * do 3 apply perm_skip. apply perm_swap.
      + unfold signed_names. repeat apply Forall2_cons; try apply Forall2_nil; left; reflexivity.
      + constructor; [|constructor]. split; [exact I|]. intros n [<-|[<-|[<-|[<-|[<-|[]]]]]] [N|N]; cbn [fst] in N; try discriminate N; injection N as N; vm_compute in N; discriminate N.
    - unfold signed_optional. constructor; [exists "msig"%string, VNil; split; [left; reflexivity|reflexivity]|].
      constructor; [exists "lsig"%string, VNil; split; [right; left; reflexivity|reflexivity]|].
      constructor; [exists "auth_addr"%string, (VBytes zero32); split; [do 2 right; left; reflexivity|reflexivity]|constructor]. }
  split; [apply FormProofs.encode_form, BlockBind.wfb_sound; vm_compute; reflexivity|].
  split; [apply FormProofs.encode_form, BlockBind.wfb_sound; vm_compute; reflexivity|].
  split; vm_compute; reflexivity.
Qed.
(** The signatures by themselves. *)
Definition no_subsig_in_order : value := VArr [VBin (repeat x07 32); VNil].
Definition no_subsig_by_name : value := VMap [(VStr (str "key"), VBin (repeat x07 32))].
Example c188_subsig_example :
  subsig_given [VBin (repeat x07 32); VNil] no_subsig_in_order /\ subsig_given [VBin (repeat x07 32); VNil] no_subsig_by_name /\
  decode_subsig (fun _ => true) true (fun _ => true) (encode no_subsig_by_name) = Some (MultisigModel.mkSubsig (repeat x07 32) None) /\
  decode_subsig (fun _ => true) true (fun _ => true) (encode no_subsig_in_order) = Some (MultisigModel.mkSubsig (repeat x07 32) None) /\
  decode_subsig (fun _ => true) true (fun _ => true) (encode (VArr [VBin (repeat x07 32)])) = None.
Proof.
  split; [split; [reflexivity|left]|].
  { exists [VBin (repeat x07 32); VNil], []. split; [reflexivity|]. split; [reflexivity|]. constructor. }
  split; [split; [reflexivity|right]|].
  { exists [(VStr (str "key"), VBin (repeat x07 32))], [(VStr (str "sig"), VNil)]. split; [reflexivity|]. split.
    - exists [(VStr (str "key"), VBin (repeat x07 32)); (VStr (str "sig"), VNil)], []. split; [apply Permutation_refl|]. split; [|split; [reflexivity|constructor]].
      repeat apply Forall2_cons; try apply Forall2_nil; left; reflexivity.
    - constructor; [|constructor]. exists "sig"%string, VNil. split; [left; reflexivity|reflexivity]. }
  repeat split; vm_compute; reflexivity.
Qed.
Definition ex_lsig : logic_sig := mkLsig (str "prog") (repeat x06 64) ex_msig [str "arg"].
Example c188_multisig_example :
  struct_has multisig_names (items (multisig_value ex_msig)) (by_name multisig_names (multisig_value ex_msig)) /\
  decode_multisig (fun _ => true) true (fun _ => true) (encode (by_name multisig_names (multisig_value ex_msig))) = Some ex_msig /\
  decode_multisig (fun _ => true) true (fun _ => true) (encode (drop_entry (by_name multisig_names (multisig_value ex_msig)))) = None /\
  struct_has lsig_names (items (lsig_value ex_lsig)) (by_name lsig_names (lsig_value ex_lsig)) /\
  decode_lsig (fun _ => true) true (fun _ => true) (encode (by_name lsig_names (lsig_value ex_lsig))) = Some ex_lsig /\
  decode_lsig (fun _ => true) true (fun _ => true) (encode (drop_entry (by_name lsig_names (lsig_value ex_lsig)))) = None.
Proof.
  split; [apply (NamedProofs.fields_has _ _ _ multisig_apart); vm_compute; reflexivity|]. split; [vm_compute; reflexivity|]. split; [vm_compute; reflexivity|].
  split; [apply (NamedProofs.fields_has _ _ _ lsig_apart); vm_compute; reflexivity|]. split; vm_compute; reflexivity.
Qed.
