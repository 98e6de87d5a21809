(** C185 and C186. *)
From Coq Require Import String Permutation.
From Verif Require Import Base StibDecodeModel StibDecodeSpec StibTypedSpec StibTypedProofs TxCodecSpec TxDecodeSpec GenDecodeSpec DecodedSpec NamedSpec FormSpec TxDecodeProps StibDecodeProps NamedProps.
From Verif Require FormProofs BlockBind NamedProofs.
Local Open Scope list_scope.
Local Open Scope N_scope.

(** C185.  Whatever the bytes, what is decoded as the transactions of a block are transactions of the right type with
    results of the right type, and inner ones as well. *)
Theorem c185_payset :
  forall valid_key bins valid_sig s p, decode_payset valid_key bins valid_sig s = Some p -> Forall (fun t => typed valid_key valid_sig (stib_tx t)) p.
Proof. exact payset_typed. Qed.
Print Assumptions c185_payset.
(** A delta that names a key twice, written by hand: the last value counts. *)
Definition twice_named : value :=
  VArr [VMap [(VStr (str "k"), delta_value (mkDelta SetUint [] 1)); (VStr (str "k"), delta_value (mkDelta SetUint [] 2))]; VMap []; VArr []; VArr []].
Definition hand_made_ad (amount : value) : value := VArr [amount; VNum 0; VNum 0; VNum 0; VNum 0; twice_named; VNum 0; VNum 0].
Definition hand_made_payset (amount : value) : value := VArr [VArr [VArr [signed_tx_value all_three; hand_made_ad amount]]].
Example c185_example :
  decode_payset (fun _ => true) true (fun _ => true) (encode (hand_made_payset (VNum 9))) =
    Some [mkStib (all_three, mkAD 9 0 0 0 0 (mkED [(str "k", mkDelta SetUint [] 2)] [] [] []) 0 0) false false] /\
  decode_payset (fun _ => true) true (fun _ => true) (encode (hand_made_payset (VInt (-1)))) = None.
Proof. split; vm_compute; reflexivity. Qed.

(** C186.  A transaction of a block reads the same from an array of its fields and from a map of them by name, in any order and
    with other names among them; marks that are missing are not set, results that are missing are empty. *)
Theorem c186_in_block :
  forall valid_key bins valid_sig t x y v v' b b' rest rest',
  struct_may_lack stib_names 1 [VBool false; VBool false] [t; x; y] v -> struct_may_lack stib_names 1 [VBool false; VBool false] [t; x; y] v' ->
  form v b -> form v' b' -> decode_stib valid_key bins valid_sig (b ++ rest) = decode_stib valid_key bins valid_sig (b' ++ rest').
Proof. exact stib_same. Qed.
Print Assumptions c186_in_block.
Theorem c186_with_results :
  forall valid_key bins valid_sig t x v v' b b' rest rest',
  struct_may_lack stad_names 1 [ad_value no_apply_data] [t; x] v -> struct_may_lack stad_names 1 [ad_value no_apply_data] [t; x] v' ->
  form v b -> form v' b' -> decode_stad valid_key bins valid_sig (b ++ rest) = decode_stad valid_key bins valid_sig (b' ++ rest').
Proof. exact stad_same. Qed.
Print Assumptions c186_with_results.
(** So do the results and the changes of stores in them, where no field may be missing; *)
Theorem c186_results :
  forall valid_key bins valid_sig fields v v' b b' rest rest', struct_has ad_names fields v -> struct_has ad_names fields v' -> form v b -> form v' b' ->
  decode_ad valid_key bins valid_sig (b ++ rest) = decode_ad valid_key bins valid_sig (b' ++ rest').
Proof. exact ad_same. Qed.
Print Assumptions c186_results.
Theorem c186_changes :
  forall valid_key bins valid_sig fields v v' b b' rest rest', struct_has eval_delta_names fields v -> struct_has eval_delta_names fields v' -> form v b -> form v' b' ->
  decode_eval_delta valid_key bins valid_sig (b ++ rest) = decode_eval_delta valid_key bins valid_sig (b' ++ rest').
Proof. exact eval_delta_same. Qed.
Print Assumptions c186_changes.
(** and nothing else is read. *)
Theorem c186_in_block_only :
  forall valid_key bins valid_sig v b rest s, form v b -> decode_stib valid_key bins valid_sig (b ++ rest) = Some s ->
  exists t x y, struct_may_lack stib_names 1 [VBool false; VBool false] [t; x; y] v.
Proof. exact stib_only. Qed.
Print Assumptions c186_in_block_only.
Theorem c186_with_results_only :
  forall valid_key bins valid_sig v b rest s, form v b -> decode_stad valid_key bins valid_sig (b ++ rest) = Some s ->
  exists t x, struct_may_lack stad_names 1 [ad_value no_apply_data] [t; x] v.
Proof. exact stad_only. Qed.
Print Assumptions c186_with_results_only.
Theorem c186_results_only :
  forall valid_key bins valid_sig v b rest a, form v b -> decode_ad valid_key bins valid_sig (b ++ rest) = Some a -> exists fields, struct_has ad_names fields v.
Proof. exact ad_only. Qed.
Print Assumptions c186_results_only.
Theorem c186_changes_only :
  forall valid_key bins valid_sig v b rest d, form v b -> decode_eval_delta valid_key bins valid_sig (b ++ rest) = Some d ->
  exists fields, struct_has eval_delta_names fields v.
Proof. exact eval_delta_only. Qed.
Print Assumptions c186_changes_only.
(** By name, a transaction marked as naming the genesis by its hash only is read as such, unlike what is written of it (C184). *)
Definition by_hash_in_order : value := VArr [stad_value (all_three, busy_results); VBool false; VBool true].
Definition by_hash_by_name : value :=
  VMap [(VStr (str "has_genesis_hash"), VBool true); (VBin (str "extra"), VNil); (VStr (str "tx"), stad_value (all_three, busy_results))].
Example c186_example :
  struct_may_lack stib_names 1 [VBool false; VBool false] [stad_value (all_three, busy_results); VBool false; VBool true] by_hash_in_order /\
  struct_may_lack stib_names 1 [VBool false; VBool false] [stad_value (all_three, busy_results); VBool false; VBool true] by_hash_by_name /\
  form by_hash_in_order (encode by_hash_in_order) /\ form by_hash_by_name (encode by_hash_by_name) /\
  decode_stib (fun _ => true) true (fun _ => true) (encode by_hash_by_name) = Some (mkStib (all_three, busy_results) false true) /\
  decode_stib (fun _ => true) true (fun _ => true) (encode by_hash_in_order) = Some (mkStib (all_three, busy_results) false true).
Proof.
  split; [split; [reflexivity|left]|].
  { exists [stad_value (all_three, busy_results); VBool false; VBool true], []. repeat split. apply Nat.leb_le. reflexivity. }
  split; [split; [reflexivity|right]|].
  { exists [(VStr (str "has_genesis_hash"), VBool true); (VBin (str "extra"), VNil); (VStr (str "tx"), stad_value (all_three, busy_results))],
      [(VStr (str "has_genesis_id"), VBool false)]. split; [reflexivity|]. split.
    - exists [(VStr (str "tx"), stad_value (all_three, busy_results)); (VStr (str "has_genesis_id"), VBool false); (VStr (str "has_genesis_hash"), VBool true)], [(VBin (str "extra"), VNil)].
      split; [|split; [|split; [reflexivity|]]].
      + exact (Permutation_app_comm [_; _] [_; _]).
      + unfold stib_names. repeat apply Forall2_cons; try apply Forall2_nil; left; reflexivity.
      + constructor; [|constructor]. split; [exact I|]. intros n [<-|[<-|[<-|[]]]] [N|N]; cbn [fst] in N; try discriminate N; injection N as N; vm_compute in N; discriminate N.
    - constructor; [|constructor]. exists "has_genesis_id"%string, (VBool false). split; [left; reflexivity|reflexivity]. }
  split; [apply FormProofs.encode_form, BlockBind.wfb_sound; vm_compute; reflexivity|].
  split; [apply FormProofs.encode_form, BlockBind.wfb_sound; vm_compute; reflexivity|].
  split; vm_compute; reflexivity.
Qed.
Example c186_results_example :
  struct_has ad_names (items (ad_value busy_results)) (ad_value busy_results) /\
  struct_has ad_names (items (ad_value busy_results)) (by_name ad_names (ad_value busy_results)) /\
  decode_ad (fun _ => true) true (fun _ => true) (encode (by_name ad_names (ad_value busy_results))) = Some busy_results /\
  decode_ad (fun _ => true) true (fun _ => true) (encode (drop_entry (by_name ad_names (ad_value busy_results)))) = None.
Proof.
  split; [apply (NamedProofs.fields_has _ _ _ ad_apart); vm_compute; reflexivity|]. split; [apply (NamedProofs.fields_has _ _ _ ad_apart); vm_compute; reflexivity|].
  split; vm_compute; reflexivity.
Qed.
Definition busy_changes : value := match items (ad_value busy_results) with [_; _; _; _; _; d; _; _] => d | _ => VNil end.
Example c186_changes_example :
  struct_has eval_delta_names (items busy_changes) busy_changes /\
  struct_has eval_delta_names (items busy_changes) (by_name eval_delta_names busy_changes) /\
  decode_eval_delta (fun _ => true) true (fun _ => true) (encode busy_changes) <> None /\
  decode_eval_delta (fun _ => true) true (fun _ => true) (encode (drop_entry (by_name eval_delta_names busy_changes))) = None.
Proof.
  split; [apply (NamedProofs.fields_has _ _ _ eval_delta_apart); vm_compute; reflexivity|]. split; [apply (NamedProofs.fields_has _ _ _ eval_delta_apart); vm_compute; reflexivity|].
  split; [vm_compute; discriminate|vm_compute; reflexivity].
Qed.
