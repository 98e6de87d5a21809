(** C137. *)
From Coq Require Import String.
From Verif Require Import Base Toy MsgpackModel BlockBind FormSpec StructModel TxDecodeModel TxCodecSpec GenDecodeModel GenDecodeSpec GenDecodeProps DecodedSpec NamedSpec NamedProofs.
From Verif Require Import Scheme OtsModel AccountModel AccountProps.
Local Open Scope list_scope.
Local Open Scope N_scope.

(** C137.  A block header, a genesis and stored keys read the same from an array of their fields, in their order, and from
    a map of them by name, in any order and with other names among them; *)
Theorem c137_header :
  forall bins fields v v' b b' rest rest', struct_has block_header_names fields v -> struct_has block_header_names fields v' -> form v b -> form v' b' ->
  decode_block_header bins (b ++ rest) = decode_block_header bins (b' ++ rest').
Proof. exact header_same. Qed.
Print Assumptions c137_header.
Theorem c137_genesis :
  forall valid_key bins fields v v' b b' rest rest', struct_has genesis_names fields v -> struct_has genesis_names fields v' -> form v b -> form v' b' ->
  load_genesis valid_key bins (Some (b ++ rest)) = load_genesis valid_key bins (Some (b' ++ rest')).
Proof. exact genesis_same. Qed.
Print Assumptions c137_genesis.
Theorem c137_keys :
  forall sc is_point st st' fields vrf_fields v v' w w' b b' c c' rest rest' more more',
  struct_has secrets_names fields v -> struct_has secrets_names fields v' -> struct_has vrf_names vrf_fields w -> struct_has vrf_names vrf_fields w' ->
  form v b -> form v' b' -> form w c -> form w' c' ->
  st (str "part-voting") = Some (b ++ rest) -> st' (str "part-voting") = Some (b' ++ rest') -> st (str "part-vrf") = Some (c ++ more) -> st' (str "part-vrf") = Some (c' ++ more') ->
  (forall k, k <> str "part-voting" -> k <> str "part-vrf" -> st k = st' k) -> restore sc is_point st = restore sc is_point st'.
Proof. exact keys_same. Qed.
Print Assumptions c137_keys.
(** and nothing else is read: an array of another length, or a map that lacks a field, has one twice or has a key that is no name, is refused. *)
Theorem c137_header_only :
  forall bins v b rest h, form v b -> decode_block_header bins (b ++ rest) = Some h -> exists fields, struct_has block_header_names fields v.
Proof. exact header_has. Qed.
Print Assumptions c137_header_only.
Theorem c137_genesis_only :
  forall valid_key bins v b rest g, form v b -> load_genesis valid_key bins (Some (b ++ rest)) = Ok g -> exists fields, struct_has genesis_names fields v.
Proof. exact genesis_has. Qed.
Print Assumptions c137_genesis_only.
Theorem c137_keys_only :
  forall sc is_point st p, restore sc is_point st = Ok p -> exists fields vrf_fields v w b c rest more,
  st (str "part-voting") = Some (b ++ rest) /\ form v b /\ struct_has secrets_names fields v /\
  st (str "part-vrf") = Some (c ++ more) /\ form w c /\ struct_has vrf_names vrf_fields w.
Proof. exact keys_have. Qed.
Print Assumptions c137_keys_only.

(** The fields of an array by name, last one first, after something else. *)
Definition by_name (names : list string) (v : value) : value :=
  match v with VArr l => VMap ((VBin (str "extra"), VNil) :: rev (combine (map (fun n => VStr (str n)) names) l)) | v => v end.
Definition items (v : value) : list value := match v with VArr l => l | _ => [] end.
Definition drop_entry (v : value) : value := match v with VMap (a :: b :: l) => VMap (a :: l) | v => v end.
Definition double_entry (v : value) : value := match v with VMap (a :: b :: l) => VMap (a :: b :: b :: l) | v => v end.
Definition named_header : value := by_name block_header_names (header_value full_header).
Definition named_genesis : value := by_name genesis_names (genesis_value rich_genesis).
Example c137_header_example :
  struct_has block_header_names (items (header_value full_header)) (header_value full_header) /\
  struct_has block_header_names (items (header_value full_header)) named_header /\ form named_header (encode named_header) /\
  decode_block_header true (encode named_header) = Some (forget_upgrade full_header) /\
  decode_block_header true (encode (drop_entry named_header)) = None /\ decode_block_header true (encode (double_entry named_header)) = None.
Proof.
  split; [apply (fields_has _ _ _ header_names_apart); vm_compute; reflexivity|]. split; [apply (fields_has _ _ _ header_names_apart); vm_compute; reflexivity|].
  split; [apply FormProofs.encode_form, wfb_sound; vm_compute; reflexivity|]. split; [vm_compute; reflexivity|]. split; vm_compute; reflexivity.
Qed.
Example c137_genesis_example :
  struct_has genesis_names (items (genesis_value rich_genesis)) (genesis_value rich_genesis) /\
  struct_has genesis_names (items (genesis_value rich_genesis)) named_genesis /\
  load_genesis (fun _ => true) true (Some (encode named_genesis)) = Ok rich_genesis /\ load_genesis (fun _ => true) true (Some (encode (drop_entry named_genesis))) = Panic.
Proof.
  split; [apply (fields_has _ _ _ genesis_names_apart); vm_compute; reflexivity|]. split; [apply (fields_has _ _ _ genesis_names_apart); vm_compute; reflexivity|].
  split; vm_compute; reflexivity.
Qed.
Definition kept_in_order : store := fst (persist ex_scheme empty_store ex_p None).
Definition kept_by_name : store :=
  insert (insert kept_in_order (str "part-voting") (encode (by_name secrets_names (secrets_value ex_scheme (voting ex_p)))))
    (str "part-vrf") (encode (by_name vrf_names (vrf_value (vrf ex_p)))).
Example c137_keys_example : restore ex_scheme any_point kept_in_order = Ok ex_p /\ restore ex_scheme any_point kept_by_name = Ok ex_p /\
  kept_by_name (str "part-voting") <> kept_in_order (str "part-voting").
Proof. split; [exact c70_persisted_case|]. split; [vm_compute; reflexivity|vm_compute; discriminate]. Qed.
