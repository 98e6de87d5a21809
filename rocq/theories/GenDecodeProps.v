(** C118-C119. *)
From Verif Require Import Base BaseFacts GenDecodeModel GenDecodeSpec GenDecodeProofs BlockProps IdsProps TxDecodeSpec TxCodecSpec.
From Verif Require BlockBind.
Local Open Scope N_scope.

(** C118, full statement: what is written of a block header reads back as that header.  False: the upgrade
    state is never written, and a reader that does not take bytes for a sequence refuses every header. *)
Theorem c118_read_back_refuted : exists h, header_in_memory h /\ forall bins, decode_block_header bins (encode (header_value h)) <> Some h.
Proof.
  exists (ex_block_header (mkUpgrade V29 None 0 0 0)). split.
  - split; [apply BlockBind.wfb_sound; vm_compute; reflexivity|]. cbn zeta.
    repeat match goal with |- _ /\ _ => split | |- Forall _ _ => constructor | |- NoDup _ => constructor end; vm_compute; reflexivity.
  - intros []; vm_compute; discriminate.
Qed.
Print Assumptions c118_read_back_refuted.
(** What holds: everything but the upgrade state is read back, or nothing is. *)
Theorem c118_read_back_partial bins h rest : header_in_memory h ->
  decode_block_header bins (encode (header_value h) ++ rest) = if bins then Some (forget_upgrade h) else None.
Proof. exact (decode_header_lemma bins h rest). Qed.
Print Assumptions c118_read_back_partial.
Definition full_header : header :=
  mkHeader 7 (repeat x01 32) (repeat x02 32) (repeat x03 32) 1600000000 (str "net-v1") (repeat x04 32)
    (mkRewards (repeat x05 32) (repeat x06 32) 1 2 3 500000) (mkUpgrade V29 (Some V30) 4 100 200) (mkVote V30 140000 true) 12345
    [(Basic, mkCertState (repeat x07 32) 99 128)].
Example c118_example : header_in_memory full_header /\
  decode_block_header true (encode (header_value full_header)) = Some (forget_upgrade full_header) /\ upgrade (forget_upgrade full_header) <> upgrade full_header.
Proof.
  split; [split; [apply BlockBind.wfb_sound; vm_compute; reflexivity|]|split; [vm_compute; reflexivity|discriminate]].
  cbn zeta. repeat match goal with |- _ /\ _ => split | |- Forall _ _ => constructor | |- NoDup _ => constructor end;
    match goal with |- ~ _ => intros [] | _ => vm_compute; reflexivity end.
Qed.

(** C119.  A genesis file holding the encoding of a genesis loads as that genesis - if the reader takes bytes
    for a sequence.  Otherwise it panics as soon as there is an account. *)
Theorem c119_load_partial valid_key bins g rest : genesis_in_memory valid_key g -> bins = true \/ allocations g = [] ->
  load_genesis valid_key bins (Some (encode (genesis_value g) ++ rest)) = Ok g.
Proof.
  intros M C. rewrite (load_genesis_lemma valid_key bins g rest M). destruct C as [-> | ->]; [|destruct bins]; reflexivity.
Qed.
Print Assumptions c119_load_partial.
Theorem c119_load_panics valid_key g rest : genesis_in_memory valid_key g -> allocations g <> [] ->
  load_genesis valid_key false (Some (encode (genesis_value g) ++ rest)) = Panic.
Proof. intros M C. rewrite (load_genesis_lemma valid_key false g rest M). destruct (allocations g); [contradiction|reflexivity]. Qed.
Print Assumptions c119_load_panics.
(** The file must be there: the error that the function announces is never given. *)
Theorem c119_missing_refuted valid_key bins : load_genesis valid_key bins None = Panic /\ forall file, load_genesis valid_key bins file <> Err tt.
Proof.
  split; [reflexivity|]. intros [s|]; cbn [load_genesis]; [|discriminate].
  destruct (decode s); [|discriminate]. destruct (get_genesis _ _ _); discriminate.
Qed.
Print Assumptions c119_missing_refuted.
Definition rich_genesis : genesis :=
  mkGenesis (str "v1") (str "net") V30
    [mkAllocation (str "ADDR") (str "wallet")
      (mkAccountData Online 5000000 1 2 (repeat x07 32) (repeat x08 32) 3 3000000 10000
        [(1, mkAssetParams 5 2 true (str "u") (str "asset") (str "http") (repeat x01 32) (repeat x02 32) (repeat x03 32) (repeat x04 32) (repeat x05 32))]
        [(7, mkHolding 10 false); (8, mkHolding 3 true)] (repeat x09 32)
        [(4, mkAppLocal (mkSchema 1 2) [(str "k", new_uint 5); (str "l", new_bytes [x01; x02])])]
        [(5, mkAppParams [x01] [x02; x03] [(str "g", new_uint 6)] (mkSchema 3 4) (mkSchema 5 6) 1)] (mkSchema 7 8) 2)]
    (str "POOL") (str "SINK") 1600000000 (str "hello") true.
Example c119_example : genesis_in_memory (fun _ => true) rich_genesis /\ allocations rich_genesis <> [] /\
  load_genesis (fun _ => true) true (Some (encode (genesis_value rich_genesis))) = Ok rich_genesis.
Proof.
  split; [split; [apply BlockBind.wfb_sound; vm_compute; reflexivity|]|split; [discriminate|vm_compute; reflexivity]].
  unfold genesis_typed. cbn [allocations rich_genesis].
  repeat match goal with
    | |- account_in_memory _ _ => unfold account_in_memory; cbn [alloc_state ad_asset_params ad_assets ad_locals ad_apps ad_schema]
    | |- indexed_in_memory _ _ => unfold indexed_in_memory; cbn [map fst snd]
    | |- teal_map_in_memory _ => unfold teal_map_in_memory; cbn [al_values ap_state map fst snd]
    | |- params_in_memory _ => unfold params_in_memory | |- schema_fits _ => unfold schema_fits
    | |- _ /\ _ => split | |- Forall _ _ => constructor | |- NoDup _ => constructor
    end; match goal with |- ~ _ => cbn; intuition discriminate | _ => vm_compute; reflexivity end.
Qed.
