(** C126 and C127. *)
From Coq Require Import Permutation.
From Verif Require Import Base Toy MsgpackModel BlockBind FormSpec FormProofs TxDecodeModel TxCodecSpec TxDecodeSpec TxProps TxDecodeProps GenDecodeModel GenDecodeSpec GenDecodeProps DecodedSpec DecodedProofs EntriesProofs.
Local Open Scope N_scope.

(** C126.  Whatever the bytes, what is decoded is a value of its type: numbers in their ranges, addresses and hashes of
    32 bytes, strings that are UTF-8, keys and signatures that the library accepts, one entry per key in maps. *)
Theorem c126_transaction :
  forall valid_key s t, decode_tx valid_key s = Some t -> tx_typed valid_key t.
Proof. exact decode_tx_typed. Qed.
Print Assumptions c126_transaction.
Theorem c126_signed_transaction :
  forall valid_key bins valid_sig s t, decode_signed valid_key bins valid_sig s = Some t -> signed_typed valid_key valid_sig t.
Proof. exact decode_signed_typed. Qed.
Print Assumptions c126_signed_transaction.
(** A block header never gets an upgrade state from the bytes. *)
Theorem c126_block_header :
  forall bins s h, decode_block_header bins s = Some h -> header_in_memory h /\ upgrade h = mkUpgrade CURRENT_CONSENSUS_VERSION None 0 0 0.
Proof. exact (decode_header_typed (fun _ => true)). Qed.
Print Assumptions c126_block_header.
Theorem c126_genesis :
  forall valid_key bins file g, load_genesis valid_key bins file = Ok g -> genesis_typed valid_key g.
Proof. exact load_genesis_typed. Qed.
Print Assumptions c126_genesis.
(** A payment written by hand, with its addresses as arrays of numbers. *)
Definition hand_made (amount : value) : value :=
  VMap [(VStr (str "type"), VStr (str "pay")); (VStr (str "snd"), VBytes alice); (VStr (str "rcv"), VBytes bob); (VBin (str "amt"), amount); (VStr (str "fee"), VNum 1000)].
Example c126_example :
  decode_tx (fun _ => true) (encode (hand_made (VNum (2 ^ 64 - 1)))) = Some (mkTx (mkTxHeader alice 1000 0 0 [] [] zero32 zero32 zero32 zero32) (Payment (mkPayment bob (2 ^ 64 - 1) None))) /\
  decode_tx (fun _ => true) (encode (hand_made (VInt (-1)))) = None /\
  decode_signed (fun _ => true) false (fun _ => true) (encode (signed_tx_value all_three)) = Some all_three /\
  decode_block_header true (encode (header_value full_header)) = Some (forget_upgrade full_header) /\
  load_genesis (fun _ => true) true (Some (encode (genesis_value rich_genesis))) = Ok rich_genesis.
Proof. repeat match goal with |- _ /\ _ => split end; vm_compute; reflexivity. Qed.

(** C127.  False: there are different byte strings with nothing after the value that decode to the same transaction. *)
Definition shuffled (v : value) : value := match v with VMap l => VMap (rev l) | v => v end.
Theorem c127_canonical_refuted :
  exists b b' v v' t, form v b /\ form v' b' /\ length b = length b' /\ b <> b' /\ decode_tx (fun _ => true) b = Some t /\ decode_tx (fun _ => true) b' = Some t.
Proof.
  exists (encode (tx_value anon_call)), (encode (shuffled (tx_value anon_call))), (tx_value anon_call), (shuffled (tx_value anon_call)), anon_call.
  split; [apply encode_form, wfb_sound; vm_compute; reflexivity|]. split; [apply encode_form, wfb_sound; vm_compute; reflexivity|].
  split; [vm_compute; reflexivity|]. split; [vm_compute; discriminate|]. split; vm_compute; reflexivity.
Qed.
Print Assumptions c127_canonical_refuted.
(** What holds: the order of the entries does not matter, *)
Theorem c127_order_partial :
  forall valid_key l l' b b' rest rest', Permutation l l' -> form (VMap l) b -> form (VMap l') b' ->
  decode_tx valid_key (b ++ rest) = decode_tx valid_key (b' ++ rest').
Proof. exact order_lemma. Qed.
Print Assumptions c127_order_partial.
(** an entry whose name means nothing is as good as none, *)
Theorem c127_unknown_partial :
  forall valid_key e l b b' rest rest', has_name e -> (forall name, In name known_names -> ~ named name e) ->
  form (VMap (e :: l)) b -> form (VMap l) b' -> decode_tx valid_key (b ++ rest) = decode_tx valid_key (b' ++ rest').
Proof. exact unknown_lemma. Qed.
Print Assumptions c127_unknown_partial.
(** two entries for one field of the header, or two types, are refused, *)
Theorem c127_twice_partial :
  forall valid_key e f l l' b rest name, In name header_names -> named name e -> named name f -> Permutation (e :: f :: l) l' ->
  form (VMap l') b -> decode_tx valid_key (b ++ rest) = None.
Proof. exact twice_lemma. Qed.
Print Assumptions c127_twice_partial.
(** and so is an entry whose key is neither a name nor a number. *)
Theorem c127_keys_partial :
  forall valid_key e l b rest, In e l -> ~ has_name e -> (forall n, fst e <> VInt n) -> form (VMap l) b -> decode_tx valid_key (b ++ rest) = None.
Proof. exact keys_lemma. Qed.
Print Assumptions c127_keys_partial.
Definition entries (v : value) : list (value * value) := match v with VMap l => l | _ => [] end.
Example c127_example :
  let stray := (VStr (str "notes"), VNum 1) in let more := (VBin (str "fee"), VNum 2000) in
  has_name stray /\ (forall name, In name known_names -> ~ named name stray) /\
  decode_tx (fun _ => true) (encode (VMap (stray :: entries (hand_made (VNum 5))))) = decode_tx (fun _ => true) (encode (hand_made (VNum 5))) /\
  decode_tx (fun _ => true) (encode (hand_made (VNum 5))) <> None /\ In (str "fee") header_names /\ named (str "fee") more /\
  decode_tx (fun _ => true) (encode (VMap (more :: entries (hand_made (VNum 5))))) = None /\
  ~ has_name (VExt x05 [x01], VNum 1) /\ decode_tx (fun _ => true) (encode (VMap ((VExt x05 [x01], VNum 1) :: entries (hand_made (VNum 5))))) = None.
Proof.
  cbv zeta. split; [exact I|]. split; [intros name K [N|N]; [injection N as <-; vm_compute in K; repeat destruct K as [K|K]; discriminate || contradiction|discriminate]|].
  split; [vm_compute; reflexivity|]. split; [vm_compute; discriminate|]. split; [vm_compute; tauto|]. split; [right; reflexivity|]. split; [vm_compute; reflexivity|].
  split; [exact (fun x => x)|]. vm_compute. reflexivity.
Qed.
