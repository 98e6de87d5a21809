(** Property C150: what is printed tells what it is about. *)
From Verif Require Import Base Toy AddressModel AddressSpec AddressProofs KeyfileSpec KeyfileProofs OtsModel AccountModel TxModel TxCodecSpec TxProps PrintModel PrintSpec PrintProofs.
From Verif Require VrfModel.
Local Open Scope N_scope.

(** C150.  The report on a participation key has the eight lines it should have, *)
Theorem c150_report :
  forall H p, hash32 H -> facts_fit (facts_of p) -> is_report H (facts_of p) (print_participation_key H p).
Proof. exact print_is_report. Qed.
Print Assumptions c150_report.
(** and every text is the report on at most one set of facts: from the report they can be read off. *)
Theorem c150_report_tells :
  forall H f f' text, hash32 H -> length (f_parent f) = 32%nat -> length (f_parent f') = 32%nat ->
  is_report H f text -> is_report H f' text -> f = f'.
Proof. exact report_inj. Qed.
Print Assumptions c150_report_tells.

(** Keys are shown in base 64, and differ if what is shown differs. *)
Theorem c150_keys :
  forall k text, is_base64 k text <-> text = show_vrf_key k.
Proof. exact is_base64_iff. Qed.
Print Assumptions c150_keys.
Theorem c150_keys_tell :
  forall k k' text, is_base64 k text -> is_base64 k' text -> k = k'.
Proof. exact is_base64_inj. Qed.
Print Assumptions c150_keys_tell.

(** Amounts and rounds. *)
Theorem c150_amounts : forall a, u64 a -> is_amount a (show_amount a) /\ is_decimal a (show_round a).
Proof. exact (fun a U => conj (show_amount_lemma a U) (dec_is_decimal a U)). Qed.
Print Assumptions c150_amounts.

(** The printed identifier of a transaction can be read, and names one transaction. *)
Theorem c150_identifiers_read : forall id, length id = 32%nat -> read_tx_id (show_tx_id id) = Ok id.
Proof. exact AddressProofs.c35_round_trip. Qed.
Print Assumptions c150_identifiers_read.
Theorem c150_identifiers_tell :
  forall H t t', hash32 H -> tx_fits t -> tx_fits t' -> show_tx_id (tx_id H t) = show_tx_id (tx_id H t') ->
  t = t' \/ (tx_hash_rep t <> tx_hash_rep t' /\ H (tx_hash_rep t) = H (tx_hash_rep t')).
Proof. exact show_tx_id_lemma. Qed.
Print Assumptions c150_identifiers_tell.

(** ** Concrete cases *)
(** Base 64: the test vectors of RFC 4648. *)
Example c150_vectors :
  base64_encode (str "") = str "" /\ base64_encode (str "f") = str "Zg==" /\ base64_encode (str "fo") = str "Zm8=" /\
  base64_encode (str "foo") = str "Zm9v" /\ base64_encode (str "foob") = str "Zm9vYg==" /\ base64_encode (str "fooba") = str "Zm9vYmE=" /\
  base64_encode (str "foobar") = str "Zm9vYmFy" /\ base64_encode [xfb; xff; xbf] = str "+/+/".
Proof. vm_compute. auto 10. Qed.
Definition shown_part : participation :=
  mkPart (repeat x07 32) (VrfModel.mkPair (repeat x01 32) (repeat xff 32)) (mkSecrets (repeat x00 32) 3 [] 17 [] (repeat x00 32) (repeat x00 64)) 1 3000000 1733.
Example c150_case : facts_fit (facts_of shown_part) /\
  skipn 75 (print_participation_key toy_hash shown_part) =
  str "VRF public key: " ++ str "//////////////////////////////////////////8=" ++ [x0a] ++
  str "Voting pub key: " ++ str "AAAAAAAAAAAAAAAAAAAAAAAAAAAAAAAAAAAAAAAAAAA=" ++ [x0a] ++
  str "First valid:    1" ++ [x0a] ++ str "Last valid:     3000000" ++ [x0a] ++ str "Key dilution:   1733" ++ [x0a] ++
  str "First batch:    3" ++ [x0a] ++ str "First offset:   17" ++ [x0a].
Proof. split; [repeat split|vm_compute; reflexivity]. Qed.
Example c150_case_amount : show_amount 1000 = [xce; xbc] ++ str "A 1000" /\ show_round 7 = str "7".
Proof. vm_compute. auto. Qed.
Example c150_case_id : tx_fits (ex_payment 7) /\ tx_fits ex_call /\ show_tx_id (tx_id toy_hash (ex_payment 7)) <> show_tx_id (tx_id toy_hash ex_call) /\
  length (show_tx_id (tx_id toy_hash ex_call)) = 52%nat.
Proof. split; [exact (proj1 c72_example)|]. split; [exact (proj1 (proj2 c72_example))|]. vm_compute. split; [discriminate|reflexivity]. Qed.
