(** C106-C110. *)
From Verif Require Import Base BaseFacts Digits Toy AddressModel ConsensusModel ViewsModel ViewsSpec ViewsProofs CommitteeModel CommitteeSpec TxProps.
From Verif Require CommitteeProps ToyCurve.
Local Open Scope N_scope.

(** C106.  The short form of a hash is its first eight bytes, as a little-endian number of 64 bits. *)
Theorem c106_short_form h : length h = 32%nat -> trim_to_u64 h < 2 ^ 64 /\ le_bytes 8 (trim_to_u64 h) = firstn 8 h.
Proof. exact (trim_lemma h). Qed.
Print Assumptions c106_short_form.
Example c106_example : trim_to_u64 ([x3d; x37; xfe; x58; x43; x5e; x0d; x87] ++ repeat x11 24) = 0x870d5e4358fe373d.
Proof. vm_compute. reflexivity. Qed.

(** C107, full statement: the estimate is the size of the transaction with a plain signature.  It is
    false: it is always 200.  No part of the claim holds for a class of transactions; every transaction
    with a longer note is underestimated. *)
Theorem c107_estimate_refuted : exists sig t, length sig = 64%nat /\ estimate_encoded_size t <> signed_size sig t /\ note (tx_head t) = [].
Proof.
  exists (repeat x05 64), (mkTx (mkTxHeader alice 1000 100 200 [] [] zero32 zero32 zero32 zero32) (Payment (mkPayment bob 5000 None))).
  split; [reflexivity|]. split; [vm_compute; discriminate|reflexivity].
Qed.
Print Assumptions c107_estimate_refuted.
Theorem c107_underestimates sig t : 200 < N.of_nat (length (note (tx_head t))) -> estimate_encoded_size t < signed_size sig t.
Proof. exact (underestimate sig t). Qed.
Print Assumptions c107_underestimates.
Example c107_example : exists t, N.of_nat (length (note (tx_head t))) = 1024 /\ signed_size (repeat x05 64) t = 1209.
Proof.
  exists (mkTx (mkTxHeader alice 1000 100 200 (repeat x07 1024) [] zero32 zero32 zero32 zero32) (Payment (mkPayment bob 5000 None))).
  split; vm_compute; reflexivity.
Qed.

(** C108.  Who receives is found when looking for transactions of that account; only transactions with a
    receiver have an amount. *)
Theorem c108_receiver_is_found t a spec : get_receiver_address t = Some a -> match_address t a spec = true.
Proof. exact (receiver_relevant t a spec). Qed.
Print Assumptions c108_receiver_is_found.
Theorem c108_amount_has_receiver t : tx_amount t <> 0 -> exists a, get_receiver_address t = Some a.
Proof. exact (amount_has_receiver t). Qed.
Print Assumptions c108_amount_has_receiver.
Example c108_example : get_receiver_address (ex_payment 7) = Some bob /\ match_address (ex_payment 7) pool ex_spec = false /\ tx_amount (ex_payment 7) = 5000.
Proof. repeat split; vm_compute; reflexivity. Qed.

(** C109.  Protocol versions are shown by different names. *)
Theorem c109_names_differ v w : version_text v = version_text w -> v = w.
Proof. exact (version_text_inj v w). Qed.
Print Assumptions c109_names_differ.
Example c109_example : version_text V7 = str "v7" /\ version_text Future = str "future". Proof. split; reflexivity. Qed.

(** C110, full statement: of two credentials that compare as equal neither is below the other.  It is
    false: the weight is not compared but ranks. *)
Definition cred_of (w : N) : credential := mkCredential w (repeat x07 32) false None [].
Theorem c110_equal_ties_refuted : exists c d, complete c /\ complete d /\ same_kind c d /\ cred_eqb c d = true /\ snd (lt toy_hash c d) = Some true.
Proof.
  exists (cred_of 1), (cred_of 2). split; [intros E; discriminate|]. split; [intros E; discriminate|].
  split; [split; [reflexivity|intros E; discriminate]|]. split; vm_compute; reflexivity.
Qed.
Print Assumptions c110_equal_ties_refuted.
(** What holds: for equal weights. *)
Theorem c110_equal_ties_partial H c d : cred_eqb c d = true -> weight c = weight d -> same_kind c d -> complete c -> complete d ->
  snd (lt H c d) <> Some true /\ snd (lt H d c) <> Some true.
Proof. exact (equal_ties_lt H c d). Qed.
Print Assumptions c110_equal_ties_partial.
Example c110_example :
  let c := mkCredential 4 (repeat x07 32) true (Some (mkHashable [x01] alice 0)) [] in
  let d := mkCredential 4 (repeat x07 32) true (Some (mkHashable [x02] alice 3)) [] in
  c <> d /\ cred_eqb c d = true /\ same_kind c d /\ complete c /\ complete d /\ snd (lt toy_hash c d) = Some false.
Proof.
  cbv zeta. split; [discriminate|]. split; [vm_compute; reflexivity|]. split; [split; [reflexivity|intros _; do 2 eexists; repeat split]|].
  split; [discriminate|]. split; [discriminate|]. vm_compute. reflexivity.
Qed.

(** C111.  Only online accounts sit on committees, with at most one vote per unit of their balance. *)
Theorem c111_only_online cdf C H proto proof mem c : verify cdf C H proto proof mem = Ok c ->
  BasicsModel.acc_status (mem_data mem) = BasicsModel.Online /\ 0 < weight c <= BasicsModel.micro_algos (mem_data mem).
Proof. exact (only_online cdf C H proto proof mem c). Qed.
Print Assumptions c111_only_online.
Example c111_example : CommitteeProps.weight_of (verify CommitteeProps.ex_cdf ToyCurve.toy_curve toy_hash v7_base CommitteeProps.ex_own (CommitteeProps.ex_mem 10)) = Some 3.
Proof. vm_compute. reflexivity. Qed.

(** C112.  An account's key dilution is its own if it has one and otherwise that of the protocol, and under
    every built-in protocol each round has a one-time key. *)
Theorem c112_dilution proto a : (BasicsModel.vote_key_dilution a <> 0 -> BasicsModel.key_dilution proto a = BasicsModel.vote_key_dilution a) /\
  (BasicsModel.vote_key_dilution a = 0 -> BasicsModel.key_dilution proto a = default_key_dilution proto).
Proof. exact (dilution_lemma proto a). Qed.
Print Assumptions c112_dilution.
Theorem c112_every_round v proto a round : lookup v built_in = Some proto ->
  exists batch offset, BasicsModel.ots_id round (BasicsModel.key_dilution proto a) = Some (batch, offset) /\ offset < BasicsModel.key_dilution proto a.
Proof. exact (every_round_has_a_key v proto a round). Qed.
Print Assumptions c112_every_round.
Example c112_example : option_map default_key_dilution (lookup V30 built_in) = Some 10000 /\ BasicsModel.ots_id 30007 10000 = Some (3, 7).
Proof. split; vm_compute; reflexivity. Qed.
