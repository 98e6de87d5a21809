(** C41-C46, C72 and C73. *)
From Coq Require Import Permutation.
From Verif Require Import Base BaseFacts Toy AddressModel TxModel TxSpec TxProofs TxCodecSpec TxCodecProofs BasicsProps.
From Verif Require ConfigProofs.
Local Open Scope N_scope.

(** ** Examples *)
Definition alice : bytes := repeat x0a 32.
Definition bob : bytes := repeat x0b 32.
Definition sink : bytes := repeat x0c 32.
Definition pool : bytes := repeat x0d 32.
Definition ex_spec : special_addresses := mkSpecial sink pool.
Definition genesis_x : bytes := repeat x07 32.
Definition ex_header (fee : N) : tx_header :=
  mkTxHeader alice fee 100 200 (str "hi") (str "net-v1") genesis_x zero32 zero32 zero32.
Definition ex_payment (fee : N) : transaction := mkTx (ex_header fee) (Payment (mkPayment bob 5000 None)).
Definition v24 : params := match lookup V24 built_in with Some p => p | None => v7_base end.
Definition ex_signed (fee : N) : signed_tx := mkSigned (repeat x05 64) None None (ex_payment fee) zero32.
Definition ex_cert_tx : signed_tx :=
  mkSigned null_sig None None (mkTx (mkTxHeader alice 0 1 2 [] [] zero32 zero32 zero32 zero32) (CompactCert (mkCert 3))) zero32.
Definition ex_keyreg (lv : N) : transaction :=
  mkTx (mkTxHeader alice 2000 (lv - 10) lv [] [] genesis_x zero32 zero32 zero32) (Keyreg (mkKeyreg bob sink 5 50 100 false)).
Definition ex_call : transaction :=
  mkTx (ex_header 2000) (AppCall (mkAppCall 0 OptInOC [str "a"; str "bc"] [bob] [4] [5] (mkSchema 1 2) (mkSchema 3 4) (str "prog") (str "clear") 1)).

(** ** C41 *)
Theorem c41_alive h c : alive h c = Ok tt <-> lives h c.
Proof. exact (alive_lemma h c). Qed.
Print Assumptions c41_alive.
Theorem c41_never_panics h c : alive h c <> Panic.
Proof. exact (alive_never_panics h c). Qed.
Print Assumptions c41_never_panics.
Example c41_example :
  alive (ex_header 9) (mkContext 150 v30 (str "net-v1") genesis_x) = Ok tt /\
  alive (ex_header 9) (mkContext 201 v30 (str "net-v1") genesis_x) = Err Dead /\
  alive (ex_header 9) (mkContext 150 v30 (str "net-v2") genesis_x) = Err GenesisIdMismatch /\
  alive (ex_header 9) (mkContext 150 v30 (str "net-v1") alice) = Err GenesisHashMismatch.
Proof. split; [|split; [|split]]; vm_compute; reflexivity. Qed.

(** ** C42 *)
Section Hash.
Variable H : bytes -> bytes.
Notation reserved := (COMPACT_CERT_SENDER H).

(** Accepted are exactly the well-formed transactions. *)
Theorem c42_accepts m spec proto t : limits_fit proto -> last_valid (tx_head t) < 2 ^ 64 - 1 ->
  is_well_formed H m spec proto t = Ok tt <-> well_formed reserved spec proto t.
Proof. exact (well_formed_lemma H m spec proto t). Qed.
(** The only panic is the one for a transaction sent by the rewards pool. *)
Theorem c42_panics m spec proto t : limits_fit proto -> last_valid (tx_head t) < 2 ^ 64 - 1 ->
  is_well_formed H m spec proto t = Panic <-> sound_body reserved spec proto t /\ sender (tx_head t) = rewards_pool spec.
Proof. exact (well_formed_panic H m spec proto t). Qed.
(** At the last round number there is one more, with overflow checks. *)
Theorem c42_panics_at_the_end spec proto t : limits_fit proto -> last_valid (tx_head t) < 2 ^ 64 -> keyreg_at_the_end proto t ->
  is_well_formed H Debug spec proto t = Panic.
Proof. exact (keyreg_end_lemma H spec proto t). Qed.
End Hash.
Print Assumptions c42_accepts.
Print Assumptions c42_panics.
Print Assumptions c42_panics_at_the_end.
Lemma limits_checked : forallb (fun e => let p := snd e in
  ((1 + max_extra_app_program_pages p) * max_app_program_len p <? 2 ^ 32) &&
  ((1 + max_extra_app_program_pages p) * max_app_total_program_len p <? 2 ^ 32) &&
  (1 + max_extra_app_program_pages p <? 2 ^ 32) && (max_app_total_arg_len p <? 2 ^ 32) &&
  (max_local_schema_entries p <? 2 ^ 64 - 1) && (max_global_schema_entries p <? 2 ^ 64 - 1)) built_in = true.
Proof. vm_compute. reflexivity. Qed.
(** The limits of every built-in protocol fit. *)
Theorem c42_limits v p : lookup v built_in = Some p -> limits_fit p.
Proof.
  intros E. apply ConfigProofs.lookup_In in E. pose proof limits_checked as L. rewrite forallb_forall in L. specialize (L _ E). cbv zeta beta in L. cbn [snd] in L.
  rewrite !andb_true_iff, !N.ltb_lt in L. unfold limits_fit. tauto.
Qed.
Print Assumptions c42_limits.
Example c42_example :
  is_well_formed toy_hash Debug ex_spec v24 (ex_payment 1001) = Ok tt /\
  is_well_formed toy_hash Debug ex_spec v30 ex_call = Ok tt /\
  is_well_formed toy_hash Debug ex_spec v24 ex_call = Err TooManyExtraProgramPages /\
  is_well_formed toy_hash Debug ex_spec v30 (ex_keyreg 1000) = Ok tt /\
  is_well_formed toy_hash Debug ex_spec v30 (ex_keyreg (2 ^ 64 - 1)) = Panic /\
  is_well_formed toy_hash Debug (mkSpecial sink alice) v24 (ex_payment 1001) = Panic /\
  is_well_formed toy_hash Debug (mkSpecial alice pool) v24 (ex_payment 1001) = Err CannotSpendFromFeeSink.
Proof. split; [|split; [|split; [|split; [|split; [|split]]]]]; vm_compute; reflexivity. Qed.

(** ** C43 *)
Theorem c43_minimum_fee_refuted : exists t, fee (tx_head t) = min_tx_fee v24 /\ enable_fee_pooling v24 = false /\
  forall m, is_well_formed toy_hash m ex_spec v24 t = Err FeeLessThanMin.
Proof.
  exists (ex_payment (min_tx_fee v24)). split; [reflexivity|]. split; [vm_compute; reflexivity|].
  intros [|]; vm_compute; reflexivity.
Qed.
Print Assumptions c43_minimum_fee_refuted.
(** A fee up to the minimum is rejected as such in every transaction that is sound in its fields. *)
Theorem c43_minimum_fee_rejected H m spec proto t : limits_fit proto -> last_valid (tx_head t) < 2 ^ 64 - 1 ->
  enable_fee_pooling proto = false -> (forall c, fields t <> CompactCert c) -> fee (tx_head t) <= min_tx_fee proto ->
  fields_ok (COMPACT_CERT_SENDER H) spec proto t -> is_well_formed H m spec proto t = Err FeeLessThanMin.
Proof. exact (minimum_fee_rejected H m spec proto t). Qed.
Print Assumptions c43_minimum_fee_rejected.
(** A larger fee is never a reason; a smaller one never passes. *)
Theorem c43_larger_fee_partial H m spec proto t : min_tx_fee proto < fee (tx_head t) -> is_well_formed H m spec proto t <> Err FeeLessThanMin.
Proof. exact (enough_fee H m spec proto t). Qed.
Print Assumptions c43_larger_fee_partial.
Theorem c43_smaller_fee_partial H m spec proto t :
  enable_fee_pooling proto = false -> (forall c, fields t <> CompactCert c) -> fee (tx_head t) < min_tx_fee proto ->
  is_well_formed H m spec proto t <> Ok tt.
Proof. exact (too_small_fee H m spec proto t). Qed.
Print Assumptions c43_smaller_fee_partial.
Example c43_example : is_well_formed toy_hash Debug ex_spec v24 (ex_payment 999) = Err FeeLessThanMin /\
  is_well_formed toy_hash Debug ex_spec v24 (ex_payment 1001) = Ok tt /\
  is_well_formed toy_hash Debug ex_spec v30 (ex_payment 0) = Ok tt /\ enable_fee_pooling v30 = true.
Proof. split; [|split; [|split]]; vm_compute; reflexivity. Qed.

(** ** C44 *)
Theorem c44_sign (sc : scheme) sk t : scheme_correct sc -> public sc sk <> zero32 ->
  let s := sign sc sk t in
  authorizer s = public sc sk /\ stx_tx s = t /\ (stx_auth s = zero32 <-> public sc sk = sender (tx_head t)) /\
  check sc (public sc sk) (id_bytes TRANSACTION ++ encode (tx_value t)) (stx_sig s) = true /\ stx_msig s = None /\ stx_lsig s = None.
Proof. exact (sign_lemma toy_hash sc sk t). Qed.
Print Assumptions c44_sign.
Definition toy_scheme : scheme := {| public := toy_hash; sign_with := fun sk m => toy_tag (toy_hash sk) m; check := fun pk m s => bytes_eqb s (toy_tag pk m) |}.
Example c44_example : scheme_correct toy_scheme /\ public toy_scheme (str "k") <> zero32 /\
  stx_auth (sign toy_scheme (str "k") (ex_payment 1)) = public toy_scheme (str "k").
Proof. split; [intros sk m; apply bytes_eqb_refl|]. split; [vm_compute; discriminate|vm_compute; reflexivity]. Qed.

(** ** C45 *)
Theorem c45_credit_refuted : exists g, fees g < 2 ^ 64 /\ credit g 1000 = None /\ fee_credit g 1000 = Some 0.
Proof. exists [ex_signed 0; ex_signed 0]. split; [vm_compute; reflexivity|]. split; vm_compute; reflexivity. Qed.
Print Assumptions c45_credit_refuted.
Theorem c45_certificate_refuted : exists g, credit g 1000 = Some 0 /\ fee_credit g 1000 = None.
Proof. exists [ex_cert_tx]. split; vm_compute; reflexivity. Qed.
Print Assumptions c45_certificate_refuted.
(** What holds: certificates are charged and everything else is free. *)
Theorem c45_counts_certificates g min_fee : fees g < 2 ^ 64 ->
  fee_credit g min_fee = let needed := min_fee * len (filter (fun s => negb (fee_bearing s)) g) in
                         if fees g <? needed then None else Some (fees g - needed).
Proof.
  intros Hf. rewrite (fee_credit_lemma g min_fee Hf).
  replace (filter is_cert g) with (filter (fun s => negb (fee_bearing s)) g); [reflexivity|].
  apply filter_ext. intros s. unfold fee_bearing, is_cert. destruct (fields (stx_tx s)); reflexivity.
Qed.
Print Assumptions c45_counts_certificates.
(** Fees that do not fit 64 bits cover whatever does, and the rest of them is lost. *)
Theorem c45_saturates g min_fee : 2 ^ 64 <= fees g ->
  fee_credit g min_fee = let needed := min_fee * len (filter (fun s => negb (fee_bearing s)) g) in
                         if needed <? 2 ^ 64 then Some (2 ^ 64 - 1 - needed) else None.
Proof.
  intros Hf. unfold fee_credit. change (0, 0) with (0, N.min 0 max64). rewrite fee_credit_fold, !N.add_0_l. cbv zeta.
  replace (filter is_cert g) with (filter (fun s => negb (fee_bearing s)) g)
    by (apply filter_ext; intros s; unfold fee_bearing, is_cert; destruct (fields (stx_tx s)); reflexivity).
  change (2 ^ 64) with two64 in *. rewrite N.min_r by (unfold max64, two64 in *; lia). set (needed := min_fee * _).
  destruct (N.ltb_spec needed two64); [|reflexivity]. destruct (N.ltb_spec max64 needed); [unfold max64, two64 in *; lia|reflexivity].
Qed.
Print Assumptions c45_saturates.
Example c45_saturates_example : 2 ^ 64 <= fees [ex_signed (2 ^ 64 - 1); ex_signed 1; ex_cert_tx] /\
  fee_credit [ex_signed (2 ^ 64 - 1); ex_signed 1; ex_cert_tx] 1000 = Some (2 ^ 64 - 1001).
Proof. split; [vm_compute; discriminate|vm_compute; reflexivity]. Qed.
Theorem c45_credit_partial g min_fee : fees g < 2 ^ 64 ->
  length (filter (fun s => negb (fee_bearing s)) g) = length (filter fee_bearing g) -> fee_credit g min_fee = credit g min_fee.
Proof.
  intros Hf E. apply fee_credit_partial; [exact Hf|]. rewrite <- E. f_equal. apply filter_ext. intros s. unfold fee_bearing, is_cert.
  destruct (fields (stx_tx s)); reflexivity.
Qed.
Print Assumptions c45_credit_partial.
Example c45_example : fee_credit [ex_signed 1500; ex_cert_tx] 1000 = Some 500 /\ credit [ex_signed 1500; ex_cert_tx] 1000 = Some 500.
Proof. split; vm_compute; reflexivity. Qed.

(** ** C46 *)
Theorem c46_relevant t spec a : In a (relevant_addrs t spec) <-> touches t a \/ a = fee_sink spec.
Proof. exact (relevant_lemma t spec a). Qed.
Print Assumptions c46_relevant.
Theorem c46_match t spec a : match_address t a spec = true <-> touches t a \/ a = fee_sink spec.
Proof. exact (match_address_lemma t spec a). Qed.
Print Assumptions c46_match.
Example c46_example :
  relevant_addrs (mkTx (ex_header 1) (AssetTransfer (mkAssetTransfer 1 2 zero32 bob pool))) ex_spec = [alice; sink; bob; pool].
Proof. vm_compute. reflexivity. Qed.

(** ** C72 *)
Theorem c72_transactions t t' : tx_fits t -> tx_fits t' -> encode (tx_value t) = encode (tx_value t') -> t = t'.
Proof. exact (tx_encode_inj t t'). Qed.
Print Assumptions c72_transactions.
(** Equal transaction identifiers: the same transaction or a collision. *)
Theorem c72_identifiers H t t' : tx_fits t -> tx_fits t' -> tx_id H t = tx_id H t' ->
  t = t' \/ (tx_hash_rep t <> tx_hash_rep t' /\ H (tx_hash_rep t) = H (tx_hash_rep t')).
Proof.
  intros F F' E. destruct (bytes_eq_dec (tx_hash_rep t) (tx_hash_rep t')) as [Er|Er]; [left|right; auto].
  exact (tx_hash_rep_inj t t' F F' Er).
Qed.
Print Assumptions c72_identifiers.
(** Two different in-block transactions with one encoding. *)
Theorem c72_in_block_refuted : exists s s', s <> s' /\ stib_fits s /\ stib_fits s' /\ encode (stib_value s) = encode (stib_value s').
Proof.
  exists (mkStib (ex_signed 1, no_apply_data) true false), (mkStib (ex_signed 1, no_apply_data) false true).
  split; [discriminate|].
  assert (S : stad_shape (ex_signed 1, no_apply_data)) by (split; [reflexivity|exact I]).
  assert (W : wf (stib_value (mkStib (ex_signed 1, no_apply_data) true false))).
  { apply wf_VArr; [vm_compute; reflexivity|]. cbn [stib_value stib_tx has_genesis_id has_genesis_hash negb element app].
    constructor; [|constructor; [exact I|constructor]].
    apply wf_VArr; [vm_compute; reflexivity|]. cbn [fst snd]. constructor; [|constructor].
    apply wf_VArr; [vm_compute; reflexivity|]. cbn [stx_sig stx_msig stx_lsig stx_tx stx_auth ex_signed].
    change (sig_is_empty (repeat x05 64)) with false. change (is_zero zero32) with true. cbn [element app].
    constructor; [apply MsgpackProofs.wf_VBytes; vm_compute; reflexivity|constructor; [|constructor]].
    apply wf_tx_value. split.
    - unfold header_fits, short, n64, len. repeat split; vm_compute; reflexivity.
    - cbn. unfold short, n64, len. split; [vm_compute; reflexivity|split; [vm_compute; reflexivity|exact I]]. }
  split; [exact (conj S W)|]. split; [exact (conj S W)|]. reflexivity.
Qed.
Print Assumptions c72_in_block_refuted.
(** Nothing but the two flags can be exchanged. *)
Theorem c72_in_block_partial s s' : stib_fits s -> stib_fits s' -> encode (stib_value s) = encode (stib_value s') ->
  s = s' \/ (stib_tx s = stib_tx s' /\ has_genesis_id s <> has_genesis_hash s /\
             has_genesis_id s' = has_genesis_hash s /\ has_genesis_hash s' = has_genesis_id s).
Proof. exact (stib_encode_inj s s'). Qed.
Print Assumptions c72_in_block_partial.
Example c72_example : tx_fits (ex_payment 7) /\ tx_fits ex_call /\ encode (tx_value (ex_payment 7)) <> encode (tx_value ex_call).
Proof.
  split; [|split].
  - split; [unfold header_fits, short, n64, len; repeat split; vm_compute; reflexivity|]. cbn. unfold short, n64, len. split; [vm_compute; reflexivity|split; [vm_compute; reflexivity|exact I]].
  - split; [unfold header_fits, short, n64, len; repeat split; vm_compute; reflexivity|]. cbn. unfold short, n64, len, schema_fits, n64.
    repeat match goal with |- _ /\ _ => split | |- Forall _ (_ :: _) => apply Forall_cons | |- Forall _ [] => apply Forall_nil | |- N.lt _ _ => vm_compute; reflexivity end.
  - vm_compute. discriminate.
Qed.

(** ** C73 *)
Definition two_deltas : state_delta := [(str "k", mkDelta SetUint [] 1); (str "l", mkDelta SetUint [] 2)].
Definition stib_with (g : state_delta) : signed_tx_in_block :=
  mkStib (ex_signed 1, mkAD 0 0 0 0 0 (mkED g [] [] []) 0 0) true true.
Theorem c73_deterministic_refuted : exists s s', same_stib s s' /\ encode (stib_value s) <> encode (stib_value s') /\
  exists H : bytes -> bytes, hash32 H /\ H (stib_hash_rep s) <> H (stib_hash_rep s').
Proof.
  exists (stib_with two_deltas), (stib_with (rev two_deltas)). split.
  - split; [reflexivity|]. split; [|split; reflexivity]. constructor. constructor; [apply Permutation_rev|exists []; split; constructor|constructor].
  - split; [vm_compute; discriminate|]. exists toy_hash. split; [exact toy_hash32|]. vm_compute. discriminate.
Qed.
Print Assumptions c73_deterministic_refuted.
(** It is deterministic while no map has two entries. *)
Theorem c73_deterministic_partial s s' : same_stib s s' -> small_maps (snd (stib_tx s)) ->
  encode (stib_value s) = encode (stib_value s').
Proof. intros S M. rewrite (same_stib_small s s' S M). reflexivity. Qed.
Print Assumptions c73_deterministic_partial.
(** For equal transactions the encodings are the same exactly if their maps are in the same order. *)
Theorem c73_only_order_partial s s' : stib_fits s -> stib_fits s' -> same_stib s s' ->
  encode (stib_value s) = encode (stib_value s') <-> s = s'.
Proof. exact (same_stib_order s s'). Qed.
Print Assumptions c73_only_order_partial.
Example c73_example : small_maps (snd (stib_tx (stib_with [(str "k", mkDelta SetUint [] 1)]))) /\
  same_stib (stib_with [(str "k", mkDelta SetUint [] 1)]) (stib_with [(str "k", mkDelta SetUint [] 1)]).
Proof.
  split; [cbn; repeat split; auto|]. split; [reflexivity|]. split; [|split; reflexivity].
  constructor. constructor; [apply Permutation_refl|exists []; split; constructor|constructor].
Qed.
