(** C166. *)
From Verif Require Import Base ConsensusModel BasicsModel IdsModel AccountSizeModel AccountSizeSpec TxCodecSpec TxDecodeSpec GenDecodeSpec AccountSizeProofs AccountPaidProofs.
Local Open Scope N_scope.

(** Under every protocol the documented worst case is right. *)
Theorem c166_documented :
  forall valid_key v p addr a,
  In (v, p) built_in -> (forall k, valid_key k = true -> h32 k) -> h32 addr ->
  account_in_memory valid_key a -> account_within p a -> books_kept a -> affordable p a ->
  stored_account addr a <= MAX_ENCODED_ACCOUNT_DATA_SIZE.
Proof. exact documented_lemma. Qed.
Print Assumptions c166_documented.

(** The limit on minimum balances is needed for that: under the current protocol an account that keeps to all other limits can take more. *)
Theorem c166_limit_needed :
  exists p valid_key addr a,
  In (CURRENT_CONSENSUS_VERSION, p) built_in /\ (forall k, valid_key k = true -> h32 k) /\ h32 addr /\
  account_in_memory valid_key a /\ account_within p a /\ books_kept a /\ ~ affordable p a /\
  MAX_ENCODED_ACCOUNT_DATA_SIZE < stored_account addr a.
Proof. exact (ex_intro _ current_params (ex_intro _ key32 (ex_intro _ (ff 32) (ex_intro _ big_account (conj current_in (conj key32_ok (conj eq_refl (conj big_in_memory (conj big_within (conj big_books (conj big_not_affordable big_size))))))))))). Qed.
Print Assumptions c166_limit_needed.

(** Before the current protocol it is not needed. *)
Theorem c166_older :
  forall valid_key v p addr a,
  In (v, p) built_in -> v <> CURRENT_CONSENSUS_VERSION -> v <> Future ->
  (forall k, valid_key k = true -> h32 k) -> h32 addr -> account_in_memory valid_key a -> account_within p a ->
  stored_account addr a <= MAX_ENCODED_ACCOUNT_DATA_SIZE.
Proof. exact older_protocol. Qed.
Print Assumptions c166_older.

(** Without it, and without kept books, 940000 bytes are enough under every protocol. *)
Theorem c166_any :
  forall valid_key v p addr a,
  In (v, p) built_in -> (forall k, valid_key k = true -> h32 k) -> h32 addr -> account_in_memory valid_key a -> account_within p a ->
  stored_account addr a <= 940000.
Proof. exact any_protocol. Qed.
Print Assumptions c166_any.

(** Hypotheses met: an account with three assets and an application under the current protocol, and its size. *)
Definition some_account : account_data :=
  mkAccountData NotParticipating huge huge huge (ff 32) (ff 32) huge huge huge (copies 2 big_asset) (copies 3 (mkHolding huge true)) (ff 32)
    [] (copies 1 big_app) (mkSchema 0 64) 3.
Lemma some_account_in : account_in_memory key32 some_account.
Proof.
  unfold account_in_memory, some_account.
  cbn [ad_algos ad_rewards_base ad_rewarded ad_vote_id ad_selection_id ad_vote_first ad_vote_last ad_dilution ad_asset_params ad_assets ad_auth ad_locals ad_apps ad_schema ad_pages].
  assert (A : n64 huge) by (vm_compute; reflexivity). conjs; try exact A; try reflexivity.
  - apply copies_in_memory; [reflexivity|]. unfold params_in_memory. conjs; vm_compute; reflexivity.
  - apply copies_in_memory; [reflexivity|exact A].
  - split; constructor.
  - apply copies_in_memory; [reflexivity|]. conjs; [apply big_state_in; lia|exact (conj A A)|split; vm_compute; reflexivity|vm_compute; reflexivity].
  - split; vm_compute; reflexivity.
Qed.
Lemma some_account_within : account_within current_params some_account.
Proof.
  split; [vm_compute; discriminate|]. split; [vm_compute; discriminate|]. split; [vm_compute; discriminate|]. split; [vm_compute; discriminate|].
  destruct big_within as (_ & _ & _ & _ & A & _ & B). split; [|split; [apply Forall_nil|]].
  - apply (copies_forall (asset_within current_params)). exact (Forall_inv A).
  - apply (copies_forall (app_within current_params)). exact (Forall_inv B).
Qed.
Lemma some_account_books : books_kept some_account.
Proof.
  split; [intros x Hx; cbn in *; tauto|]. split; [apply Forall_nil|]. split; [|repeat split; vm_compute; reflexivity].
  apply (copies_forall (fun x => keeps_schema (ap_global x) (ap_state x))). split; vm_compute; discriminate.
Qed.
Example c166_case :
  In (CURRENT_CONSENSUS_VERSION, current_params) built_in /\ account_in_memory key32 some_account /\ account_within current_params some_account /\
  books_kept some_account /\ affordable current_params some_account /\
  account_min_balance current_params (as_account some_account) = 4000000 /\ stored_account (ff 32) some_account = 34555.
Proof.
  split; [exact current_in|]. split; [exact some_account_in|]. split; [exact some_account_within|]. split; [exact some_account_books|].
  split; [right; vm_compute; discriminate|]. split; vm_compute; reflexivity.
Qed.
