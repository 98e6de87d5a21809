(** C168. *)
From Verif Require Import Base ConsensusModel BasicsModel IdsModel AccountSizeModel AccountSizeSpec TxCodecSpec TxDecodeSpec GenDecodeSpec AccountSizeProofs AccountPaidProofs AccountSizeProps.
Local Open Scope N_scope.

(** Of the bytes that an account takes, never more than 43 come to 1000 microAlgos of its minimum balance. *)
Theorem c168_paid :
  forall valid_key v p addr a,
  In (v, p) built_in -> (forall k, valid_key k = true -> h32 k) -> h32 addr ->
  account_in_memory valid_key a -> account_within p a -> books_kept a ->
  stored_account addr a * 1000 <= 43 * account_min_balance p (as_account a).
Proof. exact paid_rate. Qed.
Print Assumptions c168_paid.

(** So an account that may be held cannot take more than its balance pays for. *)
Theorem c168_balance :
  forall valid_key v p addr a,
  In (v, p) built_in -> (forall k, valid_key k = true -> h32 k) -> h32 addr ->
  account_in_memory valid_key a -> account_within p a -> books_kept a ->
  account_min_balance p (as_account a) <= ad_algos a ->
  stored_account addr a <= 43 * ad_algos a / 1000.
Proof. exact balance_pays. Qed.
Print Assumptions c168_balance.

(** Hypotheses met: the account of C166 pays 4 Algos for 34555 bytes, where 172000 could be had for them. *)
Example c168_case :
  In (CURRENT_CONSENSUS_VERSION, current_params) built_in /\ account_in_memory key32 some_account /\ account_within current_params some_account /\
  books_kept some_account /\ account_min_balance current_params (as_account some_account) <= ad_algos some_account /\
  43 * account_min_balance current_params (as_account some_account) / 1000 = 172000.
Proof.
  destruct c166_case as (A & B & C & D & _). split; [exact A|]. split; [exact B|]. split; [exact C|]. split; [exact D|].
  split; vm_compute; [discriminate|reflexivity].
Qed.
