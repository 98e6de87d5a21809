(** Registering participation keys: proofs. *)
From Verif Require Import Base BaseFacts ConsensusModel Scheme AddressModel TxModel TxSpec TxProofs BlockModel BlockSpec BlockProofs OtsModel AccountModel RegSpec.
From Verif Require VrfModel.
Local Open Scope N_scope.

Section Reg.
Variables (p : participation) (amount from upto : N) (lock hash : bytes).
Notation t := (naming hash (generate_registration_transaction p amount from upto lock)).

Lemma reg_well_formed H m spec proto : registers p -> limits_fit proto -> upto < 2 ^ 64 - 1 ->
  is_well_formed H m spec proto t = Ok tt <-> acceptable proto spec p amount from upto lock.
Proof.
  intros (R1 & R2 & R3 & R4 & R5) L U. rewrite well_formed_lemma by (exact L || exact U).
  unfold well_formed, sound_body, fields_ok, keyreg_ok, goes_online, goes_offline, sets_keys, fee_ok, validity_ok, features_ok, acceptable, set, unset, naming, generate_registration_transaction, len.
  cbn [tx_head fields sender fee first_valid last_valid note tx_genesis_id tx_genesis_hash group lease rekey_to vote_pk selection_pk vote_first vote_last kr_key_dilution nonparticipation length N.of_nat].
  split.
  - intros (([C _] & F & [W _]) & P & Z & (Le & _)). split; [|split; [exact W|split; [|split; [exact P|split; [exact Z|exact Le]]]]].
    + destruct F as [F|[[c F]|F]]; [left; exact F|discriminate F|right; exact F].
    + intros E. destruct (C E) as [(A & _)|(_ & A)]; [contradiction|exact A].
  - intros (F & W & C & P & Z & Le). split; [split; [split|split; [|split; [exact W|apply N.le_0_l]]]|].
    + intros E. right. split; [|exact (C E)]. split; [exact R4|]. split; [exact R5|]. split; [exact R3|]. split; [exact R1|exact R2].
    + discriminate.
    + destruct F as [F|F]; [left; exact F|right; right; exact F].
    + split; [exact P|]. split; [exact Z|]. split; [exact Le|]. split; intros A; exfalso; apply A; reflexivity.
Qed.
Lemma reg_alive c : names_genesis (ctx_proto c) (ctx_genesis_hash c) hash -> alive (tx_head t) c = Ok tt <-> from <= ctx_round c <= upto.
Proof.
  intros N. rewrite alive_lemma. unfold lives, naming, generate_registration_transaction, set, unset. cbn [tx_head first_valid last_valid tx_genesis_id tx_genesis_hash].
  split; [intros [A _]; exact A|]. intros A. split; [exact A|]. split; [left; reflexivity|].
  destruct N as [(-> & B & ->)|(-> & B)]; [left; split; [exact B|reflexivity]|]. destruct (support_genesis_hash (ctx_proto c)); [right; split; [reflexivity|exact B]|reflexivity].
Qed.
Lemma reg_stored table h sc sk ad proto : params_of table h = Some proto -> names_genesis proto (genesis_hash h) hash ->
  exists s, encode_signed_tx table h (TxModel.sign sc sk t) ad = Ok s /\ decode_signed_tx table h s = Ok (TxModel.sign sc sk t, ad).
Proof.
  intros P N. assert (G : genesis_fields_ok proto h (stx_tx (TxModel.sign sc sk t))).
  { intros _. unfold TxModel.sign, naming, generate_registration_transaction. cbn [stx_tx tx_head tx_genesis_id tx_genesis_hash]. split; [left; reflexivity|].
    destruct N as [(-> & B & _)|(-> & ->)]; [|left; reflexivity]. destruct (require_genesis_hash proto); [split; [exact B|reflexivity]|right; reflexivity]. }
  apply (encode_ok_iff table h (TxModel.sign sc sk t) ad proto P) in G. destruct G as [s E]. exists s. split; [exact E|]. exact (round_trip table h _ ad s E).
Qed.
End Reg.
Lemma reg_dead p amount from upto lock c : support_genesis_hash (ctx_proto c) = true -> require_genesis_hash (ctx_proto c) = true ->
  alive (tx_head (generate_registration_transaction p amount from upto lock)) c <> Ok tt.
Proof.
  intros S R E. apply alive_lemma in E. destruct E as (_ & _ & E). rewrite S in E. destruct E as [[E _]|[_ E]]; [apply E; reflexivity|congruence].
Qed.
Lemma reg_not_stored table h sc sk ad proto p amount from upto lock : params_of table h = Some proto -> support_signed_tx_in_block proto = true -> require_genesis_hash proto = true ->
  encode_signed_tx table h (TxModel.sign sc sk (generate_registration_transaction p amount from upto lock)) ad = Err MissingGenesisHash.
Proof. intros P S R. unfold encode_signed_tx. rewrite P, S, R. reflexivity. Qed.
