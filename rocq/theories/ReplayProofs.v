(** Where and when a transaction can be used. *)
From Verif Require Import Base BaseFacts AddressModel TxModel TxSpec TxProofs BlockModel BlockSpec BlockProofs ConfigProofs.
Local Open Scope N_scope.

Lemma window_lemma H m spec proto t c c' : limits_fit proto -> last_valid (tx_head t) < 2 ^ 64 - 1 ->
  is_well_formed H m spec proto t = Ok tt -> alive (tx_head t) c = Ok tt -> alive (tx_head t) c' = Ok tt ->
  ctx_round c' <= ctx_round c + max_tx_life proto.
Proof.
  intros L B W A A'. apply (well_formed_lemma H m spec proto t L B) in W. destruct W as [[_ [_ [V _]]] _].
  apply alive_lemma in A, A'. destruct A as [A _], A' as [A' _]. lia.
Qed.

Lemma alive_named h c : alive h c = Ok tt -> tx_genesis_hash h <> zero32 -> tx_genesis_hash h = ctx_genesis_hash c.
Proof.
  intros A N. apply alive_lemma in A. destruct A as [_ [_ A]].
  destruct (support_genesis_hash (ctx_proto c)); [destruct A as [[_ A]|[A _]]|]; [exact A|contradiction|contradiction].
Qed.
Lemma alive_required h c : alive h c = Ok tt -> support_genesis_hash (ctx_proto c) = true -> require_genesis_hash (ctx_proto c) = true ->
  tx_genesis_hash h <> zero32.
Proof.
  intros A Hs Hr. apply alive_lemma in A. destruct A as [_ [_ A]]. rewrite Hs in A. destruct A as [[A _]|[_ A]]; [exact A|congruence].
Qed.
Lemma network_lemma h c c' : alive h c = Ok tt -> alive h c' = Ok tt -> tx_genesis_hash h <> zero32 -> ctx_genesis_hash c = ctx_genesis_hash c'.
Proof. intros A A' N. rewrite <- (alive_named h c A N). exact (alive_named h c' A' N). Qed.
Lemma identifier_lemma h c c' : alive h c = Ok tt -> alive h c' = Ok tt -> tx_genesis_id h <> [] -> ctx_genesis_id c = ctx_genesis_id c'.
Proof.
  intros A A' N. apply alive_lemma in A, A'. destruct A as [_ [A _]], A' as [_ [A' _]]. destruct A, A'; congruence.
Qed.

Section Table.
Variable table : list (version * params).

Lemma encode_named h st ad s p : encode_signed_tx table h st ad = Ok s -> params_of table h = Some p -> support_signed_tx_in_block p = true ->
  (require_genesis_hash p = true -> tx_genesis_hash (tx_head (stx_tx st)) <> zero32) /\
  (tx_genesis_hash (tx_head (stx_tx st)) <> zero32 -> tx_genesis_hash (tx_head (stx_tx st)) = genesis_hash h).
Proof.
  intros E Hp Hs. assert (G : genesis_fields_ok p h (stx_tx st)) by (apply (encode_ok_iff table h st ad p Hp); eexists; exact E).
  destruct (G Hs) as [_ G']. destruct (require_genesis_hash p).
  - destruct G'. split; auto.
  - split; [discriminate|]. intros N. destruct G'; [contradiction|assumption].
Qed.

Lemma encode_network h h' st ad ad' s s' p p' : encode_signed_tx table h st ad = Ok s -> encode_signed_tx table h' st ad' = Ok s' ->
  params_of table h = Some p -> params_of table h' = Some p' -> support_signed_tx_in_block p = true -> support_signed_tx_in_block p' = true ->
  require_genesis_hash p = true \/ tx_genesis_hash (tx_head (stx_tx st)) <> zero32 -> genesis_hash h = genesis_hash h'.
Proof.
  intros E E' P P' S S' C. destruct (encode_named h st ad s p E P S) as [R N], (encode_named h' st ad' s' p' E' P' S') as [R' N'].
  assert (X : tx_genesis_hash (tx_head (stx_tx st)) <> zero32) by tauto. rewrite <- (N X). exact (N' X).
Qed.

Lemma decode_named h s st ad p : decode_signed_tx table h s = Ok (st, ad) -> params_of table h = Some p -> support_signed_tx_in_block p = true ->
  tx_genesis_hash (tx_head (stx_tx st)) <> zero32 -> tx_genesis_hash (tx_head (stx_tx st)) = genesis_hash h.
Proof.
  unfold decode_signed_tx. intros E P S. rewrite P in E. destruct (stib_tx s) as [st0 ad0]. rewrite S in E. cbn [negb] in E.
  destruct (is_empty (id_of st0)); [|discriminate]. cbn [negb] in E.
  destruct (is_zero (hash_of st0)) eqn:Z; [|discriminate]. cbn [negb] in E.
  apply is_zero_true in Z. destruct st0 as [a b c [[] f] d]. cbn in Z.
  destruct (require_genesis_hash p), (has_genesis_hash s), (has_genesis_id s); try discriminate; injection E as <- _; cbn; congruence.
Qed.
Lemma decode_network h h' s s' st ad ad' p p' : decode_signed_tx table h s = Ok (st, ad) -> decode_signed_tx table h' s' = Ok (st, ad') ->
  params_of table h = Some p -> params_of table h' = Some p' -> support_signed_tx_in_block p = true -> support_signed_tx_in_block p' = true ->
  tx_genesis_hash (tx_head (stx_tx st)) <> zero32 -> genesis_hash h = genesis_hash h'.
Proof.
  intros E E' P P' S S' N. rewrite <- (decode_named _ _ _ _ _ E P S N). exact (decode_named _ _ _ _ _ E' P' S' N).
Qed.
End Table.
