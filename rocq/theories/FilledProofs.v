(** Proofs for blocks that are filled with transactions. *)
From Verif Require Import Base BaseFacts BlockModel BlockSpec BlockProofs BlockProps FilledSpec RefsProofs.
Local Open Scope N_scope.

Lemma decode_filled table h ts ss : Forall2 (fun t s => encode_signed_tx table h (fst t) (snd t) = Ok s) ts ss -> decode_all table h ss = Ok ts.
Proof.
  induction 1 as [|[t ad] s ts ss E _ IH]; [reflexivity|]. cbn [decode_all fst snd] in *.
  rewrite (c47_round_trip table h t ad s E). cbn. rewrite IH. reflexivity.
Qed.
Lemma filled_lemma table b ts gs : filled table b ts -> grouping (fun s => tx_group (fst s)) ts gs ->
  decode_payset_flat table b = Ok ts /\ decode_payset_groups table b = Ok gs.
Proof.
  intros F G. apply decode_filled in F. split; [exact F|]. unfold decode_payset_groups. rewrite F. cbn.
  f_equal. exact (grouping_unique _ _ _ _ (grouping_lemma _ ts) G).
Qed.
Lemma filled_signed_lemma table b l : filled table b (wrap_signed_txs_with_ad l) ->
  exists gs, decode_payset_groups table b = Ok gs /\ map (map fst) gs = signed_txs_to_group l /\ grouping tx_group l (map (map fst) gs).
Proof.
  intros F. destruct (wrap_lemma l) as (_ & _ & G). destruct (filled_lemma table b _ _ F G) as [_ D]. eexists. split; [exact D|].
  rewrite map_map. rewrite (map_ext _ (fun x => x)) by (intros g; apply wrap_first). rewrite map_id. split; [reflexivity|]. apply grouping_lemma.
Qed.
(** When a block can be filled. *)
Lemma can_fill table h p ts : params_of table h = Some p -> Forall (fun t => genesis_fields_ok p h (stx_tx (fst t))) ts ->
  exists ss, Forall2 (fun t s => encode_signed_tx table h (fst t) (snd t) = Ok s) ts ss.
Proof.
  intros P. induction 1 as [|[t ad] ts A _ [ss IH]]; [exists []; constructor|]. destruct (c47_encodes table h t ad p P) as [E _].
  destruct (proj2 E A) as [s Es]. exists (s :: ss). constructor; assumption.
Qed.
