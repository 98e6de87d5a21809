(** Proofs for blocks that are filled, written and read back. *)
From Verif Require Import Base BaseFacts AddressModel BlockModel BlockSpec BlockProofs FilledSpec FilledProofs StibDecodeModel StibDecodeSpec StibDecodeProofs TxCodecSpec TxDecodeSpec GenDecodeSpec.
Local Open Scope N_scope.

Section Read.
Variables (valid_key : bytes -> bool) (bins : bool) (valid_sig : bytes -> bool).
Lemma without_id s : signed_readable valid_key bins valid_sig s -> signed_readable valid_key bins valid_sig (with_genesis_id s []).
Proof.
  intros (A & ((F1 & F2) & (U & G & Gr & Le) & K) & Au & N & B). split; [exact A|]. split; [|split; [exact Au|split; [exact N|exact B]]].
  split; [split; [|exact F2]|split; [|exact K]].
  - unfold header_fits in *. cbn. repeat split; try apply F1. 
  - cbn. repeat split; try assumption.
Qed.
Lemma without_hash s : signed_readable valid_key bins valid_sig s -> signed_readable valid_key bins valid_sig (with_genesis_hash s zero32).
Proof.
  intros (A & ((F1 & F2) & (U & G & Gr & Le) & K) & Au & N & B). split; [exact A|]. split; [|split; [exact Au|split; [exact N|exact B]]].
  split; [split; [|exact F2]|split; [|exact K]].
  - unfold header_fits in *. cbn. repeat split; try apply F1.
  - cbn. repeat split; try assumption.
Qed.
Lemma readable_other s s' ad : readable valid_key bins valid_sig (s, ad) -> signed_readable valid_key bins valid_sig s' -> readable valid_key bins valid_sig (s', ad).
Proof. intros R S'. inversion R; subst. constructor; assumption. Qed.
Lemma readable_signed s ad : readable valid_key bins valid_sig (s, ad) -> signed_readable valid_key bins valid_sig s.
Proof. intros R. inversion R; subst. assumption. Qed.

Variable table : list (version * params).
Lemma encoded_readable h st ad s : readable valid_key bins valid_sig (st, ad) -> encode_signed_tx table h st ad = Ok s ->
  readable valid_key bins valid_sig (stib_tx s) /\
  (has_genesis_hash s = true -> has_genesis_id s = true \/
     exists p, params_of table h = Some p /\ support_signed_tx_in_block p = true /\ require_genesis_hash p = false /\ id_of st = [] /\ hash_of st <> zero32).
Proof.
  intros R E. pose proof (readable_signed _ _ R) as S0. unfold encode_signed_tx in E. destruct (params_of table h) as [p|]; [|discriminate].
  destruct (support_signed_tx_in_block p) eqn:Sp; cbn [negb] in E; [|injection E as <-; split; [exact R|discriminate]].
  destruct (is_empty (id_of st)) eqn:Ei; cbn [negb] in E.
  - cbn [bind] in E. destruct (is_zero (hash_of st)) eqn:Ez; cbn [negb] in E.
    + destruct (require_genesis_hash p); [discriminate|]. injection E as <-. split; [exact R|discriminate].
    + destruct (bytes_eqb (hash_of st) (genesis_hash h)); [|discriminate]. injection E as <-. cbn [stib_tx has_genesis_hash has_genesis_id]. split.
      * apply (readable_other st); [exact R|]. apply without_hash. exact S0.
      * intros Hr. right. exists p. destruct (require_genesis_hash p); [discriminate|]. repeat split; try assumption; try reflexivity.
        -- destruct (id_of st); [reflexivity|discriminate].
        -- intros Z. rewrite Z in Ez. vm_compute in Ez. discriminate.
  - destruct (bytes_eqb (id_of st) (genesis_id h)); [|discriminate]. cbn [bind] in E.
    destruct (is_zero (hash_of (with_genesis_id st []))); cbn [negb] in E.
    + destruct (require_genesis_hash p); [discriminate|]. injection E as <-. cbn [stib_tx has_genesis_hash has_genesis_id]. split; [|discriminate].
      apply (readable_other st); [exact R|]. apply without_id. exact S0.
    + destruct (bytes_eqb _ (genesis_hash h)); [|discriminate]. injection E as <-. cbn [stib_tx has_genesis_hash has_genesis_id]. split; [|intros _; left; reflexivity].
      apply (readable_other st); [exact R|]. apply without_hash, without_id. exact S0.
Qed.
Lemma written_lemma b ts rest : filled table b ts -> Forall (readable valid_key bins valid_sig) ts -> wf (VArr (map stib_value (payset b))) ->
  (forall p, params_of table (head b) = Some p -> support_signed_tx_in_block p = true -> require_genesis_hash p = true) \/
  Forall (fun t => hash_of (fst t) <> zero32 -> id_of (fst t) <> []) ts ->
  decode_payset valid_key bins valid_sig (encode (VArr (map stib_value (payset b))) ++ rest) = Some (payset b) /\ decode_payset_flat table b = Ok ts.
Proof.
  intros F R W C. split; [|apply decode_filled; exact F]. unfold filled in F.
  assert (X : Forall (fun s => readable valid_key bins valid_sig (stib_tx s) /\ (has_genesis_hash s = true -> has_genesis_id s = true)) (payset b)).
  { clear W. induction F as [|[t ad] s ts ss E F IH]; [constructor|]. inversion R as [|? ? R1 R2]; subst. cbn [fst snd] in E.
    destruct (encoded_readable _ _ _ _ R1 E) as [A B]. constructor.
    - split; [exact A|]. intros G. destruct (B G) as [B1|(p & P1 & P2 & P3 & P4 & P5)]; [exact B1|]. exfalso. destruct C as [C|C].
      + specialize (C p P1 P2). congruence.
      + inversion C as [|? ? C1 C2]; subst. apply (C1 P5). exact P4.
    - apply IH; [exact R2|]. destruct C as [C|C]; [left; exact C|right]. inversion C; assumption. }
  apply decode_payset_same; [exact W|revert X; apply Forall_impl; tauto|]. rewrite Forall_forall in X. intros s Hs. apply X. exact Hs.
Qed.
End Read.
