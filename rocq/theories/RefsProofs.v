(** Proofs for the references of application calls and for wrapped transactions. *)
From Verif Require Import Base BaseFacts BasicsModel BasicsProofs TxModel TxSpec TxProofs BlockModel BlockSpec BlockProofs.
Local Open Scope N_scope.

Lemma nth_bound {A} (l : list A) i a : nth_error l (N.to_nat i) = Some a -> i < N.of_nat (length l).
Proof. intros E. assert (N.to_nat i < length l)%nat by (apply nth_error_Some; congruence). lia. Qed.

Lemma groups_map {A B} (f : A -> B) (ga : A -> bytes) (gb : B -> bytes) : (forall a, gb (f a) = ga a) ->
  forall l last, groups_loop gb (map f last) (map f l) = map (map f) (groups_loop ga last l).
Proof.
  intros E. induction l as [|x l IH]; intros last.
  - destruct last; reflexivity.
  - cbn [map groups_loop]. destruct last as [|y last].
    + exact (IH [x]).
    + cbn [map]. rewrite !E. destruct (_ || _).
      * cbn [map]. f_equal. exact (IH [x]).
      * rewrite <- (IH ((y :: last) ++ [x])). rewrite map_app. reflexivity.
Qed.
Lemma wrap_groups l : groups_loop (fun s : signed_tx_with_ad => tx_group (fst s)) [] (wrap_signed_txs_with_ad l) = map wrap_signed_txs_with_ad (signed_txs_to_group l).
Proof. exact (groups_map (fun t : signed_tx => (t, no_apply_data)) tx_group (fun s => tx_group (fst s)) (fun _ => eq_refl) l []). Qed.
Lemma wrap_first l : map fst (wrap_signed_txs_with_ad l) = l.
Proof. unfold wrap_signed_txs_with_ad. rewrite map_map. apply map_id. Qed.
Lemma wrap_second l s : In s (wrap_signed_txs_with_ad l) -> snd s = no_apply_data.
Proof. intros I. apply in_map_iff in I. destruct I as (t & <- & _). reflexivity. Qed.

Lemma call_refs_lemma H m spec proto t c : is_well_formed H m spec proto t = Ok tt -> fields t = AppCall c ->
  limits_fit proto -> last_valid (tx_head t) < 2 ^ 64 - 1 ->
  (forall i a, address_by_index (refs_of c) i (sender (tx_head t)) = Some a ->
     i <= max_app_tx_accounts proto /\ (a = sender (tx_head t) \/ In a (app_accounts c))) /\
  (forall i a, app_id_by_index (refs_of c) i = Some a ->
     i <= max_app_tx_foreign_apps proto /\ (a = called_app c \/ In a (app_foreign_apps c))) /\
  (forall i j a b, address_by_index (refs_of c) i (sender (tx_head t)) = Some a -> app_id_by_index (refs_of c) j = Some b ->
     i + j <= max_app_total_tx_references proto).
Proof.
  intros W F L V. apply well_formed_lemma in W; [|assumption|assumption]. destruct W as ((Fi & _) & _). unfold fields_ok in Fi. rewrite F in Fi.
  destruct Fi as (_ & _ & _ & _ & A & B & _ & T & _).
  assert (P : forall i a, address_by_index (refs_of c) i (sender (tx_head t)) = Some a -> i <= len (app_accounts c) /\ (a = sender (tx_head t) \/ In a (app_accounts c))).
  { intros i a E. rewrite address_index_lemma in E. pose proof (nth_bound _ _ _ E) as Bd. apply nth_error_In in E.
    cbn [refs_of accounts length In] in *. unfold len in *. split; [lia|]. destruct E; auto. }
  assert (Q : forall i a, app_id_by_index (refs_of c) i = Some a -> i <= len (app_foreign_apps c) /\ (a = called_app c \/ In a (app_foreign_apps c))).
  { intros i a E. rewrite app_index_lemma in E. pose proof (nth_bound _ _ _ E) as Bd. apply nth_error_In in E.
    cbn [refs_of application_id foreign_apps length In] in *. unfold len in *. split; [lia|]. destruct E; auto. }
  split; [|split].
  - intros i a E. destruct (P i a E). split; [lia|assumption].
  - intros i a E. destruct (Q i a E). split; [lia|assumption].
  - intros i j a b E E'. destruct (P i a E), (Q j b E'). lia.
Qed.

Lemma wrap_lemma l :
  map fst (wrap_signed_txs_with_ad l) = l /\ Forall (fun s => snd s = no_apply_data) (wrap_signed_txs_with_ad l) /\
  grouping (fun s => tx_group (fst s)) (wrap_signed_txs_with_ad l) (map wrap_signed_txs_with_ad (signed_txs_to_group l)).
Proof.
  split; [apply wrap_first|]. split; [apply Forall_forall; intros s; apply wrap_second|]. rewrite <- wrap_groups. apply grouping_lemma.
Qed.
