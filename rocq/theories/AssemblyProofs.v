(** Assembling multisignatures: when it succeeds and what the result carries. *)
From Verif Require Import Base BaseFacts MultisigModel MultisigSpec AssemblySpec.
Local Open Scope N_scope.

Lemma same_keys_iff a b : forall n i, (i + n <= length a)%nat -> (i + n <= length b)%nat ->
  (same_keys a b i n = Ok tt <-> firstn n (skipn i (map key a)) = firstn n (skipn i (map key b))) /\ same_keys a b i n <> Panic.
Proof.
  induction n as [|n IH]; intros i La Lb.
  - cbn. split; [tauto|discriminate].
  - cbn [same_keys]. destruct (nth_error a i) as [x|] eqn:Ea; [|apply nth_error_None in Ea; lia].
    destruct (nth_error b i) as [y|] eqn:Eb; [|apply nth_error_None in Eb; lia].
    assert (Sk : forall (l : list subsig) z, nth_error l i = Some z -> skipn i (map key l) = key z :: skipn (S i) (map key l)).
    { clear. intros l. revert i. induction l as [|w l IHl]; intros [|i] z E; try discriminate.
      - injection E as ->. reflexivity.
      - cbn [map skipn]. rewrite (IHl i z E). reflexivity. }
    rewrite (Sk a x Ea), (Sk b y Eb). cbn [firstn]. destruct (bytes_eqb_reflect (key x) (key y)) as [Ek|Ek]; cbn [negb].
    + destruct (IH (S i)) as [I1 I2]; [lia|lia|]. split; [|exact I2]. rewrite I1. rewrite Ek. split; [intros ->; reflexivity|]. intros E. injection E as E. exact E.
    + split; [|discriminate]. split; [discriminate|]. intros E. injection E as E _. contradiction.
Qed.
Lemma same_keys_all a b : length a = length b -> (same_keys a b 0 (length a) = Ok tt <-> map key a = map key b) /\ same_keys a b 0 (length a) <> Panic.
Proof.
  intros L. destruct (same_keys_iff a b (length a) 0) as [I P]; [lia|lia|]. split; [|exact P]. rewrite I. cbn [skipn].
  rewrite !firstn_all2 by (rewrite map_length; lia). tauto.
Qed.
Lemma all_match_iff first others : (all_match first others = Ok tt <-> Forall (same_preimage first) others) /\ all_match first others <> Panic.
Proof.
  induction others as [|u r [IH IP]]; [split; [split; [constructor|reflexivity]|discriminate]|]. cbn [all_match].
  destruct (N.eqb_spec (threshold first) (threshold u)) as [Et|Et]; cbn [negb].
  2: { split; [|discriminate]. split; [discriminate|]. intros F. inversion F as [|? ? [_ [E _]] _]. congruence. }
  destruct (N.eqb_spec (version first) (version u)) as [Ev|Ev]; cbn [negb].
  2: { split; [|discriminate]. split; [discriminate|]. intros F. inversion F as [|? ? [E _] _]. congruence. }
  destruct (Nat.eqb_spec (length (subsigs first)) (length (subsigs u))) as [El|El]; cbn [negb].
  2: { split; [|discriminate]. split; [discriminate|]. intros F. inversion F as [|? ? [_ [_ E]] _]. unfold keys in E.
       apply (f_equal (@length bytes)) in E. rewrite !map_length in E. contradiction. }
  destruct (same_keys_all _ _ El) as [K P]. destruct (same_keys (subsigs first) (subsigs u) 0 (length (subsigs first))) as [[]|e|]; cbn [bind].
  - split; [|exact IP]. rewrite IH. split.
    + intros F. constructor; [|exact F]. split; [exact Ev|]. split; [exact Et|]. apply K. reflexivity.
    + intros F. inversion F; assumption.
  - split; [|discriminate]. split; [discriminate|]. intros F. inversion F as [|? ? [_ [_ E]] _]. apply K in E. discriminate.
  - contradiction.
Qed.

(** Later signatures replace earlier ones. *)
Lemma overwrite_spec acc new : length acc = length new -> exists r, overwrite acc new = Some r /\ map key r = map key acc /\
  forall i, match nth_error r i, nth_error acc i, nth_error new i with
            | Some x, Some a, Some n => sig x = match sig n with Some s => Some s | None => sig a end
            | None, None, None => True
            | _, _, _ => False
            end.
Proof.
  revert new. induction acc as [|a acc IH]; intros [|n new] L; cbn [length] in L; try discriminate.
  - exists []. split; [reflexivity|]. split; [reflexivity|]. intros [|i]; exact I.
  - destruct (IH new) as (r & E & K & N); [lia|]. cbn [overwrite]. rewrite E. eexists. split; [reflexivity|].
    split; [cbn [map]; rewrite K; destruct (sig n); reflexivity|]. intros [|i]; [cbn [nth_error]; destruct (sig n); reflexivity|]. exact (N i).
Qed.
Lemma slot_sig_cases m i s : slot_sig m i s <-> match nth_error (subsigs m) i with Some e => sig e = Some s | None => False end.
Proof.
  unfold slot_sig. split.
  - intros (e & -> & E). exact E.
  - destruct (nth_error (subsigs m) i) as [e|] eqn:E; [|tauto]. intros H. exists e. auto.
Qed.
Definition sig_at (l : list subsig) (i : nat) : option bytes := match nth_error l i with Some e => sig e | None => None end.
Lemma slot_sig_at m i s : slot_sig m i s <-> sig_at (subsigs m) i = Some s.
Proof. rewrite slot_sig_cases. unfold sig_at. destruct (nth_error (subsigs m) i); [tauto|split; [tauto|discriminate]]. Qed.

Definition latest_from (o : option bytes) (us : list multisig) (i : nat) : option bytes :=
  fold_left (fun o u => match sig_at (subsigs u) i with Some s => Some s | None => o end) us o.
Lemma overwrite_all_spec us : forall acc, Forall (fun u => length (subsigs u) = length acc) us ->
  exists r, overwrite_all acc us = Some r /\ map key r = map key acc /\ forall i, sig_at r i = latest_from (sig_at acc i) us i.
Proof.
  induction us as [|u us IH]; intros acc F.
  - exists acc. split; [reflexivity|]. split; [reflexivity|]. reflexivity.
  - inversion F as [|? ? L F']; subst. destruct (overwrite_spec acc (subsigs u) (eq_sym L)) as (r & E & K & N).
    assert (Lr : length r = length acc) by (apply (f_equal (@length bytes)) in K; rewrite !map_length in K; exact K).
    destruct (IH r) as (r' & E' & K' & N'); [rewrite Lr; exact F'|]. exists r'. cbn [overwrite_all]. rewrite E. split; [exact E'|].
    split; [congruence|]. intros i. rewrite N'. unfold latest_from. cbn [fold_left]. f_equal. specialize (N i). unfold sig_at.
    destruct (nth_error r i), (nth_error acc i), (nth_error (subsigs u) i); try contradiction; [exact N|reflexivity].
Qed.
Lemma latest_from_spec us i : forall o s, latest_from o us i = Some s <->
  (exists before u after, us = before ++ u :: after /\ slot_sig u i s /\ Forall (fun v => unsigned v i) after) \/
  (o = Some s /\ Forall (fun v => unsigned v i) us).
Proof.
  assert (U : forall v, unsigned v i <-> sig_at (subsigs v) i = None).
  { intros v. unfold unsigned. split.
    - intros H. destruct (sig_at (subsigs v) i) as [s|] eqn:E; [|reflexivity]. exfalso. apply (H s). apply slot_sig_at. exact E.
    - intros E s H. apply slot_sig_at in H. congruence. }
  induction us as [|u us IH]; intros o s.
  - cbn. split; [intros ->; right; auto|]. intros [(b & v & a & E & _)|[E _]]; [destruct b; discriminate|exact E].
  - unfold latest_from. cbn [fold_left]. change (fold_left _ us ?z) with (latest_from z us i). rewrite IH. split.
    + intros [(b & v & a & E & H & F)|[E F]].
      * left. exists (u :: b), v, a. subst. auto.
      * destruct (sig_at (subsigs u) i) as [s'|] eqn:Es.
        -- left. exists [], u, us. split; [reflexivity|]. split; [apply slot_sig_at; congruence|exact F].
        -- right. split; [exact E|]. constructor; [apply U; exact Es|exact F].
    + intros [(b & v & a & E & H & F)|[E F]].
      * destruct b as [|w b]; injection E as E1 E2.
        -- subst. right. apply slot_sig_at in H. rewrite H. auto.
        -- subst. left. exists b, v, a. auto.
      * inversion F as [|? ? Fu F']; subst. right. apply U in Fu. rewrite Fu. auto.
Qed.

Lemma same_preimage_length a b : same_preimage a b -> length (subsigs a) = length (subsigs b).
Proof. intros (_ & _ & E). unfold keys in E. apply (f_equal (@length bytes)) in E. rewrite !map_length in E. exact E. Qed.
Lemma assemble_lemma us :
  assemble us <> Panic /\
  ((exists m, assemble us = Ok m) <-> (2 <= length us)%nat /\ forall u v, In u us -> In v us -> same_preimage u v) /\
  (forall m, assemble us = Ok m -> (forall u, In u us -> same_preimage u m) /\ forall i s, slot_sig m i s <-> latest us i s).
Proof.
  unfold assemble. destruct (Nat.ltb_spec (length us) 2) as [L|L].
  - split; [discriminate|]. split; [split; [intros [m E]; discriminate|lia]|discriminate].
  - destruct us as [|first others]; [cbn in L; lia|]. destruct (all_match_iff first others) as [I P].
    destruct (all_match first others) as [[]|e|]; cbn [bind]; [|split; [discriminate|]; split; [split; [intros [m E]; discriminate|]|discriminate]|contradiction].
    + assert (F : Forall (same_preimage first) others) by (apply I; reflexivity).
      assert (Fall : Forall (same_preimage first) (first :: others)) by (constructor; [repeat split|exact F]).
      destruct (overwrite_all_spec (first :: others) (map (fun s => mkSubsig (key s) None) (subsigs first))) as (r & E & K & N).
      { revert Fall. apply Forall_impl. intros u Hu. rewrite map_length. symmetry. apply same_preimage_length. exact Hu. }
      rewrite E. split; [discriminate|]. rewrite map_map in K. change (map (fun x => key (mkSubsig (key x) None)) (subsigs first)) with (keys first) in K.
      split.
      * split; [intros _|eauto]. split; [exact L|]. rewrite Forall_forall in Fall. intros u v Hu Hv. apply Fall in Hu. apply Fall in Hv.
        destruct Hu as (A & B & C), Hv as (A' & B' & C'). repeat split; congruence.
      * intros m Em. injection Em as <-. split.
        -- rewrite Forall_forall in Fall. intros u Hu. apply Fall in Hu. destruct Hu as (A & B & C). unfold same_preimage, keys at 2. cbn [version threshold subsigs].
           rewrite K. repeat split; congruence.
        -- intros i s. rewrite slot_sig_at. cbn [subsigs]. rewrite N. rewrite latest_from_spec. unfold latest. split; [|auto].
           intros [H|[H _]]; [exact H|]. unfold sig_at in H. rewrite nth_error_map in H. destruct (nth_error (subsigs first) i); discriminate.
    + intros [_ A]. assert (Forall (same_preimage first) others).
      { apply Forall_forall. intros u Hu. apply A; [left; reflexivity|right; exact Hu]. }
      apply I in H. discriminate.
Qed.
