(** What is restored is what the key store contains. *)
From Verif Require Import Base BaseFacts MsgpackModel MsgpackProofs FormSpec FormProofs StructModel StructProofs Scheme OtsModel AccountModel AccountSpec AccountProofs.
From Verif Require VrfModel.
Local Open Scope N_scope.

Section Fix.
Variables (sc : scheme) (is_point : bytes -> bool).

Lemma exactly_some n o s : exactly n o = Ok s -> o = Some s /\ length s = n.
Proof. unfold exactly. destruct o as [t|]; [|discriminate]. destruct (Nat.eqb_spec (length t) n); [|discriminate]. intros E. injection E as <-. auto. Qed.
Lemma stored_some {A} (of : value -> option A) o a : stored of o = Ok a -> exists s v, o = Some s /\ decode s = Some v /\ of v = Some a.
Proof.
  unfold stored, from_bytes. destruct o as [s|]; [|discriminate]. destruct (decode s) as [v|] eqn:D; [|discriminate].
  destruct (of v) as [b|] eqn:O; [|discriminate]. intros E. injection E as <-. eauto.
Qed.
Lemma bytes_of_some n v s : bytes_of n v = Some s -> length s = n.
Proof. unfold bytes_of. destruct v; try discriminate. destruct (all_bytes l); [|discriminate]. destruct (Nat.eqb_spec (length b) n); [|discriminate]. intros E. injection E as <-. assumption. Qed.
Lemma vrf_of_some v k : vrf_of v = Some k -> length (VrfModel.private k) = 32%nat /\ length (VrfModel.public_key k) = 32%nat.
Proof.
  unfold vrf_of. destruct (fields_of _ v) as [l|]; [|discriminate]. destruct l as [|a [|b [|]]]; try discriminate.
  destruct (bytes_of 32 a) eqn:A; [|discriminate]. destruct (bytes_of 32 b) eqn:B; [|discriminate]. intros E. injection E as <-.
  cbn. split; eapply bytes_of_some; eassumption.
Qed.
Lemma key_of_some v k : key_of is_point v = Some k -> key_ok is_point k.
Proof.
  unfold key_of. destruct (buf_of v) as [s|]; [|discriminate]. destruct ((length s =? 32)%nat && is_point s) eqn:E; [|discriminate]. intros F. injection F as <-.
  apply andb_prop in E. destruct E as [E ?]. apply Nat.eqb_eq in E. split; assumption.
Qed.
Lemma some_eq {A} (a b : A) : Some a = Some b -> a = b. Proof. congruence. Qed.
Lemma keypair_of_some v kp : keypair_of is_point v = Some kp -> length kp = 64%nat /\ is_point (skipn 32 kp) = true.
Proof.
  unfold keypair_of. destruct (buf_of v) as [s|]; [|discriminate]. destruct ((length s =? 64)%nat && is_point (skipn 32 s)) eqn:Q; [|discriminate].
  intros E. apply some_eq in E. subst s. apply andb_prop in Q. destruct Q as [Q ?]. apply Nat.eqb_eq in Q. auto.
Qed.
Lemma subkey_of_some v k : subkey_of sc is_point v = Some k -> subkey_ok sc is_point k.
Proof.
  unfold subkey_of. destruct (fields_of _ v) as [l|]; [|discriminate]. destruct l as [|a [|b [|]]]; try discriminate.
  destruct (keypair_of is_point a) as [kp|] eqn:K; [|discriminate]. destruct (bytes_of 64 b) as [s|] eqn:S; [|discriminate].
  destruct (bytes_eqb (public sc (firstn 32 kp)) (skipn 32 kp)) eqn:Q; [|discriminate]. intros F.
  apply (f_equal (fun o => match o with Some x => x | None => k end)) in F. cbv beta iota in F. rewrite <- F. clear F.
  apply keypair_of_some in K. destruct K as [E P]. apply bytes_eqb_spec in Q. unfold subkey_ok, key_ok. cbn [secret pk_sig_new]. rewrite Q.
  repeat split; [rewrite firstn_length; lia|rewrite skipn_length; lia|exact P|eapply bytes_of_some; exact S].
Qed.
Lemma all_subkeys_some l : forall ks, all_subkeys sc is_point l = Some ks -> Forall (subkey_ok sc is_point) ks /\ length ks = length l.
Proof.
  induction l as [|v l IH]; intros ks E; cbn [all_subkeys] in E; [injection E as <-; auto|].
  destruct (subkey_of sc is_point v) as [k|] eqn:S; [|discriminate]. destruct (all_subkeys sc is_point l) as [r|]; [|discriminate]. injection E as <-.
  destruct (IH r eq_refl) as [F L]. split; [constructor; [eapply subkey_of_some; exact S|exact F]|cbn; congruence].
Qed.
Lemma subkeys_of_some v ks : wf v -> subkeys_of sc is_point v = Some ks -> Forall (subkey_ok sc is_point) ks /\ N.of_nat (length ks) < 2 ^ 32.
Proof.
  unfold subkeys_of. destruct v as [| | | | | | |l|]; try discriminate. intros [W _] E. apply all_subkeys_some in E. destruct E as [F ->]. auto.
Qed.
Lemma num_of_some v n : wf v -> num_of v = Some n -> u64 n.
Proof. unfold num_of. destruct v; try discriminate. destruct (Z.leb_spec 0 z); [|discriminate]. intros W E. injection E as <-. cbn [wf] in W. unfold u64, two64. lia. Qed.
Lemma secrets_of_some v s : wf v -> secrets_of sc is_point v = Some s -> secrets_ok sc is_point s.
Proof.
  unfold secrets_of. intros W. destruct (fields_of _ v) as [l|] eqn:Ef; [|discriminate]. apply (fields_wf _ _ _ W) in Ef. clear W. rename Ef into W.
  destruct l as [|a l]; [discriminate|]. destruct l as [|b l]; [discriminate|]. destruct l as [|c l]; [discriminate|]. destruct l as [|d l]; [discriminate|].
  destruct l as [|e l]; [discriminate|]. destruct l as [|f l]; [discriminate|]. destruct l as [|g l]; [discriminate|]. destruct l as [|h l]; [discriminate|].
  destruct h; try discriminate. destruct l; [|discriminate]. cbn [fold_right] in W. destruct W as (_ & Wb & Wc & Wd & We & _).
  destruct (key_of is_point a) eqn:Ka; [|discriminate]. destruct (num_of b) eqn:Kb; [|discriminate]. destruct (subkeys_of sc is_point c) eqn:Kc; [|discriminate].
  destruct (num_of d) eqn:Kd; [|discriminate]. destruct (subkeys_of sc is_point e) eqn:Ke; [|discriminate]. destruct (key_of is_point f) eqn:Kf; [|discriminate].
  destruct (bytes_of 64 g) eqn:Kg; [|discriminate]. intros E. injection E as <-.
  apply key_of_some in Ka, Kf. apply num_of_some in Kb; [|exact Wb]. apply num_of_some in Kd; [|exact Wd]. apply subkeys_of_some in Kc; [|exact Wc]. apply subkeys_of_some in Ke; [|exact We].
  apply bytes_of_some in Kg. unfold secrets_ok. cbn. tauto.
Qed.
Lemma restored_ok st p : restore sc is_point st = Ok p -> part_ok sc is_point p.
Proof.
  intros E. apply restore_fields in E. destruct E as (A & B & D & (f & F & Ef) & (g & G & Eg) & (k & K & Ek)).
  apply exactly_some in A, F, G, K. apply stored_some in B, D. destruct B as (s1 & v1 & _ & _ & B). destruct D as (s2 & v2 & _ & D2 & D).
  apply vrf_of_some in B. apply secrets_of_some in D; [|apply decode_lemma in D2; tauto].
  assert (U : forall s, length s = 8%nat -> u64 (be_val s)).
  { intros s L. pose proof (big_lt s) as Q. rewrite L, big_be in Q. exact Q. }
  unfold part_ok. rewrite <- Ef, <- Eg, <- Ek. split; [tauto|]. split; [tauto|]. split; [tauto|]. split; [exact D|]. split; [|split]; apply U; tauto.
Qed.
Lemma restored_lemma st p : restore sc is_point st = Ok p ->
  st (str "part-parent") = Some (parent p) /\
  (exists s, st (str "part-first_valid") = Some s /\ length s = 8%nat /\ big s = part_first p) /\
  (exists s, st (str "part-last_valid") = Some s /\ length s = 8%nat /\ big s = part_last p) /\
  (exists s, st (str "part-key_dilution") = Some s /\ length s = 8%nat /\ big s = part_dilution p) /\
  st (str "part-vrf") <> None /\ st (str "part-voting") <> None /\ part_ok sc is_point p.
Proof.
  intros R. pose proof (restored_ok st p R) as O. apply restore_fields in R. destruct R as (A & B & D & (f & F & Ef) & (g & G & Eg) & (k & K & Ek)).
  apply exactly_some in A, F, G, K. apply stored_some in B, D. destruct B as (s1 & v1 & B & _). destruct D as (s2 & v2 & D & _).
  split; [tauto|]. split; [exists f; rewrite big_be; tauto|]. split; [exists g; rewrite big_be; tauto|]. split; [exists k; rewrite big_be; tauto|].
  rewrite B, D. split; [discriminate|]. split; [discriminate|exact O].
Qed.
Lemma again_lemma st st' p : restore sc is_point st = Ok p -> restore sc is_point (fst (persist sc st' p None)) = Ok p.
Proof. intros R. apply persist_lemma. exact (restored_ok st p R). Qed.
Lemma root_lemma st :
  (forall kp, root_restore is_point st = Ok kp -> length kp = 64%nat /\ is_point (skipn 32 kp) = true) /\
  (root_restore is_point st = Err NotFound <-> st (str "root") = None) /\ root_restore is_point st <> Panic.
Proof.
  unfold root_restore. destruct (st (str "root")) as [raw|]; [|repeat split; discriminate].
  unfold from_bytes. destruct (decode raw) as [v|]; [|repeat split; discriminate].
  destruct (keypair_of is_point v) as [kp|] eqn:K; [|repeat split; discriminate]. split; [|repeat split; discriminate].
  intros kp' E. injection E as <-. exact (keypair_of_some v kp K).
Qed.
End Fix.
