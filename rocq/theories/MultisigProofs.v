(** Proofs about multisignatures and the batch verifier. *)
From Coq Require Import Permutation.
From Verif Require Import Base BaseFacts MultisigModel MultisigSpec.
Local Open Scope N_scope.

(** ** Batch verifier *)

Definition batch_of (ts : list (bytes * bytes * bytes)) : batch_verifier :=
  mkBatch (map (fun '(_, m, _) => m) ts) (map (fun '(pk, _, _) => pk) ts) (map (fun '(_, _, s) => s) ts).
Definition holds (sc : scheme) (t : bytes * bytes * bytes) : bool := let '(pk, m, s) := t in check sc pk m s.

Lemma enque_batch_of ts pk m s : enque_sig pk m s (batch_of ts) = batch_of (ts ++ [(pk, m, s)]).
Proof. unfold enque_sig, batch_of. cbn. rewrite !map_app. reflexivity. Qed.

Lemma enqueue_list_of ts : forall acc, enqueue_list ts (batch_of acc) = batch_of (acc ++ ts).
Proof.
  induction ts as [|[[pk m] s] ts IH]; intros acc; cbn.
  - rewrite app_nil_r. reflexivity.
  - rewrite enque_batch_of, IH, <- app_assoc. reflexivity.
Qed.

Lemma batch_loop_spec sc ts : forall n i, (i + n = length ts)%nat ->
  batch_loop sc (batch_of ts) i n =
  if forallb (holds sc) (skipn i ts) then Ok tt else Err VerificationFailed.
Proof.
  induction n as [|n IH]; intros i Hi; cbn [batch_loop].
  - rewrite skipn_all2 by lia. reflexivity.
  - destruct (nth_error ts i) as [[[pk m] s]|] eqn:E; [|apply nth_error_None in E; lia].
    cbn [batch_of public_keys messages signatures].
    do 3 (erewrite map_nth_error by exact E).
    assert (Es : skipn i ts = (pk, m, s) :: skipn (S i) ts).
    { clear - E. revert i E. induction ts as [|x ts IH]; intros [|i] E; try discriminate.
      - injection E as ->. reflexivity.
      - cbn in E. cbn [skipn]. rewrite (IH _ E). reflexivity. }
    rewrite Es. cbn [forallb holds]. destruct (check sc pk m s); cbn [andb]; [|reflexivity].
    apply IH. lia.
Qed.

Lemma batch_check_spec sc ts :
  batch_check sc (batch_of ts) =
  match ts with
  | [] => Err ZeroTranscationsInBatch
  | _ => if forallb (holds sc) ts then Ok tt else Err VerificationFailed
  end.
Proof.
  unfold batch_check, num_sigs_enqued. cbn [batch_of messages]. rewrite map_length.
  destruct ts as [|t ts]; [reflexivity|]. cbn [length Nat.eqb].
  change (map _ (t :: ts)) with (messages (batch_of (t :: ts))).
  rewrite batch_loop_spec by reflexivity. reflexivity.
Qed.

Lemma batch_lemma sc ts :
  batch_check sc (enqueue_list ts new_batch) = Ok tt <->
  ts <> [] /\ forall pk m s, In (pk, m, s) ts -> check sc pk m s = true.
Proof.
  change new_batch with (batch_of []). rewrite enqueue_list_of, batch_check_spec. cbn [app].
  destruct ts as [|t ts].
  - split; [discriminate|]. intros [H _]. contradiction.
  - destruct (forallb (holds sc) (t :: ts)) eqn:E.
    + split; [|reflexivity]. intros _. split; [discriminate|]. intros pk m s Hin.
      rewrite forallb_forall in E. apply (E _ Hin).
    + split; [discriminate|]. intros [_ Hall]. exfalso.
      assert (forallb (holds sc) (t :: ts) = true); [|congruence].
      apply forallb_forall. intros [[pk m] s] Hin. apply Hall. exact Hin.
Qed.

Lemma batch_order_lemma sc ts ts' : Permutation ts ts' ->
  batch_check sc (enqueue_list ts new_batch) = batch_check sc (enqueue_list ts' new_batch).
Proof.
  intros P. change new_batch with (batch_of []). rewrite !enqueue_list_of, !batch_check_spec. cbn [app].
  assert (E : forallb (holds sc) ts = forallb (holds sc) ts').
  { clear - P. induction P; cbn; try congruence.
    destruct (holds sc x), (holds sc y); reflexivity. }
  destruct ts as [|t ts], ts' as [|t' ts']; try reflexivity.
  - apply Permutation_nil in P. discriminate.
  - symmetry in P. apply Permutation_nil in P. discriminate.
  - rewrite E. reflexivity.
Qed.

(** ** Counting signed slots *)

Definition signed_at (m : multisig) (i : nat) : bool :=
  match nth_error (subsigs m) i with Some e => is_signed e | None => false end.

Lemma signed_at_spec m i : signed_at m i = true <-> exists s, slot_sig m i s.
Proof.
  unfold signed_at, slot_sig, is_signed. destruct (nth_error (subsigs m) i) as [e|].
  - destruct (sig e) as [s|] eqn:E; split; intros Hx; try discriminate; eauto.
    destruct Hx as (s & e' & Ee & Es). injection Ee as <-. congruence.
  - split; [discriminate|]. intros (s & e & E & _). discriminate.
Qed.

Lemma signed_count m :
  length (filter (signed_at m) (seq 0 (length (subsigs m)))) = length (filter is_signed (subsigs m)).
Proof.
  unfold signed_at. generalize (subsigs m). intros l. clear m.
  assert (Hg : forall k (f : nat -> bool), (forall i, f (k + i)%nat = match nth_error l i with Some e => is_signed e | None => false end) ->
    length (filter f (seq k (length l))) = length (filter is_signed l)).
  { induction l as [|e l IH]; intros k f Hf; [reflexivity|]. cbn [length seq filter].
    pose proof (Hf 0%nat) as H0. rewrite Nat.add_0_r in H0. cbn in H0. rewrite H0.
    assert (E : length (filter f (seq (S k) (length l))) = length (filter is_signed l)).
    { apply IH. intros i. specialize (Hf (S i)). cbn in Hf. replace (S k + i)%nat with (k + S i)%nat by lia. exact Hf. }
    destruct (is_signed e); cbn [length]; rewrite E; reflexivity. }
  apply Hg. reflexivity.
Qed.

Lemma NoDup_firstn {A} (l : list A) : forall n, NoDup l -> NoDup (firstn n l).
Proof.
  induction l as [|x l IH]; intros [|n] Hl; cbn; try constructor.
  - inversion Hl as [|? ? Hx Hr]; subst. intros Hin. apply Hx.
    rewrite <- (firstn_skipn n l). apply in_app_iff. left. exact Hin.
  - apply IH. inversion Hl; assumption.
Qed.

Lemma signed_slots_spec m t : signed_slots_at_least m t <-> t <= N.of_nat (length (filter is_signed (subsigs m))).
Proof.
  rewrite <- signed_count. split.
  - intros (is & Hn & <- & Hs).
    assert (length is <= length (filter (signed_at m) (seq 0 (length (subsigs m)))))%nat; [|lia].
    apply NoDup_incl_length; [exact Hn|]. intros i Hi. apply filter_In.
    specialize (Hs i Hi). split; [|apply signed_at_spec; exact Hs].
    apply in_seq. destruct Hs as (s & e & E & _). assert (i < length (subsigs m))%nat by (apply nth_error_Some; congruence). lia.
  - intros Ht. set (l := filter (signed_at m) (seq 0 (length (subsigs m)))) in *.
    exists (firstn (N.to_nat t) l). split; [|split].
    + assert (Hl : NoDup l) by (apply NoDup_filter, seq_NoDup).
      apply NoDup_firstn. exact Hl.
    + rewrite firstn_length. lia.
    + intros i Hi. apply signed_at_spec.
      assert (In i l) as Hil by (rewrite <- (firstn_skipn (N.to_nat t) l); apply in_app_iff; left; exact Hi).
      apply filter_In in Hil. apply Hil.
Qed.

(** ** Verification *)

Definition triples (msg : bytes) (ss : list subsig) : list (bytes * bytes * bytes) :=
  flat_map (fun s => match sig s with Some g => [(key s, msg, g)] | None => [] end) ss.

Lemma enqueue_all_spec msg ss : forall acc v,
  v + N.of_nat (length ss) <= 255 ->
  enqueue_all msg ss (batch_of acc) v =
  Ok (batch_of (acc ++ triples msg ss), v + N.of_nat (length (filter is_signed ss))).
Proof.
  induction ss as [|s ss IH]; intros acc v Hv; cbn [enqueue_all].
  - unfold triples. cbn. rewrite app_nil_r, N.add_0_r. reflexivity.
  - cbn [length] in Hv. unfold triples. cbn [flat_map filter]. fold (triples msg ss).
    unfold is_signed at 1. destruct (sig s) as [g|].
    + destruct (N.eqb_spec v 255) as [->|_]; [lia|].
      rewrite enque_batch_of, IH by lia. rewrite <- app_assoc. cbn [app length]. f_equal. f_equal. lia.
    + rewrite IH by lia. reflexivity.
Qed.

Lemma triples_length msg ss : length (triples msg ss) = length (filter is_signed ss).
Proof.
  induction ss as [|s ss IH]; [reflexivity|]. unfold triples. cbn [flat_map filter]. fold (triples msg ss).
  unfold is_signed at 1. destruct (sig s); cbn [app length]; rewrite IH; reflexivity.
Qed.

Lemma in_triples msg ss pk m g :
  In (pk, m, g) (triples msg ss) <-> m = msg /\ exists i e, nth_error ss i = Some e /\ key e = pk /\ sig e = Some g.
Proof.
  unfold triples. rewrite in_flat_map. split.
  - intros (e & Hin & Ht). apply In_nth_error in Hin as [i Hi]. destruct (sig e) as [g'|] eqn:Eg; [|destruct Ht].
    destruct Ht as [Ht|[]]. injection Ht as <- <- <-. split; [reflexivity|]. exists i, e. auto.
  - intros (-> & i & e & Hi & Hk & Hg). exists e. split; [eapply nth_error_In; exact Hi|].
    rewrite Hg, Hk. left. reflexivity.
Qed.

Lemma subsig_eqb_spec a b : subsig_eqb a b = true <-> a = b.
Proof.
  destruct a as [k s], b as [k' s']. unfold subsig_eqb. cbn [key sig]. rewrite andb_true_iff, bytes_eqb_spec.
  destruct s as [s|], s' as [s'|]; cbn [opt_eqb]; rewrite ?bytes_eqb_spec; intuition congruence.
Qed.

Lemma from_pks_spec H v t pks a :
  from_pks H v t pks = Ok a <->
  v = 1 /\ 1 <= t <= N.of_nat (length pks) /\ a = H (address_string v t pks).
Proof.
  unfold from_pks, address_string. destruct (N.eqb_spec v 1) as [->|Hv]; cbn [negb].
  2:{ split; [discriminate|]. intros [? _]. contradiction. }
  destruct (N.eqb_spec t 0) as [->|Ht]; cbn [orb].
  { split; [discriminate|]. intros (_ & ? & _). lia. }
  destruct (Nat.eqb_spec (length pks) 0) as [Hl|Hl]; cbn [orb].
  { split; [discriminate|]. intros (_ & ? & _). lia. }
  destruct (N.ltb_spec (N.of_nat (length pks)) t) as [Hlt|Hle].
  { split; [discriminate|]. intros (_ & ? & _). lia. }
  split.
  - intros E. injection E as <-. repeat split; lia.
  - intros (_ & _ & ->). reflexivity.
Qed.

Lemma verify_lemma H sc m msg addr :
  first_slot_not_blank m ->
  verify H sc m msg addr = Ok true <-> acceptable H sc m msg addr.
Proof.
  intros Hb. unfold first_slot_not_blank in Hb. unfold verify, batch_verify, acceptable, keys.
  rewrite signed_slots_spec, map_length.
  destruct (subsigs m) as [|s0 ss] eqn:Es.
  { cbn. split; [discriminate|]. intros (_ & ? & _). lia. }
  destruct (subsig_eqb s0 default_subsig) eqn:E0.
  { exfalso. apply subsig_eqb_spec in E0. subst. apply Hb. reflexivity. }
  rewrite <- Es in *. clear E0 Hb.
  unfold from_subsigs.
  destruct (from_pks H (version m) (threshold m) (map key (subsigs m))) as [a|e|] eqn:Ea; cbn [bind].
  2,3: (split; [discriminate|]; intros (Hv & Ht & _ & _);
        assert (X : from_pks H (version m) (threshold m) (map key (subsigs m)) =
               Ok (H (address_string (version m) (threshold m) (map key (subsigs m)))))
          by (apply from_pks_spec; rewrite map_length; auto); congruence).
  apply from_pks_spec in Ea as (Hv & Ht & ->). rewrite map_length in Ht.
  destruct (bytes_eqb_reflect addr (H (address_string (version m) (threshold m) (map key (subsigs m))))) as [->|Hne]; cbn [negb].
  2:{ split; [discriminate|]. intros (_ & _ & _ & E & _). contradiction. }
  destruct (Nat.ltb_spec MAX_MULTISIG (length (subsigs m))) as [Hm|Hm].
  { split; [discriminate|]. intros (_ & _ & Hl & _). unfold MAX_MULTISIG in Hm. lia. }
  destruct (N.ltb_spec (N.of_nat (length (subsigs m))) (threshold m)) as [Hlt|_]; [lia|].
  destruct (N.ltb_spec (N.of_nat (length (filter is_signed (subsigs m)))) (threshold m)) as [Hlt|Hge].
  { split; [discriminate|]. intros (_ & _ & _ & _ & Hs & _). lia. }
  change new_batch with (batch_of []).
  rewrite enqueue_all_spec by (unfold MAX_MULTISIG in Hm; lia). cbn [bind app].
  rewrite N.add_0_l. destruct (N.ltb_spec (N.of_nat (length (filter is_signed (subsigs m)))) (threshold m)) as [?|_]; [lia|].
  cbn [bind negb]. unfold num_sigs_enqued. cbn [batch_of messages]. rewrite map_length, triples_length.
  destruct (Nat.eqb_spec (length (filter is_signed (subsigs m))) 0) as [Hz|_]; [lia|].
  fold (batch_of (triples msg (subsigs m))). rewrite batch_check_spec.
  destruct (triples msg (subsigs m)) as [|t ts] eqn:Et.
  { apply (f_equal (@length _)) in Et. rewrite triples_length in Et. cbn in Et. lia. }
  rewrite <- Et. destruct (forallb (holds sc) (triples msg (subsigs m))) eqn:Ef.
  - split; [|reflexivity]. intros _. unfold MAX_MULTISIG in Hm. repeat split; auto; try lia.
    intros i k s (e & Ee & Ek) (e' & Ee' & Es'). assert (e' = e) as -> by congruence.
    rewrite forallb_forall in Ef. apply (Ef (k, msg, s)). apply in_triples. split; [reflexivity|]. eauto 6.
  - split; [discriminate|]. intros (_ & _ & _ & _ & _ & Hall). exfalso.
    assert (forallb (holds sc) (triples msg (subsigs m)) = true); [|congruence].
    apply forallb_forall. intros [[pk m0] g] Hin. apply in_triples in Hin as (-> & i & e & Ee & Ek & Eg).
    cbn. apply (Hall i); [exists e; auto|exists e; auto].
Qed.

Lemma verify_blank_lemma H sc m msg addr :
  ~ first_slot_not_blank m -> verify H sc m msg addr = Err InvalidNumberOfSignatures.
Proof.
  unfold first_slot_not_blank, verify, batch_verify. intros Hb. destruct (subsigs m) as [|s0 ss]; [reflexivity|].
  destruct (subsig_eqb s0 default_subsig) eqn:E; [reflexivity|]. exfalso. apply Hb. cbn. intros E2.
  injection E2 as ->. rewrite (proj2 (subsig_eqb_spec _ _) eq_refl) in E. discriminate.
Qed.

Lemma verify_total_lemma H sc m msg addr : verify H sc m msg addr <> Panic.
Proof.
  unfold verify, batch_verify. destruct (subsigs m) as [|s0 ss] eqn:Es; [discriminate|]. rewrite <- Es.
  destruct (subsig_eqb s0 default_subsig); [discriminate|]. unfold from_subsigs.
  destruct (from_pks H (version m) (threshold m) (map key (subsigs m))) as [a|e|] eqn:Ea; cbn [bind]; [|discriminate|].
  2:{ unfold from_pks in Ea. destruct (negb _); [discriminate|]. destruct (_ || _); discriminate. }
  destruct (negb (bytes_eqb addr a)); [discriminate|].
  destruct (Nat.ltb_spec MAX_MULTISIG (length (subsigs m))) as [Hm|Hm]; [discriminate|].
  destruct (_ <? _); [discriminate|]. destruct (_ <? _); [discriminate|].
  change new_batch with (batch_of []).
  rewrite enqueue_all_spec by (unfold MAX_MULTISIG in Hm; lia). cbn [bind app].
  destruct (_ <? _); [discriminate|]. cbn [bind negb]. destruct (_ =? _)%nat; [discriminate|].
  rewrite batch_check_spec. destruct (triples msg (subsigs m)); [discriminate|].
  destruct (forallb _ _); discriminate.
Qed.

(** ** Completeness *)

Definition partial_sig (sc : scheme) (msg : bytes) (t : N) (pks : list bytes) (sk : bytes) : multisig :=
  mkMsig 1 t (map (fun pk => mkSubsig pk
     (if bytes_eqb (public sc sk) pk then Some (sign_with sc sk msg) else None)) pks).

Lemma sign_spec H sc msg t pks sk addr :
  from_pks H 1 t pks = Ok addr -> In (public sc sk) pks ->
  sign H sc addr msg 1 t pks sk = Ok (partial_sig sc msg t pks sk).
Proof.
  intros Ea Hin. unfold sign. cbn [N.eqb Pos.eqb negb]. rewrite Ea. cbn [bind].
  rewrite bytes_eqb_refl. cbn [negb].
  assert (existsb (bytes_eqb (public sc sk)) pks = true) as ->.
  { apply existsb_exists. eexists; split; [exact Hin|apply bytes_eqb_refl]. }
  reflexivity.
Qed.

Lemma same_keys_ok a b : map key a = map key b -> forall n i, (i + n <= length a)%nat ->
  same_keys a b i n = Ok tt.
Proof.
  intros E. induction n as [|n IH]; intros i Hi; cbn [same_keys]; [reflexivity|].
  pose proof (f_equal (fun l => nth_error l i) E) as Ei. cbv beta in Ei. rewrite !nth_error_map in Ei.
  destruct (nth_error a i) as [x|] eqn:Ea; [|apply nth_error_None in Ea; lia].
  destruct (nth_error b i) as [y|]; [|discriminate]. cbn in Ei. injection Ei as Ek.
  rewrite Ek, bytes_eqb_refl. cbn [negb]. apply IH. lia.
Qed.

Lemma all_match_partial sc msg t pks sk sks :
  all_match (partial_sig sc msg t pks sk) (map (partial_sig sc msg t pks) sks) = Ok tt.
Proof.
  induction sks as [|s sks IH]; [reflexivity|]. cbn [map all_match partial_sig threshold version subsigs].
  rewrite !N.eqb_refl, !map_length, Nat.eqb_refl. cbn [negb].
  rewrite same_keys_ok; [|rewrite !map_map; reflexivity|rewrite map_length; lia]. exact IH.
Qed.

(** The signature last written to a slot. *)
Fixpoint last_sig (acc : option bytes) (gs : list (option bytes)) : option bytes :=
  match gs with
  | [] => acc
  | g :: r => last_sig (match g with Some _ => g | None => acc end) r
  end.

Lemma overwrite_map f g pks :
  overwrite (map (fun pk => mkSubsig pk (f pk)) pks) (map (fun pk => mkSubsig pk (g pk)) pks) =
  Some (map (fun pk : bytes => mkSubsig pk (match g pk with Some _ => g pk | None => f pk end)) pks).
Proof.
  induction pks as [|pk pks IH]; [reflexivity|]. cbn [map overwrite]. rewrite IH.
  cbn [sig key]. destruct (g pk); reflexivity.
Qed.

Definition own_sig (sc : scheme) (msg sk pk : bytes) : option bytes :=
  if bytes_eqb (public sc sk) pk then Some (sign_with sc sk msg) else None.

Lemma overwrite_all_map sc msg t pks sks : forall f,
  overwrite_all (map (fun pk => mkSubsig pk (f pk)) pks) (map (partial_sig sc msg t pks) sks) =
  Some (map (fun pk => mkSubsig pk (last_sig (f pk) (map (fun sk => own_sig sc msg sk pk) sks))) pks).
Proof.
  induction sks as [|sk sks IH]; intros f; cbn [map overwrite_all]; [reflexivity|].
  cbn [partial_sig subsigs]. change (fun pk => mkSubsig pk (if bytes_eqb (public sc sk) pk then Some (sign_with sc sk msg) else None))
    with (fun pk => mkSubsig pk (own_sig sc msg sk pk)).
  rewrite overwrite_map. rewrite (IH (fun pk => match own_sig sc msg sk pk with Some _ => own_sig sc msg sk pk | None => f pk end)).
  reflexivity.
Qed.

Lemma last_sig_in gs : forall acc s, last_sig acc gs = Some s -> acc = Some s \/ In (Some s) gs.
Proof.
  induction gs as [|g gs IH]; intros acc s E; cbn in *; [auto|].
  destruct (IH _ _ E) as [E2|Hin]; [|auto]. destruct g; auto.
Qed.
Lemma last_sig_some gs : forall acc, (acc <> None \/ exists s, In (Some s) gs) -> last_sig acc gs <> None.
Proof.
  induction gs as [|g gs IH]; intros acc Hs; cbn.
  - destruct Hs as [Hs|[s []]]. exact Hs.
  - apply IH. destruct Hs as [Hs|[s [->|Hs]]].
    + left. destruct g; [discriminate|exact Hs].
    + left. discriminate.
    + right. eauto.
Qed.

Lemma filter_signed_count sc msg pks sks :
  NoDup (map (public sc) sks) -> Forall (fun sk => In (public sc sk) pks) sks ->
  (length sks <= length (filter is_signed
     (map (fun pk => mkSubsig pk (last_sig None (map (fun sk => own_sig sc msg sk pk) sks))) pks)))%nat.
Proof.
  intros Hn Hin. rewrite <- (map_length (public sc)).
  set (F := filter is_signed _).
  rewrite <- (map_length key F).
  apply NoDup_incl_length; [exact Hn|]. intros k Hk. apply in_map_iff in Hk as (sk & <- & Hsk).
  rewrite Forall_forall in Hin. specialize (Hin _ Hsk).
  apply in_map_iff. exists (mkSubsig (public sc sk) (last_sig None (map (fun s => own_sig sc msg s (public sc sk)) sks))).
  split; [reflexivity|]. unfold F. apply filter_In. split.
  - apply in_map_iff. eauto.
  - unfold is_signed. cbn [sig]. destruct (last_sig None _) eqn:E; [reflexivity|]. exfalso.
    revert E. apply last_sig_some. right. exists (sign_with sc sk msg). apply in_map_iff. exists sk.
    split; [|exact Hsk]. unfold own_sig. rewrite bytes_eqb_refl. reflexivity.
Qed.

Lemma completeness_lemma H sc (Hc : scheme_correct sc) msg t pks sks addr :
  from_pks H 1 t pks = Ok addr -> (length pks <= 255)%nat ->
  nth_error pks 0 <> Some default_key ->
  NoDup (map (public sc) sks) -> Forall (fun sk => In (public sc sk) pks) sks ->
  (2 <= length sks)%nat -> t <= N.of_nat (length sks) ->
  exists parts m, Forall2 (fun sk p => sign H sc addr msg 1 t pks sk = Ok p) sks parts /\
    assemble parts = Ok m /\ verify H sc m msg addr = Ok true.
Proof.
  intros Ea Hl Hd Hn Hin H2 Ht.
  exists (map (partial_sig sc msg t pks) sks).
  exists (mkMsig 1 t (map (fun pk => mkSubsig pk (last_sig None (map (fun sk => own_sig sc msg sk pk) sks))) pks)).
  split; [|split].
  - clear Hn H2 Ht. induction sks as [|sk sks IH]; cbn [map]; constructor.
    + exact (sign_spec H sc msg t pks sk addr Ea (Forall_inv Hin)).
    + exact (IH (Forall_inv_tail Hin)).
  - unfold assemble. rewrite map_length. destruct (Nat.ltb_spec (length sks) 2) as [?|_]; [lia|].
    destruct sks as [|sk sks]; [cbn in H2; lia|]. cbn [map]. rewrite all_match_partial. cbn [bind].
    change (partial_sig sc msg t pks sk :: map (partial_sig sc msg t pks) sks)
      with (map (partial_sig sc msg t pks) (sk :: sks)).
    cbn [partial_sig subsigs version threshold]. rewrite map_map. cbn [key].
    rewrite (overwrite_all_map sc msg t pks (sk :: sks) (fun _ => None)). reflexivity.
  - apply verify_lemma.
    + unfold first_slot_not_blank. cbn [subsigs]. rewrite nth_error_map. destruct (nth_error pks 0) as [pk|]; [|discriminate].
      cbn. intros E. injection E as E _. apply Hd. congruence.
    + apply from_pks_spec in Ea as (_ & Hb & ->). unfold acceptable, keys. cbn [version threshold subsigs].
      rewrite signed_slots_spec, map_map, map_length. cbn [subsigs].
      change (map (fun x => key (mkSubsig x _)) pks) with (map (fun x : bytes => x) pks). rewrite map_id.
      repeat split; auto; try lia.
      * pose proof (filter_signed_count sc msg pks sks Hn Hin). lia.
      * intros i k s (e & Ee & Ek) (e' & Ee' & Es). assert (e' = e) as -> by congruence.
        cbn [subsigs] in Ee. rewrite nth_error_map in Ee. destruct (nth_error pks i) as [pk|]; [|discriminate].
        cbn in Ee. injection Ee as <-. cbn [key sig] in *. subst k.
        apply last_sig_in in Es as [?|Hs]; [discriminate|].
        apply in_map_iff in Hs as (sk & Hs & _). unfold own_sig in Hs.
        destruct (bytes_eqb_reflect (public sc sk) pk) as [<-|_]; [|discriminate]. injection Hs as <-. apply Hc.
Qed.

(** ** Merging *)

Lemma same_keys_spec a b : length a = length b -> forall n i, (i + n = length a)%nat ->
  (same_keys a b i n = Ok tt /\ map key (skipn i a) = map key (skipn i b)) \/
  (same_keys a b i n = Err KeysDontMatch /\ map key (skipn i a) <> map key (skipn i b)).
Proof.
  intros Hl. induction n as [|n IH]; intros i Hi; cbn [same_keys].
  - left. rewrite !skipn_all2 by lia. auto.
  - assert (Hsk : forall (l : list subsig) x, nth_error l i = Some x -> skipn i l = x :: skipn (S i) l).
    { clear. revert i. intros i l. revert i. induction l as [|y l IH]; intros [|i] x E; try discriminate.
      - injection E as ->. reflexivity.
      - cbn in E. cbn [skipn]. rewrite (IH _ _ E). reflexivity. }
    destruct (nth_error a i) as [x|] eqn:Ea; [|apply nth_error_None in Ea; lia].
    destruct (nth_error b i) as [y|] eqn:Eb; [|apply nth_error_None in Eb; lia].
    rewrite (Hsk _ _ Ea), (Hsk _ _ Eb). cbn [map].
    destruct (bytes_eqb_reflect (key x) (key y)) as [Ek|Ek]; cbn [negb].
    + destruct (IH (S i) ltac:(lia)) as [[E1 E2]|[E1 E2]]; [left|right]; (split; [exact E1|]).
      * rewrite Ek, E2. reflexivity.
      * intros E. injection E as _ E. contradiction.
    + right. split; [reflexivity|]. intros E. injection E as E _. contradiction.
Qed.

Lemma matches_spec a b : matches a b (length (subsigs a)) <> Panic /\
  (matches a b (length (subsigs a)) = Ok tt <-> same_preimage a b).
Proof.
  unfold matches, same_preimage, keys.
  destruct (N.eqb_spec (threshold a) (threshold b)) as [Et|Et]; cbn [negb].
  2:{ split; [discriminate|]. split; [discriminate|]. intros (_ & ? & _). contradiction. }
  destruct (N.eqb_spec (version a) (version b)) as [Ev|Ev]; cbn [negb].
  2:{ split; [discriminate|]. split; [discriminate|]. intros (? & _ & _). contradiction. }
  destruct (Nat.eqb_spec (length (subsigs a)) (length (subsigs b))) as [El|El]; cbn [negb].
  2:{ split; [discriminate|]. split; [discriminate|]. intros (_ & _ & E). exfalso. apply El.
      apply (f_equal (@length _)) in E. rewrite !map_length in E. exact E. }
  destruct (same_keys_spec (subsigs a) (subsigs b) El (length (subsigs a)) 0 eq_refl) as [[-> E]|[-> E]];
    cbn [skipn] in E; (split; [discriminate|]).
  - split; [|reflexivity]. auto.
  - split; [discriminate|]. intros (_ & _ & E'). contradiction.
Qed.

Lemma merge_slots_spec a : forall b, length a = length b ->
  (exists c, merge_slots a b = Ok c /\ map key c = map key a /\
     forall i, nth_error (map sig c) i = match nth_error (map sig a) i with
                                        | Some None => nth_error (map sig b) i
                                        | x => x end /\
       (forall s s', nth_error (map sig a) i = Some (Some s) -> nth_error (map sig b) i = Some (Some s') -> s = s')) \/
  (merge_slots a b = Err InvalidDuplicates /\
     exists i s s', nth_error (map sig a) i = Some (Some s) /\ nth_error (map sig b) i = Some (Some s') /\ s <> s').
Proof.
  induction a as [|x a IH]; intros [|y b] Hl; try discriminate; cbn [merge_slots].
  - left. exists []. split; [reflexivity|]. split; [reflexivity|]. intros i.
    split; [destruct i; reflexivity|]. intros s s' E. destruct i; discriminate.
  - cbn in Hl. specialize (IH b ltac:(lia)).
    assert (Hx : (exists s, (match sig x with
              | None => match sig y with Some g => Ok (Some g) | None => Ok None end
              | Some g => if negb (is_signed y) || opt_eqb (sig y) (sig x)
                          then Ok (Some g) else Err InvalidDuplicates
              end) = @Ok multisig_error _ s /\ s = match sig x with None => sig y | z => z end /\
              (forall u u', sig x = Some u -> sig y = Some u' -> u = u')) \/
       ((match sig x with
              | None => match sig y with Some g => Ok (Some g) | None => Ok None end
              | Some g => if negb (is_signed y) || opt_eqb (sig y) (sig x)
                          then Ok (Some g) else Err InvalidDuplicates
              end) = @Err multisig_error (option bytes) InvalidDuplicates /\ exists u u', sig x = Some u /\ sig y = Some u' /\ u <> u')).
    { unfold is_signed. destruct (sig x) as [u|], (sig y) as [u'|]; cbn [negb orb opt_eqb].
      - destruct (bytes_eqb_reflect u' u) as [->|Hne].
        + left. exists (Some u). repeat split; congruence.
        + right. split; [reflexivity|]. exists u, u'. repeat split; congruence.
      - left. eexists; repeat split; congruence.
      - left. eexists; repeat split; congruence.
      - left. eexists; repeat split; congruence. }
    destruct Hx as [(s & -> & Es & Hs)|(-> & u & u' & Eu & Eu' & Hne)]; cbn [bind].
    2:{ right. split; [reflexivity|]. exists O, u, u'. cbn. rewrite Eu, Eu'. auto. }
    destruct IH as [(c & -> & Ek & Hc)|(-> & i & u & u' & Hu & Hu' & Hne)]; cbn [bind].
    + left. exists (mkSubsig (key x) s :: c). split; [reflexivity|]. split; [cbn; congruence|].
      intros [|i]; cbn [map nth_error].
      * cbn [sig]. subst s. split; [destruct (sig x), (sig y); reflexivity|].
        intros u u' E1 E2. apply Hs; congruence.
      * apply Hc.
    + right. split; [reflexivity|]. exists (S i), u, u'. auto.
Qed.

Lemma slot_sig_map m i s : slot_sig m i s <-> nth_error (map sig (subsigs m)) i = Some (Some s).
Proof.
  unfold slot_sig. rewrite nth_error_map. destruct (nth_error (subsigs m) i) as [e|]; cbn.
  - split; [intros (e' & E & Es); injection E as <-; congruence|]. intros E. injection E as E. eauto.
  - split; [intros (e' & E & _); discriminate|discriminate].
Qed.

Lemma merge_lemma a b :
  merge a b <> Panic /\
  ((exists c, merge a b = Ok c) <-> same_preimage a b /\ ~ slot_conflict a b) /\
  (forall c, merge a b = Ok c ->
     same_preimage a c /\ forall i s, slot_sig c i s <-> slot_sig a i s \/ slot_sig b i s).
Proof.
  unfold merge. destruct (matches_spec a b) as [Hnp Hmt].
  destruct (matches a b (length (subsigs a))) as [[]|e|]; cbn [bind]; [| |contradiction].
  2:{ split; [discriminate|]. split; [|discriminate].
      split; [intros (c & E); discriminate|]. intros [Hsame _]. apply Hmt in Hsame. discriminate. }
  pose proof (proj1 Hmt eq_refl) as Hsame. destruct Hsame as (Hv & Ht & Hk).
  assert (Hl : length (subsigs a) = length (subsigs b)).
  { apply (f_equal (@length _)) in Hk. unfold keys in Hk. rewrite !map_length in Hk. exact Hk. }
  destruct (merge_slots_spec (subsigs a) (subsigs b) Hl) as [(c & -> & Ek & Hc)|(-> & i & s & s' & Es & Es' & Hne)];
    cbn [bind]; (split; [discriminate|split]).
  - split; [|eauto]. intros _. split; [repeat split; assumption|].
    intros (i & s & s' & Hs & Hs' & Hne). apply Hne. apply slot_sig_map in Hs, Hs'.
    apply (proj2 (Hc i)); assumption.
  - intros c' E. injection E as <-. split; [repeat split; cbn [version threshold keys subsigs]|].
    + unfold keys. cbn [subsigs]. congruence.
    + intros i s. rewrite !slot_sig_map. cbn [subsigs]. destruct (Hc i) as [-> Hcc].
      destruct (nth_error (map sig (subsigs a)) i) as [[u|]|] eqn:Eu.
      * split; [auto|]. intros [?|E']; [assumption|]. rewrite (Hcc u s eq_refl E'). reflexivity.
      * split; [auto|]. intros [?|?]; [discriminate|assumption].
      * split; [discriminate|]. intros [?|E']; [discriminate|]. exfalso.
        apply nth_error_None in Eu. assert (i < length (map sig (subsigs b)))%nat by (apply nth_error_Some; congruence).
        rewrite map_length in *. lia.
  - split; [intros (c & E); discriminate|]. intros [_ Hnc]. exfalso. apply Hnc.
    exists i, s, s'. rewrite !slot_sig_map. auto.
  - discriminate.
Qed.

(** ** Addresses *)

Lemma concat_inj (a : list bytes) : forall b, Forall (fun k => length k = 32%nat) a ->
  Forall (fun k => length k = 32%nat) b -> concat a = concat b -> a = b.
Proof.
  induction a as [|x a IH]; intros [|y b] Ha Hb E; cbn in E.
  - reflexivity.
  - apply Forall_inv in Hb. destruct y; discriminate.
  - apply Forall_inv in Ha. destruct x; discriminate.
  - apply app_inj_length in E as [-> E]; [|rewrite (Forall_inv Ha), (Forall_inv Hb); reflexivity].
    f_equal. apply IH; [exact (Forall_inv_tail Ha)|exact (Forall_inv_tail Hb)|exact E].
Qed.

Lemma address_string_inj v t pks v' t' pks' :
  v < 256 -> t < 256 -> v' < 256 -> t' < 256 ->
  Forall (fun k => length k = 32%nat) pks -> Forall (fun k => length k = 32%nat) pks' ->
  address_string v t pks = address_string v' t' pks' -> v = v' /\ t = t' /\ pks = pks'.
Proof.
  intros Hv Ht Hv' Ht' Hp Hp' E. unfold address_string in E. apply app_inv_head in E.
  cbn [app] in E. injection E as E1 E2 E3. apply b8_inj in E1, E2; try assumption.
  apply concat_inj in E3; auto.
Qed.

Lemma address_lemma H v t pks v' t' pks' a :
  v < 256 -> t < 256 -> v' < 256 -> t' < 256 ->
  Forall (fun k => length k = 32%nat) pks -> Forall (fun k => length k = 32%nat) pks' ->
  from_pks H v t pks = Ok a -> from_pks H v' t' pks' = Ok a ->
  (v = v' /\ t = t' /\ pks = pks') \/
  collision_in H [address_string v t pks] [address_string v' t' pks'].
Proof.
  intros Hv Ht Hv' Ht' Hp Hp' E E'. apply from_pks_spec in E as (_ & _ & ->), E' as (_ & _ & E').
  destruct (bytes_eq_dec (address_string v t pks) (address_string v' t' pks')) as [Eq|Hne].
  - left. apply address_string_inj; assumption.
  - right. do 2 eexists. split; [left; reflexivity|]. split; [left; reflexivity|]. auto.
Qed.

(** ** Distinct signers *)

Lemma distinct_lemma H sc m msg addr :
  NoDup (keys m) -> verify H sc m msg addr = Ok true ->
  signers_at_least m (threshold m).
Proof.
  intros Hn E.
  assert (Hb : first_slot_not_blank m).
  { unfold first_slot_not_blank. intros Hb. rewrite verify_blank_lemma in E; [discriminate|].
    intros Hx. apply Hx. exact Hb. }
  apply verify_lemma in E; [|exact Hb]. destruct E as (_ & _ & _ & _ & (is & Hni & Hl & Hs) & _).
  exists (map (fun i => nth i (keys m) []) is).
  assert (Hlt : forall i, In i is -> (i < length (keys m))%nat).
  { intros i Hi. destruct (Hs i Hi) as (s & e & Ee & _). unfold keys. rewrite map_length.
    apply nth_error_Some. congruence. }
  split; [|split].
  - clear Hl Hs. induction is as [|i is IH]; [constructor|]. inversion Hni as [|? ? Hx Hni']; subst.
    cbn. constructor.
    + intros Hin. apply in_map_iff in Hin as (j & Ej & Hj). apply Hx.
      apply (proj1 (NoDup_nth _ _) Hn) in Ej.
      * subst. exact Hj.
      * apply Hlt. right. exact Hj.
      * apply Hlt. left. reflexivity.
    + apply IH; [exact Hni'|]. intros j Hj. apply Hlt. right. exact Hj.
  - rewrite map_length. exact Hl.
  - intros k Hk. apply in_map_iff in Hk as (i & <- & Hi). destruct (Hs i Hi) as (s & e & Ee & Es).
    exists i, s. split; [|exists e; auto]. exists e. split; [exact Ee|].
    unfold keys. rewrite (nth_indep _ _ (key e)) by (apply Hlt; exact Hi).
    rewrite map_nth. rewrite (nth_error_nth _ _ _ Ee). reflexivity.
Qed.

(** ** Adding signatures in place *)

Lemma add_slots_ok slots : forall new slots', length slots = length new ->
  add_slots slots new = (slots', Ok tt) ->
  map key slots' = map key slots /\
  forall i s, nth_error (map sig slots') i = Some (Some s) <->
     nth_error (map sig slots) i = Some (Some s) \/ nth_error (map sig new) i = Some (Some s).
Proof.
  induction slots as [|a slots IH]; intros [|n new] slots' Hl E; try discriminate; cbn [add_slots] in E.
  - injection E as <-. split; [reflexivity|]. intros [|i] s; cbn; split; auto; intros [?|?]; discriminate.
  - cbn in Hl. assert (Hstep : exists c r, slots' = c :: r /\ add_slots slots new = (r, Ok tt) /\ key c = key a /\
       (forall s, sig c = Some s <-> sig a = Some s \/ sig n = Some s)).
    { destruct (add_slots slots new) as [r o].
      destruct (sig n) as [g|] eqn:En.
      - destruct (sig a) as [g'|] eqn:Ea.
        + destruct (bytes_eqb_reflect g' g) as [->|_]; [|discriminate].
          injection E as <- ->. exists a, r. repeat split; auto; intros; intuition congruence.
        + injection E as <- ->. eexists _, r. split; [reflexivity|]. split; [reflexivity|]. split; [reflexivity|].
          cbn. intros s. intuition congruence.
      - injection E as <- ->. exists a, r. repeat split; auto; intros; intuition congruence. }
    destruct Hstep as (c & r & -> & E2 & Ek & Es). destruct (IH new r ltac:(lia) E2) as [Ekr Hr].
    split; [cbn; congruence|]. intros [|i] s; cbn [map nth_error]; [|apply Hr].
    specialize (Es s). split.
    + intros X. injection X as X. apply Es in X as [X|X]; [left|right]; congruence.
    + intros [X|X]; injection X as X; f_equal; apply Es; auto.
Qed.

Lemma add_all_ok us : forall slots slots', Forall (fun u => length (subsigs u) = length slots) us ->
  add_all slots us = (slots', Ok tt) ->
  map key slots' = map key slots /\
  forall i s, nth_error (map sig slots') i = Some (Some s) <->
     nth_error (map sig slots) i = Some (Some s) \/ exists u, In u us /\ slot_sig u i s.
Proof.
  induction us as [|u us IH]; intros slots slots' Hl E; cbn [add_all] in E.
  - injection E as <-. split; [reflexivity|]. intros i s. split; [auto|]. intros [?|(u & [] & _)]. assumption.
  - destruct (add_slots slots (subsigs u)) as [r [[]|e|]] eqn:E1; try discriminate.
    apply add_slots_ok in E1 as [Ek Hr]; [|symmetry; exact (Forall_inv Hl)].
    assert (Hlr : length r = length slots).
    { apply (f_equal (@length _)) in Ek. rewrite !map_length in Ek. exact Ek. }
    apply IH in E as [Ek' Hr']; [|rewrite Hlr; exact (Forall_inv_tail Hl)].
    split; [congruence|]. intros i s. rewrite Hr', Hr. split.
    + intros [[?|Hu]|(v & Hv & Hs)]; [auto| |right; exists v; split; [right; exact Hv|exact Hs]].
      right. exists u. split; [left; reflexivity|]. apply slot_sig_map. exact Hu.
    + intros [?|(v & [<-|Hv] & Hs)]; [auto| |right; eauto]. left. right. apply slot_sig_map. exact Hs.
Qed.

Lemma match_all_spec self us n : n = length (subsigs self) ->
  match_all self us n <> Panic /\
  (match_all self us n = Ok tt -> Forall (same_preimage self) us).
Proof.
  intros ->. induction us as [|u us [IH1 IH2]]; cbn [match_all]; [split; [discriminate|constructor]|].
  destruct (matches_spec self u) as [Hnp Hm].
  destruct (matches self u (length (subsigs self))) as [[]|e|]; cbn [bind]; [|split; discriminate|contradiction].
  split; [exact IH1|]. intros E. constructor; [apply Hm; reflexivity|apply IH2; exact E].
Qed.

Lemma same_preimage_length a b : same_preimage a b -> length (subsigs a) = length (subsigs b).
Proof.
  intros (_ & _ & Hk). apply (f_equal (@length _)) in Hk. unfold keys in Hk. rewrite !map_length in Hk. exact Hk.
Qed.

Lemma add_sigs_lemma self us self' :
  add_sigs self us = (self', Ok tt) ->
  Forall (same_preimage self) us /\ same_preimage self self' /\
  forall i s, slot_sig self' i s <-> slot_sig self i s \/ exists u, In u us /\ slot_sig u i s.
Proof.
  unfold add_sigs. destruct us as [|u0 us]; [discriminate|]. intros E.
  assert (Hn : match_all self (u0 :: us) (length (subsigs u0)) = Ok tt -> length (subsigs u0) = length (subsigs self)).
  { cbn [match_all]. unfold matches. destruct (negb _); [discriminate|]. destruct (negb _); [discriminate|].
    destruct (Nat.eqb_spec (length (subsigs self)) (length (subsigs u0))) as [El|_]; [|discriminate]. auto. }
  destruct (match_all self (u0 :: us) (length (subsigs u0))) as [[]|e|] eqn:Em; try discriminate.
  specialize (Hn eq_refl). destruct (match_all_spec self (u0 :: us) _ Hn) as [_ Hsame]. specialize (Hsame Em).
  destruct (add_all (subsigs self) (u0 :: us)) as [slots o] eqn:Ea. injection E as <- ->.
  apply add_all_ok in Ea as [Ek Hs].
  2:{ eapply Forall_impl; [|exact Hsame]. intros u Hu. symmetry. apply same_preimage_length. exact Hu. }
  split; [exact Hsame|]. split.
  - repeat split. unfold keys. cbn [subsigs]. congruence.
  - intros i s. rewrite !slot_sig_map. cbn [subsigs]. apply Hs.
Qed.
