(** Proofs about one-time signatures. *)
From Verif Require Import Base BaseFacts MsgpackModel MsgpackProofs OtsModel OtsSpec.
Local Open Scope N_scope.

Lemma add64_ok md a b : a + b < two64 -> add64 md a b = Some (a + b).
Proof. intros Hlt. unfold add64. destruct (N.ltb_spec (a + b) two64); [reflexivity|lia]. Qed.
Lemma sub64_ok md a b : b <= a -> sub64 md a b = Some (a - b).
Proof. intros Hle. unfold sub64. destruct (N.leb_spec b a); [reflexivity|lia]. Qed.
Lemma max64_two64 : max64 = two64 - 1.
Proof. reflexivity. Qed.
Lemma two64_pos : 1 < two64.
Proof. reflexivity. Qed.

Lemma range_length lo hi : length (range lo hi) = N.to_nat (hi - lo).
Proof. unfold range. rewrite map_length, seq_length. reflexivity. Qed.
Lemma range_nth lo hi j : (j < N.to_nat (hi - lo))%nat -> nth_error (range lo hi) j = Some (lo + N.of_nat j).
Proof.
  intros Hj. unfold range. rewrite nth_error_map, (nth_error_nth' _ 0%nat) by (rewrite seq_length; exact Hj).
  rewrite seq_nth by exact Hj. reflexivity.
Qed.

Lemma nth_error_skipn {A} (l : list A) : forall k j, nth_error (skipn k l) j = nth_error l (k + j).
Proof.
  induction l as [|x l IH]; intros [|k] j; cbn [skipn]; try reflexivity.
  - destruct j; reflexivity.
  - apply IH.
Qed.

Section Scheme.
  Context (sc : scheme) (md : mode) (master : bytes) (start : N) (eks : list bytes).
  Local Notation n := (N.of_nat (length eks)).

  (** The batch key list made by [generate]. *)
  Definition batch_key (i : nat) (e : bytes) : subkey :=
    mkSubkey e (sign_with sc master (batch_id_rep (public sc e) (start + N.of_nat i))).

  Lemma make_batches_spec l : forall i, start + i + N.of_nat (length l) <= two64 ->
    exists ks, make_batches sc md master start i l = Some ks /\ length ks = length l /\
      forall j e, nth_error l j = Some e ->
        nth_error ks j = Some (mkSubkey e (sign_with sc master (batch_id_rep (public sc e) (start + i + N.of_nat j)))).
  Proof.
    induction l as [|e l IH]; intros i Hi; cbn [make_batches].
    - exists []. split; [reflexivity|]. split; [reflexivity|]. intros [|j] e E; discriminate.
    - cbn [length] in Hi. rewrite add64_ok by lia. destruct (IH (i + 1) ltac:(lia)) as (ks & -> & Hl & Hks).
      eexists. split; [reflexivity|]. split; [cbn; lia|]. intros [|j] e' E; cbn in E |- *.
      + injection E as ->. rewrite N.add_0_r. reflexivity.
      + rewrite (Hks _ _ E).
        replace (start + (i + 1) + N.of_nat j) with (start + i + N.of_nat (S j)) by lia. reflexivity.
  Qed.

  Definition live (st : secrets) (id : identifier) : Prop :=
    (batch id + 1 = first_batch st /\ first_offset st <= offset id < first_offset st + N.of_nat (length (offsets st))) \/
    (first_batch st <= batch id < first_batch st + N.of_nat (length (batches st))).

  Record inv (ds : list deletion) (st : secrets) : Prop := {
    inv_verifier : verifier st = public sc master;
    inv_start : start <= first_batch st;
    inv_end : batches st <> [] -> first_batch st + N.of_nat (length (batches st)) = start + n;
    inv_batches : forall j k, nth_error (batches st) j = Some k ->
      exists e, nth_error eks (N.to_nat (first_batch st - start) + j) = Some e /\
        k = batch_key (N.to_nat (first_batch st - start) + j) e;
    inv_fresh : batches st <> [] -> forall d, In d ds -> batch (cur d) < first_batch st;
    inv_offsets : forall j k, nth_error (offsets st) j = Some k ->
      exists d sk2, In d ds /\ batch (cur d) + 1 = first_batch st /\
        secret k = rng d (first_offset st + N.of_nat j) /\ first_offset st + N.of_nat j < per_batch d /\
        offsets_pk2 st = public sc sk2 /\
        offsets_pk2_sig st = sign_with sc master (batch_id_rep (public sc sk2) (batch (cur d))) /\
        pk_sig_new k = sign_with sc sk2 (offset_id_rep (public sc (secret k)) (batch (cur d)) (first_offset st + N.of_nat j));
    inv_live : forall id, live st id <-> available start n ds id
  }.

  Lemma generate_inv : start + n <= two64 ->
    exists st, generate sc md master start eks = Some st /\ inv [] st.
  Proof.
    intros Hn. unfold generate. destruct (make_batches_spec eks 0 ltac:(lia)) as (ks & -> & Hl & Hks).
    eexists. split; [reflexivity|]. constructor; cbn [verifier first_batch batches first_offset offsets offsets_pk2 offsets_pk2_sig].
    - reflexivity.
    - lia.
    - intros _. rewrite Hl. reflexivity.
    - intros j k Hk. rewrite N.sub_diag. cbn [N.to_nat plus].
      destruct (nth_error eks j) as [e|] eqn:E.
      + exists e. split; [reflexivity|]. rewrite (Hks _ _ E) in Hk. injection Hk as <-. unfold batch_key.
        rewrite N.add_0_r. reflexivity.
      + exfalso. apply nth_error_None in E. assert (j < length ks)%nat by (apply nth_error_Some; congruence). lia.
    - intros _ d [].
    - intros j k Hk. destruct j; discriminate.
    - intros id. unfold live, available. cbn [first_batch offsets batches length find In]. rewrite Hl. split.
      + intros [[_ H]|H]; [cbn in H; lia|]. split; [lia|]. split; [tauto|exact I].
      + intros (H & _ & _). right. lia.
  Qed.

  Lemma available_snoc ds d id :
    available start n (ds ++ [d]) id <->
    available start n ds id /\ id_le (cur d) id /\
    (batch (cur d) = batch id -> find (fun d => batch (cur d) =? batch id) ds = None -> offset id < per_batch d).
  Proof.
    unfold available.
    assert (Ef : find (fun d => batch (cur d) =? batch id) (ds ++ [d]) =
      match find (fun d => batch (cur d) =? batch id) ds with
      | Some x => Some x
      | None => if batch (cur d) =? batch id then Some d else None
      end).
    { induction ds as [|x ds IH]; cbn [app find]; [reflexivity|]. destruct (batch (cur x) =? batch id); [reflexivity|exact IH]. }
    rewrite Ef. split.
    - intros (Hb & Hd & Hf). split; [split; [exact Hb|split]|split].
      + intros x Hx. apply Hd, in_app_iff. auto.
      + destruct (find _ ds); [exact Hf|exact I].
      + apply Hd, in_app_iff. right. left. reflexivity.
      + intros E Hn. rewrite Hn in Hf. rewrite E, N.eqb_refl in Hf. exact Hf.
    - intros ((Hb & Hd & Hf) & Hle & Hx). split; [exact Hb|split].
      + intros x Hin. apply in_app_iff in Hin as [Hin|[<-|[]]]; auto.
      + destruct (find _ ds); [exact Hf|]. destruct (N.eqb_spec (batch (cur d)) (batch id)); auto.
  Qed.

  Lemma find_none ds b : (forall d, In d ds -> batch (cur d) <> b) -> find (fun d => batch (cur d) =? b) ds = None.
  Proof.
    intros Hd. destruct (find _ ds) as [x|] eqn:E; [|reflexivity]. apply find_some in E as [Hin E].
    apply N.eqb_eq in E. exfalso. exact (Hd x Hin E).
  Qed.

  (** What one deletion does to the live identifiers, and the invariant. *)
  Lemma delete_inv ds st d :
    inv ds st -> batch (cur d) < max64 -> u64 (offset (cur d)) -> u64 (per_batch d) ->
    exists st', delete_before sc md st (cur d) (per_batch d) (rng d) = Some st' /\ inv (ds ++ [d]) st'.
  Proof.
    intros Hi Hcb Hco Hpb. destruct Hi as [Hv Hs He Hb Hf Ho Hl].
    unfold u64 in *. pose proof max64_two64. pose proof two64_pos.
    (* live characterisation suffices *)
    assert (Hstep : forall st', (forall id, live st' id <-> live st id /\ id_le (cur d) id /\
         (batch (cur d) = batch id -> first_batch st <= batch id -> offset id < per_batch d)) ->
         forall id, live st' id <-> available start n (ds ++ [d]) id).
    { intros st' Hst id. rewrite Hst, available_snoc, <- Hl. split.
      - intros (Hli & Hle & Hx). split; [exact Hli|]. split; [exact Hle|]. intros E Hn.
        destruct (N.le_gt_cases (first_batch st) (batch id)) as [Hge|Hlt]; [auto|].
        exfalso. destruct Hli as [[Eb Hoff]|Hbat]; [|lia].
        destruct (nth_error (offsets st) (N.to_nat (offset id - first_offset st))) as [k|] eqn:Ek.
        2:{ apply nth_error_None in Ek. lia. }
        destruct (Ho _ _ Ek) as (d0 & _ & Hin & Ed & _).
        pose proof (List.find_none _ _ Hn d0 Hin) as Hne. cbv beta in Hne. apply N.eqb_neq in Hne. lia.
      - intros (Hli & Hle & Hx). split; [exact Hli|]. split; [exact Hle|]. intros E Hge.
        apply Hx; [exact E|]. apply find_none. intros x Hin. destruct Hli as [[Eb _]|Hbat]; [lia|].
        assert (batches st <> []) as Hne by (destruct (batches st); [cbn in Hbat; lia|discriminate]).
        specialize (Hf Hne x Hin). lia. }
    unfold delete_before. rewrite add64_ok by lia.
    destruct (N.eqb_spec (batch (cur d) + 1) (first_batch st)) as [En|En].
    - (* same batch *)
      destruct (N.ltb_spec (first_offset st) (offset (cur d))) as [Hlt|Hge].
      + set (jump := N.min _ _). rewrite add64_ok by lia. eexists. split; [reflexivity|].
        set (st' := mkSecrets _ _ _ _ _ _ _).
        assert (Hlen : N.of_nat (length (offsets st')) = N.of_nat (length (offsets st)) - jump).
        { unfold st'. cbn [offsets]. rewrite skipn_length. lia. }
        constructor.
        * exact Hv.
        * exact Hs.
        * exact He.
        * exact Hb.
        * intros Hne x Hin. apply in_app_iff in Hin as [Hin|[<-|[]]]; [exact (Hf Hne x Hin)|]. cbn. lia.
        * intros j k Hk. unfold st' in Hk. cbn [offsets] in Hk. rewrite nth_error_skipn in Hk.
          destruct (Ho _ _ Hk) as (d0 & sk2 & Hin & Ed & E1 & E2 & E3 & E4 & E5).
          exists d0, sk2. unfold st'. cbn [first_batch first_offset offsets_pk2 offsets_pk2_sig].
          replace (first_offset st + jump + N.of_nat j) with (first_offset st + N.of_nat (N.to_nat jump + j)) by lia.
          split; [apply in_app_iff; auto|]. auto 10.
        * apply Hstep. intros id. unfold live. rewrite Hlen. unfold st'. cbn [first_batch first_offset batches].
          unfold id_le. unfold jump. clear - En Hlt. split.
          { intros [[E H]|H].
            - split; [left; lia|]. split; [right; lia|]. lia.
            - split; [right; lia|]. split; [left; lia|]. lia. }
          { intros ([[E H]|H] & Hle & _).
            - left. split; [exact E|]. lia.
            - right. exact H. }
      + exists st. split; [reflexivity|]. constructor; auto.
        * intros Hne x Hin. apply in_app_iff in Hin as [Hin|[<-|[]]]; [exact (Hf Hne x Hin)|]. lia.
        * intros j k Hk. destruct (Ho _ _ Hk) as (d0 & sk2 & Hin & Hr). exists d0, sk2.
          split; [apply in_app_iff; auto|exact Hr].
        * apply Hstep. intros id. unfold live, id_le. clear - En Hge. split; [|tauto].
          intros [[E H]|H]; (split; [tauto|]).
          { split; [right; lia|lia]. }
          { split; [left; lia|lia]. }
    - destruct (N.ltb_spec (batch (cur d) + 1) (first_batch st)) as [Hlt|Hge].
      + (* earlier: nothing *)
        exists st. split; [reflexivity|]. constructor; auto.
        * intros Hne x Hin. apply in_app_iff in Hin as [Hin|[<-|[]]]; [exact (Hf Hne x Hin)|]. lia.
        * intros j k Hk. destruct (Ho _ _ Hk) as (d0 & sk2 & Hin & Hr). exists d0, sk2.
          split; [apply in_app_iff; auto|exact Hr].
        * apply Hstep. intros id. unfold live, id_le. clear - Hlt. split; [|tauto].
          intros [[E H]|H]; (split; [tauto|]); (split; [left; lia|lia]).
      + (* forward *)
        rewrite sub64_ok by lia. set (jump := batch (cur d) - first_batch st).
        destruct (N.ltb_spec (N.of_nat (length (batches st))) jump) as [Hj|Hj].
        * destruct (batches st) as [|k0 ks] eqn:Ebs.
          { eexists. split; [reflexivity|]. constructor; cbn [verifier first_batch batches first_offset offsets offsets_pk2 offsets_pk2_sig].
            - exact Hv.
            - exact Hs.
            - intros []. reflexivity.
            - intros j k Hk. destruct j; discriminate.
            - intros []. reflexivity.
            - intros j k Hk. destruct j; discriminate.
            - apply Hstep. intros id. unfold live, id_le. cbn [verifier first_batch batches first_offset offsets length].
              rewrite Ebs. cbn [length]. clear - Hge En. lia. }
          { rewrite <- Ebs in *. assert (Hne0 : batches st <> []) by congruence.
            specialize (He Hne0). eexists. split; [reflexivity|].
            constructor; cbn [verifier first_batch batches first_offset offsets offsets_pk2 offsets_pk2_sig].
            - exact Hv.
            - lia.
            - intros []. reflexivity.
            - intros j k Hk. destruct j; discriminate.
            - intros []. reflexivity.
            - intros j k Hk. destruct j; discriminate.
            - apply Hstep. intros id. unfold live, id_le. cbn [first_batch batches first_offset offsets length].
              unfold jump in *. clear - Hge En Hj. lia. }
        * rewrite add64_ok by (unfold jump; lia).
          destruct (skipn (N.to_nat jump) (batches st)) as [|k rest] eqn:Esk.
          { assert (Hlen : (length (batches st) <= N.to_nat jump)%nat).
            { pose proof (skipn_length (N.to_nat jump) (batches st)) as X. rewrite Esk in X. cbn in X. lia. }
            eexists. split; [reflexivity|].
            constructor; cbn [verifier first_batch batches first_offset offsets offsets_pk2 offsets_pk2_sig].
            - exact Hv.
            - lia.
            - intros []. reflexivity.
            - intros j k Hk. destruct j; discriminate.
            - intros []. reflexivity.
            - intros j k Hk. destruct j; discriminate.
            - apply Hstep. intros id. unfold live, id_le. cbn [first_batch batches first_offset offsets length].
              unfold jump in *. clear - Hge En Hlen. lia. }
          rewrite add64_ok by (unfold jump; lia).
          assert (Hlen : N.of_nat (length (batches st)) = jump + 1 + N.of_nat (length rest)).
          { pose proof (skipn_length (N.to_nat jump) (batches st)) as X. rewrite Esk in X. cbn in X. lia. }
          assert (Hne0 : batches st <> []) by (intros E; rewrite E in Hlen; cbn in Hlen; lia).
          specialize (He Hne0).
          assert (Hnth : forall j, nth_error (batches st) (N.to_nat jump + j) = nth_error (k :: rest) j).
          { intros j. rewrite <- nth_error_skipn, Esk. reflexivity. }
          destruct (Hb (N.to_nat jump + 0)%nat k ltac:(rewrite Hnth; reflexivity)) as (e & Ee & Ek).
          replace (N.to_nat (first_batch st - start) + (N.to_nat jump + 0))%nat
            with (N.to_nat (batch (cur d) - start)) in Ee, Ek by lia.
          eexists. split; [reflexivity|].
          constructor; cbn [verifier first_batch batches first_offset offsets offsets_pk2 offsets_pk2_sig].
          { exact Hv. }
          { lia. }
          { intros _. lia. }
          { intros j kk Hk. specialize (Hb (N.to_nat jump + S j)%nat kk). rewrite Hnth in Hb. specialize (Hb Hk).
            replace (N.to_nat (first_batch st + jump + 1 - start) + j)%nat
              with (N.to_nat (first_batch st - start) + (N.to_nat jump + S j))%nat by lia. exact Hb. }
          { intros _ x Hin. apply in_app_iff in Hin as [Hin|[<-|[]]]; [|lia].
            specialize (Hf Hne0 x Hin). lia. }
          { intros j kk Hk. rewrite nth_error_map in Hk.
            destruct (nth_error (range (offset (cur d)) (per_batch d)) j) as [off|] eqn:Eoff; [|discriminate].
            cbn in Hk. injection Hk as <-.
            assert (Hjl : (j < N.to_nat (per_batch d - offset (cur d)))%nat)
              by (rewrite <- range_length; apply nth_error_Some; congruence).
            rewrite range_nth in Eoff by exact Hjl. injection Eoff as <-.
            exists d, (secret k). cbn [secret pk_sig_new].
            split; [apply in_app_iff; right; left; reflexivity|].
            split; [lia|]. split; [reflexivity|]. split; [lia|]. split; [reflexivity|]. split; [|reflexivity].
            rewrite Ek. unfold batch_key. cbn [secret pk_sig_new]. do 2 f_equal. lia. }
          { apply Hstep. intros id. unfold live, id_le. cbn [first_batch batches first_offset offsets].
            rewrite map_length, range_length. clear - Hge En Hlen. subst jump. lia. }
  Qed.

  Lemma run_app ds ds' st :
    run sc md (ds ++ ds') st = match run sc md ds st with Some st' => run sc md ds' st' | None => None end.
  Proof.
    revert st. induction ds as [|d ds IH]; intros st; cbn [app run]; [reflexivity|].
    destruct (delete_before _ _ _ _ _ _); [apply IH|reflexivity].
  Qed.

  Lemma run_inv ds : start + n <= two64 -> Forall del_ok ds ->
    exists st0 st, generate sc md master start eks = Some st0 /\ run sc md ds st0 = Some st /\ inv ds st.
  Proof.
    intros Hn. destruct (generate_inv Hn) as (st0 & Hg & Hi0).
    induction ds as [|d ds IH] using rev_ind; intros Hd.
    - exists st0, st0. auto.
    - apply Forall_app in Hd as [Hd Hd1]. destruct (IH Hd) as (st0' & st & Hg' & Hr & Hi).
      assert (st0' = st0) as -> by congruence.
      apply Forall_inv in Hd1. destruct Hd1 as (H1 & H2 & H3).
      destruct (delete_inv ds st d Hi H1 H2 H3) as (st' & E & Hi').
      exists st0, st'. split; [exact Hg|]. split; [|exact Hi']. rewrite run_app, Hr. cbn [run]. rewrite E. reflexivity.
  Qed.

  Lemma three_checks s1 m1 s2 m2 s3 m3 p1 p2 :
    check sc (public sc s3) m3 (sign_with sc s3 m3) && check sc (public sc s2) m2 (sign_with sc s2 m2) && check sc (public sc s1) m1 (sign_with sc s1 m1) = true \/
    self_refuted sc (mkOts (sign_with sc s1 m1) p1 p2 (sign_with sc s2 m2) (sign_with sc s3 m3)).
  Proof.
    destruct (check sc (public sc s3) m3 (sign_with sc s3 m3)) eqn:C3; [|right; exists s3, m3; cbn; auto].
    destruct (check sc (public sc s2) m2 (sign_with sc s2 m2)) eqn:C2; [|right; exists s2, m2; cbn; auto].
    destruct (check sc (public sc s1) m1 (sign_with sc s1 m1)) eqn:C1; [left; reflexivity|right; exists s1, m1; cbn; auto].
  Qed.
  (** Signing with a live identifier. *)
  Lemma sign_live_any ds st id msg fresh : inv ds st -> id_ok id -> live st id ->
    exists o, sign sc md st id msg fresh = Some o /\ (verify sc o id msg (verifier st) = true \/ self_refuted sc o).
  Proof.
    intros Hi [Hib Hio] Hli. destruct Hi as [Hv Hs He Hb Hf Ho Hl]. pose proof max64_two64. pose proof two64_pos.
    unfold sign. rewrite add64_ok by lia.
    destruct (((batch id + 1 =? first_batch st) && (first_offset st <=? offset id)
         && (offset id - first_offset st <? N.of_nat (length (offsets st))))) eqn:E1.
    - apply andb_true_iff in E1 as [E1 E3]. apply andb_true_iff in E1 as [E1 E2].
      apply N.eqb_eq in E1. apply N.leb_le in E2. apply N.ltb_lt in E3.
      eexists. split; [reflexivity|].
      set (j := N.to_nat (offset id - first_offset st)).
      destruct (nth_error (offsets st) j) as [k|] eqn:Ek; [|apply nth_error_None in Ek; lia].
      rewrite (nth_error_nth _ _ _ Ek). destruct (Ho _ _ Ek) as (d & sk2 & _ & Ed & _ & _ & F1 & F2 & F3).
      unfold verify. cbn [o_sig o_pk o_pk2 o_pk1_sig o_pk2_sig].
      replace (first_offset st + N.of_nat j) with (offset id) in F3 by lia.
      replace (batch (cur d)) with (batch id) in F2, F3 by lia.
      rewrite F1, F2, F3, Hv. apply three_checks.
    - destruct Hli as [[A B]|A].
      { exfalso. apply not_true_iff_false in E1. apply E1. rewrite !andb_true_iff, N.eqb_eq, N.leb_le, N.ltb_lt. lia. }
      destruct ((first_batch st <=? batch id) && (batch id - first_batch st <? N.of_nat (length (batches st)))) eqn:E2.
      2:{ exfalso. apply not_true_iff_false in E2. apply E2. rewrite andb_true_iff, N.leb_le, N.ltb_lt. lia. }
      eexists. split; [reflexivity|].
      set (j := N.to_nat (batch id - first_batch st)).
      destruct (nth_error (batches st) j) as [k|] eqn:Ek; [|apply nth_error_None in Ek; lia].
      rewrite (nth_error_nth _ _ _ Ek). destruct (Hb _ _ Ek) as (e & _ & ->).
      unfold verify, batch_key. cbn [o_sig o_pk o_pk2 o_pk1_sig o_pk2_sig secret pk_sig_new].
      replace (start + N.of_nat (N.to_nat (first_batch st - start) + j)) with (batch id) by lia.
      rewrite Hv. apply three_checks.
  Qed.
  Lemma sign_live ds st id msg fresh : scheme_correct sc -> inv ds st -> id_ok id -> live st id ->
    exists o, sign sc md st id msg fresh = Some o /\ verify sc o id msg (verifier st) = true.
  Proof.
    intros Hc Hi Hid Hli. destruct (sign_live_any ds st id msg fresh Hi Hid Hli) as (o & E & [V|(sk & m & C & _)]).
    - exists o. split; assumption.
    - rewrite Hc in C. discriminate.
  Qed.

  Lemma sign_dead st id msg fresh : id_ok id -> ~ live st id -> sign sc md st id msg fresh = Some null_ots.
  Proof.
    intros [Hib Hio] Hli. pose proof max64_two64. pose proof two64_pos. unfold sign. rewrite !add64_ok by lia.
    destruct (((batch id + 1 =? first_batch st) && (first_offset st <=? offset id)
         && (offset id - first_offset st <? N.of_nat (length (offsets st))))) eqn:E1.
    { exfalso. apply Hli. left. rewrite !andb_true_iff, N.eqb_eq, N.leb_le, N.ltb_lt in E1. lia. }
    destruct ((first_batch st <=? batch id) && (batch id - first_batch st <? N.of_nat (length (batches st)))) eqn:E2.
    { exfalso. apply Hli. right. rewrite andb_true_iff, N.leb_le, N.ltb_lt in E2. lia. }
    destruct (first_batch st =? batch id + 1); reflexivity.
  Qed.

  Lemma usable_any ds id msg fresh : start + n <= two64 -> Forall del_ok ds -> id_ok id ->
    exists st0 st, generate sc md master start eks = Some st0 /\ run sc md ds st0 = Some st /\
      verifier st = verifier st0 /\
      (available start n ds id ->
         exists o, sign sc md st id msg fresh = Some o /\ (verify sc o id msg (verifier st0) = true \/ self_refuted sc o)) /\
      (~ available start n ds id -> sign sc md st id msg fresh = Some null_ots).
  Proof.
    intros Hn Hd Hid. destruct (run_inv ds Hn Hd) as (st0 & st & Hg & Hr & Hi).
    assert (Ev : verifier st = verifier st0).
    { rewrite (inv_verifier _ _ Hi). destruct (generate_inv Hn) as (st0' & Hg' & Hi0).
      assert (st0' = st0) as -> by congruence. symmetry. apply (inv_verifier _ _ Hi0). }
    exists st0, st. split; [exact Hg|]. split; [exact Hr|]. split; [exact Ev|]. split.
    - intros Ha. apply (inv_live _ _ Hi) in Ha. rewrite <- Ev. eapply sign_live_any; eassumption.
    - intros Ha. apply sign_dead; [exact Hid|]. intros Hli. apply Ha. apply (inv_live _ _ Hi). exact Hli.
  Qed.
  Lemma usable_lemma ds id msg fresh : scheme_correct sc -> start + n <= two64 -> Forall del_ok ds -> id_ok id ->
    exists st0 st, generate sc md master start eks = Some st0 /\ run sc md ds st0 = Some st /\
      verifier st = verifier st0 /\
      (available start n ds id ->
         exists o, sign sc md st id msg fresh = Some o /\ verify sc o id msg (verifier st0) = true) /\
      (~ available start n ds id -> sign sc md st id msg fresh = Some null_ots).
  Proof.
    intros Hc Hn Hd Hid. destruct (usable_any ds id msg fresh Hn Hd Hid) as (st0 & st & Hg & Hr & Ev & Ha & Hna).
    exists st0, st. split; [exact Hg|]. split; [exact Hr|]. split; [exact Ev|]. split; [|exact Hna].
    intros A. destruct (Ha A) as (o & E & [V|(sk & m & C & _)]); [exists o; split; assumption|]. rewrite Hc in C. discriminate.
  Qed.

  Lemma held_lemma ds : start + n <= two64 -> Forall del_ok ds ->
    exists st0 st, generate sc md master start eks = Some st0 /\ run sc md ds st0 = Some st /\
    forall sk, In sk (held st) ->
      (exists i, nth_error eks i = Some sk /\ forall d, In d ds -> batch (cur d) < start + N.of_nat i) \/
      (exists d off, In d ds /\ sk = rng d off /\
         forall d', In d' ds -> id_le (cur d') (mkId (batch (cur d)) off)).
  Proof.
    intros Hn Hd. destruct (run_inv ds Hn Hd) as (st0 & st & Hg & Hr & Hi).
    exists st0, st. split; [exact Hg|]. split; [exact Hr|]. intros sk Hin. unfold held in Hin.
    apply in_app_iff in Hin as [Hin|Hin]; apply in_map_iff in Hin as (k & <- & Hin);
      apply In_nth_error in Hin as [j Hj].
    - left. destruct (inv_batches _ _ Hi _ _ Hj) as (e & Ee & ->). eexists. split; [exact Ee|].
      intros d Hd'. assert (batches st <> []) as Hne by (destruct (batches st); [destruct j; discriminate|discriminate]).
      pose proof (inv_fresh _ _ Hi Hne d Hd'). pose proof (inv_start _ _ Hi). lia.
    - right. destruct (inv_offsets _ _ Hi _ _ Hj) as (d & sk2 & Hdin & Eb & Es & _).
      exists d, (first_offset st + N.of_nat j). split; [exact Hdin|]. split; [exact Es|].
      intros d' Hd'. pose proof (inv_live _ _ Hi (mkId (batch (cur d)) (first_offset st + N.of_nat j))) as [X _].
      assert (Hjl : (j < length (offsets st))%nat) by (apply nth_error_Some; congruence).
      assert (Hav : available start n ds (mkId (batch (cur d)) (first_offset st + N.of_nat j))).
      { apply X. left. cbn. lia. }
      destruct Hav as (_ & Hle & _). apply Hle. exact Hd'.
  Qed.
End Scheme.

Lemma forward_lemma sc md master start eks ds d id msg fresh :
  (forall pk m, check sc pk m null_sig = false) ->
  start + N.of_nat (length eks) <= two64 -> Forall del_ok ds -> id_ok id ->
  In d ds -> id_lt id (cur d) ->
  exists st0 st o, generate sc md master start eks = Some st0 /\ run sc md ds st0 = Some st /\
    sign sc md st id msg fresh = Some o /\ o = null_ots /\
    forall id' m pk, verify sc o id' m pk = false.
Proof.
  intros Hz Hn Hd Hid Hin Hlt.
  destruct (usable_any sc md master start eks ds id msg fresh Hn Hd Hid) as (st0 & st & Hg & Hr & _ & _ & Hno).
  exists st0, st, null_ots. split; [exact Hg|]. split; [exact Hr|]. split.
  - apply Hno. intros (_ & Hle & _). specialize (Hle _ Hin). unfold id_lt, id_le in *. lia.
  - split; [reflexivity|]. intros id' m pk. unfold verify. cbn [null_ots o_pk2_sig]. rewrite Hz. reflexivity.
Qed.

Lemma snapshot_eq st : snapshot st = st.
Proof. destruct st; reflexivity. Qed.

Lemma snapshot_lemma sc md st :
  verifier (snapshot st) = verifier st /\
  (forall id msg fresh, sign sc md (snapshot st) id msg fresh = sign sc md st id msg fresh) /\
  (forall ds, run sc md ds (snapshot st) = run sc md ds st).
Proof. rewrite snapshot_eq. auto. Qed.

(** ** Verification *)

Lemma batch_rep_inj pk b pk' b' : length pk = 32%nat -> length pk' = 32%nat -> u64 b -> u64 b' ->
  batch_id_rep pk b = batch_id_rep pk' b' -> pk = pk' /\ b = b'.
Proof.
  intros Hp Hp' Hb Hb' E. unfold batch_id_rep in E. apply app_inv_head in E.
  assert (Ht : two64 = 2 ^ 64) by reflexivity. unfold u64 in *.
  apply encode_inj in E.
  - injection E as -> E. split; [reflexivity|]. lia.
  - cbn. rewrite Hp. lia.
  - cbn. rewrite Hp'. lia.
Qed.
Lemma offset_rep_inj pk b off pk' b' off' : length pk = 32%nat -> length pk' = 32%nat ->
  u64 b -> u64 b' -> u64 off -> u64 off' ->
  offset_id_rep pk b off = offset_id_rep pk' b' off' -> pk = pk' /\ b = b' /\ off = off'.
Proof.
  intros Hp Hp' Hb Hb' Ho Ho' E. unfold offset_id_rep in E. apply app_inv_head in E.
  assert (Ht : two64 = 2 ^ 64) by reflexivity. unfold u64 in *.
  apply encode_inj in E.
  - injection E as -> E E2. split; [reflexivity|]. lia.
  - cbn. rewrite Hp. lia.
  - cbn. rewrite Hp'. lia.
Qed.
Lemma batch_offset_rep_differ pk b pk' b' off : batch_id_rep pk b <> offset_id_rep pk' b' off.
Proof. unfold batch_id_rep, offset_id_rep. cbn. discriminate. Qed.

Lemma verify_lemma sc o id msg pk :
  verify sc o id msg pk = true <->
  check sc pk (batch_id_rep (o_pk2 o) (batch id)) (o_pk2_sig o) = true /\
  check sc (o_pk2 o) (offset_id_rep (o_pk o) (batch id) (offset id)) (o_pk1_sig o) = true /\
  check sc (o_pk o) msg (o_sig o) = true.
Proof. unfold verify. rewrite !andb_true_iff. tauto. Qed.
