(** Proofs about repeated deletions of one-time keys. *)
From Verif Require Import Base BaseFacts MsgpackModel OtsModel OtsSpec OtsProofs OtsDeleteSpec.
Local Open Scope N_scope.

(** Deleting before [id] has nothing left to do. *)
Definition settled (st : secrets) (id : identifier) : Prop :=
  batch id + 1 < first_batch st \/
  (batch id + 1 = first_batch st /\ (offset id <= first_offset st \/ offsets st = [])) \/
  (first_batch st <= batch id /\ batches st = [] /\ offsets st = []).

Lemma settled_earlier st id id' : settled st id -> id_le id' id -> settled st id'.
Proof.
  unfold settled, id_le. intros H L.
  destruct H as [H|[[H [E|E]]|(H & E1 & E2)]].
  - left. lia.
  - destruct L as [L|[L1 L2]]; [left; lia|right; left; split; [lia|left; lia]].
  - destruct L as [L|[L1 L2]]; [left; lia|right; left; split; [lia|right; exact E]].
  - destruct (N.lt_trichotomy (batch id' + 1) (first_batch st)) as [C|[C|C]].
    + left. exact C.
    + right. left. split; [exact C|right; exact E2].
    + right. right. split; [lia|]. split; assumption.
Qed.

Section Scheme.
  Context (sc : scheme) (md : mode).

  Lemma settled_same st id per rng : batch id < max64 -> u64 (offset id) ->
    settled st id -> delete_before sc md st id per rng = Some st.
  Proof.
    intros Hb Ho H. pose proof max64_two64. pose proof two64_pos. unfold u64 in Ho.
    unfold delete_before. rewrite add64_ok by lia.
    destruct H as [H|[[H E]|(H & E1 & E2)]].
    - destruct (N.eqb_spec (batch id + 1) (first_batch st)); [lia|].
      destruct (N.ltb_spec (batch id + 1) (first_batch st)); [reflexivity|lia].
    - rewrite H, N.eqb_refl. destruct (N.ltb_spec (first_offset st) (offset id)) as [L|L]; [|reflexivity].
      destruct E as [E|E]; [lia|]. rewrite E. cbn [length N.of_nat]. rewrite N.min_0_r.
      rewrite add64_ok by lia. rewrite N.add_0_r. cbn [N.to_nat skipn]. destruct st; cbn in *; subst. reflexivity.
    - destruct (N.eqb_spec (batch id + 1) (first_batch st)); [lia|].
      destruct (N.ltb_spec (batch id + 1) (first_batch st)); [lia|].
      rewrite sub64_ok by exact H. rewrite E1. cbn [length N.of_nat].
      destruct (N.ltb_spec 0 (batch id - first_batch st)) as [L|L].
      + destruct st; cbn in *; subst. reflexivity.
      + replace (batch id - first_batch st) with 0 by lia. rewrite add64_ok by lia. rewrite N.add_0_r.
        cbn [N.to_nat skipn]. destruct st; cbn in *; subst. reflexivity.
  Qed.

  (** What a deletion does, as three cases. *)
  Lemma delete_cases st id per rng st' : batch id < max64 -> u64 (offset id) ->
    delete_before sc md st id per rng = Some st' ->
    (st' = st /\ settled st id) \/
    (batch id + 1 = first_batch st /\ first_batch st' = first_batch st /\ batches st' = batches st /\
       first_offset st <= first_offset st' /\ (offset id <= first_offset st' \/ offsets st' = []) /\
       (offsets st = [] -> offsets st' = [])) \/
    (first_batch st <= batch id /\ first_batch st <= first_batch st' /\ first_batch st' <= batch id /\
       batches st' = [] /\ offsets st' = []) \/
    (first_batch st <= batch id /\ batches st <> [] /\ first_batch st' = batch id + 1 /\ first_offset st' = offset id).
  Proof.
    intros Hb Ho. pose proof max64_two64. pose proof two64_pos. unfold u64 in Ho.
    unfold delete_before. rewrite add64_ok by lia.
    destruct (N.eqb_spec (batch id + 1) (first_batch st)) as [En|En].
    - destruct (N.ltb_spec (first_offset st) (offset id)) as [L|L].
      + set (jump := N.min _ _). rewrite add64_ok by lia. intros E. injection E as <-. right. left.
        cbn [first_batch batches first_offset offsets]. split; [exact En|]. split; [reflexivity|]. split; [reflexivity|].
        split; [lia|]. split.
        * destruct (N.le_gt_cases (offset id - first_offset st) (N.of_nat (length (offsets st)))) as [C|C].
          { left. unfold jump. lia. }
          { right. apply skipn_all2. unfold jump. lia. }
        * intros ->. apply skipn_nil.
      + intros E. injection E as <-. left. split; [reflexivity|]. right. left. split; [exact En|left; exact L].
    - destruct (N.ltb_spec (batch id + 1) (first_batch st)) as [L|L].
      + intros E. injection E as <-. left. split; [reflexivity|]. left. exact L.
      + rewrite sub64_ok by lia. set (jump := batch id - first_batch st).
        destruct (N.ltb_spec (N.of_nat (length (batches st))) jump) as [J|J].
        * intros E. right. right. left. destruct (batches st) as [|k0 ks]; injection E as <-;
            cbn [first_batch batches offsets];
            (split; [lia|]); (split; [lia|]); (split; [lia|]); split; reflexivity.
        * rewrite add64_ok by (unfold jump; lia).
          destruct (skipn (N.to_nat jump) (batches st)) as [|k rest] eqn:Esk.
          { intros E. injection E as <-. right. right. left. cbn [first_batch batches offsets].
            unfold jump. split; [lia|]. split; [lia|]. split; [lia|]. split; reflexivity. }
          rewrite add64_ok by (unfold jump; lia). intros E. injection E as <-. right. right. right.
          cbn [first_batch first_offset]. split; [lia|]. split.
          { intros Z. rewrite Z, skipn_nil in Esk. discriminate. }
          split; [unfold jump; lia|reflexivity].
  Qed.

  Lemma delete_settles st id per rng st' : batch id < max64 -> u64 (offset id) ->
    delete_before sc md st id per rng = Some st' -> settled st' id.
  Proof.
    intros Hb Ho E. destruct (delete_cases _ _ _ _ _ Hb Ho E) as [[-> H]|[H|[H|H]]].
    - exact H.
    - destruct H as (A & B & _ & _ & C & _). right. left. split; [lia|exact C].
    - destruct H as (A & B & C & D & F). right. right. split; [lia|]. split; assumption.
    - destruct H as (A & _ & B & C). right. left. split; [lia|left; lia].
  Qed.

  Lemma delete_keeps st id per rng st' old : batch id < max64 -> u64 (offset id) ->
    delete_before sc md st id per rng = Some st' -> settled st old -> settled st' old.
  Proof.
    intros Hb Ho E S. destruct (delete_cases _ _ _ _ _ Hb Ho E) as [[-> H]|[H|[H|H]]].
    - exact S.
    - destruct H as (A & B & C & D & F & G). unfold settled in *. rewrite B, C.
      destruct S as [S|[[S [S1|S1]]|(S & S1 & S2)]].
      + left. exact S.
      + right. left. split; [exact S|left; lia].
      + right. left. split; [exact S|right; exact (G S1)].
      + right. right. split; [exact S|]. split; [exact S1|exact (G S2)].
    - destruct H as (A & B & C & D & F). unfold settled.
      destruct (N.lt_trichotomy (batch old + 1) (first_batch st')) as [L|[L|L]].
      + left. exact L.
      + right. left. split; [exact L|right; exact F].
      + right. right. split; [lia|]. split; assumption.
    - destruct H as (A & N0 & B & C). unfold settled in *.
      destruct S as [S|[[S S1]|(S & S1 & S2)]]; [left; lia|left; lia|]. contradiction.
  Qed.

  Lemma run_settled ds : forall st st' old, Forall del_ok ds -> run sc md ds st = Some st' ->
    settled st old \/ (exists d, In d ds /\ id_le old (cur d)) -> settled st' old.
  Proof.
    induction ds as [|d ds IH]; intros st st' old Hd E H; cbn [run] in E.
    - injection E as <-. destruct H as [H|(d & [] & _)]. exact H.
    - destruct (delete_before sc md st (cur d) (per_batch d) (rng d)) as [st1|] eqn:E1; [|discriminate].
      apply Forall_cons_iff in Hd as [(D1 & D2 & D3) Hd].
      apply (IH st1 st' old Hd E). destruct H as [H|(x & [<-|Hx] & L)].
      + left. exact (delete_keeps _ _ _ _ _ _ D1 D2 E1 H).
      + left. apply (settled_earlier _ _ _ (delete_settles _ _ _ _ _ D1 D2 E1) L).
      + right. exists x. split; assumption.
  Qed.

  Lemma earlier_lemma st ds d d' : Forall del_ok ds -> In d ds -> del_ok d' -> id_le (cur d') (cur d) ->
    run sc md (ds ++ [d']) st = run sc md ds st.
  Proof.
    intros Hd Hin (D1 & D2 & D3) L. rewrite run_app. destruct (run sc md ds st) as [st'|] eqn:E; [|reflexivity].
    cbn [run]. rewrite settled_same; [reflexivity|exact D1|exact D2|].
    apply (run_settled ds st st' _ Hd E). right. exists d. split; assumption.
  Qed.

  (** ** The latest deletion decides *)

  Lemma available_latest start n p ds dm id : same_size p ds -> In dm ds ->
    (forall d, In d ds -> id_le (cur d) (cur dm)) ->
    (available start n ds id <-> available start n [dm] id).
  Proof.
    intros Hp Hin Hmax. unfold same_size in Hp. rewrite Forall_forall in Hp. unfold available. cbn [find].
    assert (Ha : (forall d, In d ds -> id_le (cur d) id) <-> (forall d, In d [dm] -> id_le (cur d) id)).
    { split.
      - intros H d [<-|[]]. apply H. exact Hin.
      - intros H d Hd. specialize (H dm (or_introl eq_refl)). specialize (Hmax d Hd). unfold id_le in *. lia. }
    rewrite <- Ha. clear Ha.
    assert (Hf : (forall d, In d ds -> id_le (cur d) id) ->
      (match find (fun d => batch (cur d) =? batch id) ds with Some d => offset id < per_batch d | None => True end <->
       match (if batch (cur dm) =? batch id then Some dm else None) with Some d => offset id < per_batch d | None => True end)).
    { intros Hle. destruct (find _ ds) as [x|] eqn:Ef.
      - apply find_some in Ef as [Hx Ex]. apply N.eqb_eq in Ex.
        destruct (N.eqb_spec (batch (cur dm)) (batch id)) as [Em|Em].
        + rewrite (Hp x Hx), (Hp dm Hin). reflexivity.
        + exfalso. specialize (Hle dm Hin). specialize (Hmax x Hx). unfold id_le in *. lia.
      - pose proof (List.find_none _ _ Ef dm Hin) as Em. cbv beta in Em. rewrite Em. reflexivity. }
    split; intros (A & B & C); (split; [exact A|]); (split; [exact B|]); apply (Hf B); exact C.
  Qed.
End Scheme.

Lemma latest_lemma sc md master start eks p ds dm id msg fresh :
  scheme_correct sc -> (forall pk m, check sc pk m null_sig = false) ->
  start + N.of_nat (length eks) <= two64 -> Forall del_ok ds -> id_ok id -> same_size p ds ->
  latest ds dm ->
  exists st0 st st', generate sc md master start eks = Some st0 /\
    run sc md ds st0 = Some st /\ run sc md [dm] st0 = Some st' /\
    (signs sc md st (verifier st0) id msg fresh <-> signs sc md st' (verifier st0) id msg fresh).
Proof.
  intros Hc Hz Hn Hd Hid Hp [Hin Hmax].
  destruct (usable_lemma sc md master start eks ds id msg fresh Hc Hn Hd Hid) as (st0 & st & Hg & Hr & _ & Y1 & N1).
  assert (Hd1 : Forall del_ok [dm]) by (constructor; [exact (proj1 (Forall_forall _ _) Hd dm Hin)|constructor]).
  destruct (usable_lemma sc md master start eks [dm] id msg fresh Hc Hn Hd1 Hid) as (st0' & st' & Hg' & Hr' & _ & Y2 & N2).
  assert (st0' = st0) as -> by congruence.
  exists st0, st, st'. split; [exact Hg|]. split; [exact Hr|]. split; [exact Hr'|].
  pose proof (available_latest start (N.of_nat (length eks)) p ds dm id Hp Hin Hmax) as Ha.
  assert (Hno : forall s, sign sc md s id msg fresh = Some null_ots -> ~ signs sc md s (verifier st0) id msg fresh).
  { intros s E (o & E' & V). assert (o = null_ots) as -> by congruence.
    unfold verify in V. cbn [null_ots o_pk2_sig] in V. rewrite Hz in V. discriminate. }
  (* availability is decidable *)
  assert (Hdec : available start (N.of_nat (length eks)) [dm] id \/ ~ available start (N.of_nat (length eks)) [dm] id).
  { unfold available. cbn [find In].
    assert (D1 : start <= batch id < start + N.of_nat (length eks) \/ ~ (start <= batch id < start + N.of_nat (length eks))) by lia.
    assert (D2 : id_le (cur dm) id \/ ~ id_le (cur dm) id) by (unfold id_le; lia).
    assert (D3 : offset id < per_batch dm \/ ~ offset id < per_batch dm) by lia.
    destruct D1 as [D1|D1]; [|right; tauto].
    destruct D2 as [D2|D2]; [|right; intros (_ & H & _); apply D2; apply H; left; reflexivity].
    destruct (batch (cur dm) =? batch id).
    - destruct D3 as [D3|D3]; [left|right; tauto]. split; [exact D1|]. split; [|exact D3]. intros d [<-|[]]. exact D2.
    - left. split; [exact D1|]. split; [|exact I]. intros d [<-|[]]. exact D2. }
  destruct Hdec as [A|A].
  - split; intros _; [exact (Y2 A)|exact (Y1 (proj2 Ha A))].
  - split; intros B; exfalso.
    + apply (Hno st); [|exact B]. apply N1. intros X. apply A, Ha, X.
    + apply (Hno st'); [exact (N2 A)|exact B].
Qed.

(** ** How many keys are held *)

Lemma count_lemma sc md master start eks p ds dm :
  start + N.of_nat (length eks) <= two64 -> Forall del_ok ds -> same_size p ds ->
  latest ds dm ->
  exists st0 st, generate sc md master start eks = Some st0 /\ run sc md ds st0 = Some st /\
    N.of_nat (length (batches st)) = batches_after start (N.of_nat (length eks)) (batch (cur dm)) /\
    N.of_nat (length (offsets st)) = offsets_from start (N.of_nat (length eks)) p (cur dm).
Proof.
  intros Hn Hd Hp [Hin Hmax]. destruct (run_inv sc md master start eks ds Hn Hd) as (st0 & st & Hg & Hr & Hi).
  exists st0, st. split; [exact Hg|]. split; [exact Hr|]. destruct Hi as [Hv Hs He Hb Hf Ho Hl].
  unfold batches_after, offsets_from.
  set (n := N.of_nat (length eks)) in *. set (b := batch (cur dm)) in *. set (o := offset (cur dm)) in *.
  assert (Hl' : forall id, live st id <-> available start n [dm] id).
  { intros id. rewrite Hl. apply (available_latest start n p); assumption. }
  unfold same_size in Hp. rewrite Forall_forall in Hp.
  (* identifiers of later batches *)
  assert (Hlater : forall bb off, start <= bb < start + n -> b < bb -> live st (mkId bb off)).
  { intros bb off R L. apply Hl'. unfold available. cbn [batch offset find In]. split; [exact R|]. split.
    - intros d [<-|[]]. left. cbn. exact L.
    - fold b. destruct (N.eqb_spec b bb); [lia|exact I]. }
  set (far := first_offset st + N.of_nat (length (offsets st))) in *.
  assert (Hfar : forall bb, live st (mkId bb far) -> first_batch st <= bb < first_batch st + N.of_nat (length (batches st))).
  { intros bb [[_ X]|X]; cbn [batch offset] in X; [unfold far in X; lia|exact X]. }
  split.
  - destruct (batches st) as [|k ks] eqn:Eb.
    + cbn [length N.of_nat]. destruct (N.le_gt_cases (start + n) (N.max start (b + 1))) as [C|C]; [lia|].
      exfalso. specialize (Hfar (start + n - 1) (Hlater (start + n - 1) far ltac:(lia) ltac:(lia))). cbn [length N.of_nat] in Hfar. lia.
    + rewrite <- Eb in *. assert (Hne : batches st <> []) by congruence. specialize (He Hne).
      assert (Hpos : 0 < N.of_nat (length (batches st))) by (rewrite Eb; cbn; lia).
      specialize (Hf Hne dm Hin). fold b in Hf.
      destruct (N.le_gt_cases (first_batch st) (N.max start (b + 1))) as [C|C]; [lia|].
      exfalso. specialize (Hfar (first_batch st - 1) (Hlater (first_batch st - 1) far ltac:(lia) ltac:(lia))). lia.
  - assert (Hcur : forall off, live st (mkId b off) <-> start <= b < start + n /\ o <= off < p).
    { intros off. rewrite Hl'. unfold available. cbn [batch offset find In]. fold b. rewrite N.eqb_refl, (Hp dm Hin). split.
      - intros (A & B & C). split; [exact A|]. specialize (B dm (or_introl eq_refl)). unfold id_le in B. cbn [batch offset] in B.
        fold b o in B. lia.
      - intros (A & B). split; [exact A|]. split; [|lia]. intros d [<-|[]]. right. cbn [batch offset]. fold b o. lia. }
    assert (Hbat : forall off, live st (mkId b off) ->
      b + 1 = first_batch st /\ first_offset st <= off < first_offset st + N.of_nat (length (offsets st))).
    { intros off [X|X]; [exact X|]. cbn [batch] in X. exfalso.
      assert (Hne : batches st <> []) by (intros Z; rewrite Z in X; cbn in X; lia).
      specialize (Hf Hne dm Hin). fold b in Hf. lia. }
    destruct (offsets st) as [|k ks] eqn:Eo.
    + cbn [length N.of_nat] in Hbat |- *.
      destruct ((start <=? b) && (b <? start + n)) eqn:R; [|reflexivity].
      apply andb_true_iff in R as [R1 R2]. apply N.leb_le in R1. apply N.ltb_lt in R2.
      destruct (N.le_gt_cases p o) as [C|C]; [lia|]. exfalso.
      specialize (Hbat o (proj2 (Hcur o) ltac:(lia))). lia.
    + rewrite <- Eo in *. assert (Hpos : 0 < N.of_nat (length (offsets st))) by (rewrite Eo; cbn; lia).
      destruct (Ho 0%nat k ltac:(rewrite Eo; reflexivity)) as (d0 & sk2 & Hd0 & E0 & _).
      assert (Hfirst : available start n [dm] (mkId (batch (cur d0)) (first_offset st))).
      { apply Hl'. left. cbn [batch offset]. lia. }
      assert (Eb : batch (cur d0) = b).
      { destruct Hfirst as (_ & X & _). specialize (X dm (or_introl eq_refl)). specialize (Hmax d0 Hd0).
        unfold id_le in X, Hmax. cbn [batch offset] in X. fold b in X, Hmax. lia. }
      rewrite Eb in E0.
      assert (Hon : forall off, first_offset st <= off < first_offset st + N.of_nat (length (offsets st)) <->
                    start <= b < start + n /\ o <= off < p).
      { intros off. rewrite <- Hcur. split; [|apply Hbat]. intros X. left. cbn [batch offset]. split; assumption. }
      pose proof (proj1 (Hon (first_offset st)) ltac:(lia)) as X1.
      pose proof (proj1 (Hon (first_offset st + N.of_nat (length (offsets st)) - 1)) ltac:(lia)) as X2.
      pose proof (proj2 (Hon o) ltac:(lia)) as X3. pose proof (proj2 (Hon (p - 1)) ltac:(lia)) as X4.
      replace ((start <=? b) && (b <? start + n)) with true; [lia|].
      symmetry. apply andb_true_iff. rewrite N.leb_le, N.ltb_lt. lia.
Qed.

Lemma held_count_lemma sc md master start eks p ds dm :
  start + N.of_nat (length eks) <= two64 -> Forall del_ok ds -> same_size p ds -> latest ds dm ->
  exists st0 st, generate sc md master start eks = Some st0 /\ run sc md ds st0 = Some st /\
    N.of_nat (length (held st)) =
      batches_after start (N.of_nat (length eks)) (batch (cur dm)) + offsets_from start (N.of_nat (length eks)) p (cur dm).
Proof.
  intros Hn Hd Hp Hm. destruct (count_lemma sc md master start eks p ds dm Hn Hd Hp Hm) as (st0 & st & Hg & Hr & E1 & E2).
  exists st0, st. split; [exact Hg|]. split; [exact Hr|]. unfold held. rewrite app_length, !map_length. lia.
Qed.
