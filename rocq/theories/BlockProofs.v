From Verif Require Import Base BaseFacts BlockModel BlockSpec AddressModel TxCodecSpec TxSpec UpgradeSpec.
From Verif Require Import TxProofs TxCodecProofs MsgpackProofs UpgradeProofs MerkleArraySpec.
From Verif Require MerkleArrayModel MerkleArrayProofs.
Local Open Scope N_scope.

(** ** Encoding for a block *)
Lemma is_empty_spec {A} (l : list A) : is_empty l = true <-> l = [].
Proof. destruct l; cbn; split; congruence. Qed.
Lemma stx_eta s : mkSigned (stx_sig s) (stx_msig s) (stx_lsig s) (stx_tx s) (stx_auth s) = s.
Proof. destruct s. reflexivity. Qed.
Lemma with_id_same s i : id_of s = i -> with_genesis_id s i = s.
Proof. intros <-. destruct s as [? ? ? [[] ?] ?]. reflexivity. Qed.
Lemma with_hash_same s i : hash_of s = i -> with_genesis_hash s i = s.
Proof. intros <-. destruct s as [? ? ? [[] ?] ?]. reflexivity. Qed.
Lemma with_id_twice s i j : with_genesis_id (with_genesis_id s i) j = with_genesis_id s j.
Proof. reflexivity. Qed.
Lemma with_hash_twice s i j : with_genesis_hash (with_genesis_hash s i) j = with_genesis_hash s j.
Proof. reflexivity. Qed.
Lemma with_swap s i j : with_genesis_hash (with_genesis_id s i) j = with_genesis_id (with_genesis_hash s j) i.
Proof. reflexivity. Qed.

Section Table.
Variable table : list (version * params).

Lemma encode_ok_iff h st ad p : params_of table h = Some p ->
  (exists s, encode_signed_tx table h st ad = Ok s) <-> genesis_fields_ok p h (stx_tx st).
Proof.
  intros Hp. unfold encode_signed_tx, genesis_fields_ok. rewrite Hp. fold (id_of st). fold (hash_of st).
  destruct (support_signed_tx_in_block p); cbn [negb]; [|split; [discriminate|eauto]].
  destruct (is_empty (id_of st)) eqn:Ei; cbn [negb].
  - apply is_empty_spec in Ei. cbn [bind].
    destruct (is_zero (hash_of st)) eqn:Ez; cbn [negb].
    + apply is_zero_true in Ez. destruct (require_genesis_hash p).
      * split; [intros [s E]; discriminate|]. intros G. destruct (G eq_refl) as [_ [A _]]. contradiction.
      * split; [intros _ _; split; left; assumption|eauto].
    + apply is_zero_false in Ez. destruct (bytes_eqb (hash_of st) (genesis_hash h)) eqn:Eh.
      * apply bytes_eqb_true in Eh. split; [|eauto]. intros _ _. split; [left; exact Ei|]. destruct (require_genesis_hash p); [split|right]; assumption.
      * apply bytes_eqb_false in Eh. split; [intros [s E]; discriminate|]. intros G. destruct (G eq_refl) as [_ A]. destruct (require_genesis_hash p); [destruct A; contradiction|destruct A; contradiction].
  - assert (Hne : id_of st <> []) by (intros E; rewrite E in Ei; discriminate).
    destruct (bytes_eqb (id_of st) (genesis_id h)) eqn:Eg.
    2:{ apply bytes_eqb_false in Eg. cbn [bind]. split; [intros [s E]; discriminate|]. intros G. destruct (G eq_refl) as [[A|A] _]; contradiction. }
    apply bytes_eqb_true in Eg. cbn [bind]. change (hash_of (with_genesis_id st [])) with (hash_of st).
    destruct (is_zero (hash_of st)) eqn:Ez; cbn [negb].
    + apply is_zero_true in Ez. destruct (require_genesis_hash p).
      * split; [intros [s E]; discriminate|]. intros G. destruct (G eq_refl) as [_ [A _]]. contradiction.
      * split; [intros _ _; split; [right|left]; assumption|eauto].
    + apply is_zero_false in Ez. destruct (bytes_eqb (hash_of st) (genesis_hash h)) eqn:Eh.
      * apply bytes_eqb_true in Eh. split; [|eauto]. intros _ _. split; [right; exact Eg|]. destruct (require_genesis_hash p); [split|right]; assumption.
      * apply bytes_eqb_false in Eh. split; [intros [s E]; discriminate|]. intros G. destruct (G eq_refl) as [_ A]. destruct (require_genesis_hash p); [destruct A; contradiction|destruct A; contradiction].
Qed.
Lemma encode_no_panic h st ad p : params_of table h = Some p -> encode_signed_tx table h st ad <> Panic.
Proof.
  intros Hp. unfold encode_signed_tx. rewrite Hp. destruct (support_signed_tx_in_block p); cbn [negb]; [|discriminate].
  destruct (is_empty (id_of st)); cbn [negb].
  - cbn [bind]. destruct (is_zero _); cbn [negb]; [destruct (require_genesis_hash p); discriminate|]. destruct (bytes_eqb _ _); discriminate.
  - destruct (bytes_eqb (id_of st) _); cbn [bind]; [|discriminate]. destruct (is_zero _); cbn [negb]; [destruct (require_genesis_hash p); discriminate|]. destruct (bytes_eqb _ _); discriminate.
Qed.
Lemma round_trip h st ad s : encode_signed_tx table h st ad = Ok s -> decode_signed_tx table h s = Ok (st, ad).
Proof.
  unfold encode_signed_tx, decode_signed_tx. destruct (params_of table h) as [p|]; [|discriminate].
  destruct (support_signed_tx_in_block p); cbn [negb].
  2:{ intros E. assert (s = mkStib (st, ad) false false) as -> by congruence. reflexivity. }
  assert (Hstep : forall s1 (has_id : bool), is_empty (id_of s1) = true -> hash_of s1 = hash_of st ->
    (if has_id then with_genesis_id s1 (genesis_id h) else s1) = st ->
    (if negb (is_zero (hash_of s1)) then
       if bytes_eqb (hash_of s1) (genesis_hash h) then Ok (mkStib (with_genesis_hash s1 zero32, ad) has_id (negb (require_genesis_hash p)))
       else Err UpgradeModel.GenesisHashMismatch
     else if require_genesis_hash p then Err MissingGenesisHash else Ok (mkStib (s1, ad) has_id false)) = Ok s ->
    (let (st0, ad0) := stib_tx s in
     if negb (is_empty (id_of st0)) then Err NonEmptyGenesisID
     else let s0 := if has_genesis_id s then with_genesis_id st0 (genesis_id h) else st0 in
       if negb (is_zero (hash_of st0)) then Err NonEmptyGenesisHash
       else if require_genesis_hash p then if has_genesis_hash s then Err RedundantHasGenesisHash else Ok (with_genesis_hash s0 (genesis_hash h), ad0)
       else if has_genesis_hash s then Ok (with_genesis_hash s0 (genesis_hash h), ad0) else Ok (s0, ad0)) = Ok (st, ad)).
  { intros s1 has_id Hi Hh Hw E. destruct (is_zero (hash_of s1)) eqn:Ez; cbn [negb] in E.
    - destruct (require_genesis_hash p) eqn:Er; [discriminate|]. assert (s = mkStib (s1, ad) has_id false) as -> by congruence.
      cbn [stib_tx has_genesis_id has_genesis_hash]. rewrite Hi, Ez. cbn [negb]. cbv zeta. rewrite Hw. reflexivity.
    - destruct (bytes_eqb (hash_of s1) (genesis_hash h)) eqn:Eh; [|discriminate]. apply bytes_eqb_true in Eh.
      assert (s = mkStib (with_genesis_hash s1 zero32, ad) has_id (negb (require_genesis_hash p))) as -> by congruence.
      cbn [stib_tx has_genesis_id has_genesis_hash]. change (id_of (with_genesis_hash s1 zero32)) with (id_of s1). rewrite Hi. cbn [negb]. cbv zeta.
      change (hash_of (with_genesis_hash s1 zero32)) with zero32. change (is_zero zero32) with true. cbn [negb].
      assert (Ew : with_genesis_hash (if has_id then with_genesis_id (with_genesis_hash s1 zero32) (genesis_id h) else with_genesis_hash s1 zero32) (genesis_hash h) = st).
      { destruct has_id.
        - rewrite <- with_swap, with_hash_twice, Hw. apply with_hash_same. congruence.
        - rewrite with_hash_twice, Hw. apply with_hash_same. congruence. }
      rewrite Ew. destruct (require_genesis_hash p); reflexivity. }
  destruct (is_empty (id_of st)) eqn:Ei; cbn [negb].
  - cbn [bind]. apply (Hstep st false Ei eq_refl eq_refl).
  - destruct (bytes_eqb (id_of st) (genesis_id h)) eqn:Eg; cbn [bind]; [|discriminate]. apply bytes_eqb_true in Eg.
    apply (Hstep (with_genesis_id st []) true eq_refl eq_refl). rewrite with_id_twice. apply with_id_same. exact Eg.
Qed.
Lemma round_trip_back h s t ad : genesis_id h <> [] -> genesis_hash h <> zero32 -> 
  decode_signed_tx table h s = Ok (t, ad) ->
  (params_of table h = None \/ exists p, params_of table h = Some p /\ (support_signed_tx_in_block p = false -> has_genesis_id s = false /\ has_genesis_hash s = false)) ->
  encode_signed_tx table h t ad = Ok s.
Proof.
  unfold encode_signed_tx, decode_signed_tx. intros Hg Hh E Hp. destruct (params_of table h) as [p|]; [|discriminate].
  destruct Hp as [Hp|[p' [Hp Hs]]]; [discriminate|]. assert (p' = p) as -> by congruence. clear Hp.
  destruct s as [[t0 ad0] hi hh]. cbn [stib_tx has_genesis_id has_genesis_hash] in *.
  destruct (support_signed_tx_in_block p); cbn [negb] in *.
  2:{ destruct (Hs eq_refl) as [-> ->]. congruence. }
  destruct (is_empty (id_of t0)) eqn:Ei; cbn [negb] in E; [|discriminate].
  destruct (is_zero (hash_of t0)) eqn:Ez; cbn [negb] in E; [|discriminate].
  apply is_empty_spec in Ei. apply is_zero_true in Ez.
  assert (Hgi : is_empty (genesis_id h) = false) by (destruct (genesis_id h); [contradiction|reflexivity]).
  assert (Hhi : is_zero (genesis_hash h) = false) by (apply is_zero_false; exact Hh).
  destruct (require_genesis_hash p).
  - destruct hh; [discriminate|]. destruct hi.
    + assert (t = with_genesis_hash (with_genesis_id t0 (genesis_id h)) (genesis_hash h)) as -> by congruence.
      change (id_of (with_genesis_hash (with_genesis_id t0 (genesis_id h)) (genesis_hash h))) with (genesis_id h). rewrite Hgi. cbn [negb].
      rewrite bytes_eqb_refl. cbn [bind].
      change (hash_of (with_genesis_id (with_genesis_hash (with_genesis_id t0 (genesis_id h)) (genesis_hash h)) [])) with (genesis_hash h).
      rewrite Hhi, bytes_eqb_refl. cbn [negb]. rewrite <- with_swap, with_id_twice, with_hash_twice.
      rewrite (with_id_same t0 [] Ei), (with_hash_same t0 zero32 Ez). congruence.
    + assert (t = with_genesis_hash t0 (genesis_hash h)) as -> by congruence.
      change (id_of (with_genesis_hash t0 (genesis_hash h))) with (id_of t0). rewrite Ei. cbn [is_empty negb bind].
      change (hash_of (with_genesis_hash t0 (genesis_hash h))) with (genesis_hash h). rewrite Hhi, bytes_eqb_refl. cbn [negb].
      rewrite with_hash_twice, (with_hash_same t0 zero32 Ez). congruence.
  - destruct hh.
    + destruct hi.
      * assert (t = with_genesis_hash (with_genesis_id t0 (genesis_id h)) (genesis_hash h)) as -> by congruence.
        change (id_of (with_genesis_hash (with_genesis_id t0 (genesis_id h)) (genesis_hash h))) with (genesis_id h). rewrite Hgi. cbn [negb].
        rewrite bytes_eqb_refl. cbn [bind].
        change (hash_of (with_genesis_id (with_genesis_hash (with_genesis_id t0 (genesis_id h)) (genesis_hash h)) [])) with (genesis_hash h).
        rewrite Hhi, bytes_eqb_refl. cbn [negb]. rewrite <- with_swap, with_id_twice, with_hash_twice.
        rewrite (with_id_same t0 [] Ei), (with_hash_same t0 zero32 Ez). congruence.
      * assert (t = with_genesis_hash t0 (genesis_hash h)) as -> by congruence.
        change (id_of (with_genesis_hash t0 (genesis_hash h))) with (id_of t0). rewrite Ei. cbn [is_empty negb bind].
        change (hash_of (with_genesis_hash t0 (genesis_hash h))) with (genesis_hash h). rewrite Hhi, bytes_eqb_refl. cbn [negb].
        rewrite with_hash_twice, (with_hash_same t0 zero32 Ez). congruence.
    + destruct hi.
      * assert (t = with_genesis_id t0 (genesis_id h)) as -> by congruence.
        change (id_of (with_genesis_id t0 (genesis_id h))) with (genesis_id h). rewrite Hgi. cbn [negb]. rewrite bytes_eqb_refl. cbn [bind].
        rewrite with_id_twice, (with_id_same t0 [] Ei). rewrite Ez. change (is_zero zero32) with true. cbn [negb]. congruence.
      * assert (t = t0) as -> by congruence. rewrite Ei. cbn [is_empty negb bind]. rewrite Ez. change (is_zero zero32) with true. cbn [negb]. congruence.
Qed.
End Table.

(** ** Groups *)
Lemma apart_cons {A} (f : A -> bytes) g gs : match gs with g' :: _ => (forall x y, In x g -> In y g' -> f x = f y -> f x = zero32) | [] => True end ->
  apart f gs -> apart f (g :: gs).
Proof. destruct gs as [|g' r]; cbn [apart]; auto. Qed.
Lemma groups_loop_spec {A} (f : A -> bytes) : forall l last, last <> [] -> is_group f last ->
  concat (groups_loop f last l) = last ++ l /\ Forall (is_group f) (groups_loop f last l) /\ apart f (groups_loop f last l) /\
  exists r rest, groups_loop f last l = (last ++ r) :: rest.
Proof.
  induction l as [|x r IH]; intros last Hn Hg.
  - cbn [groups_loop]. destruct last as [|a last]; [contradiction|]. cbn [is_empty concat apart]. rewrite !app_nil_r. split; [reflexivity|]. split; [auto|]. split; [exact I|]. exists [], []. rewrite app_nil_r. reflexivity.
  - cbn [groups_loop]. destruct last as [|a last]; [contradiction|].
    destruct (negb (bytes_eqb (f a) (f x)) || is_zero (f a)) eqn:Eb.
    + assert (Hx : is_group f [x]).
      { destruct (bytes_eq_dec (f x) zero32) as [Ez|Ez]; [left; eauto|]. right. split; [discriminate|]. exists (f x). split; [exact Ez|]. auto. }
      destruct (IH [x] ltac:(discriminate) Hx) as [H1 [H2 [H3 [r' [rest H4]]]]].
      split; [cbn [concat]; rewrite H1; reflexivity|]. split; [constructor; assumption|]. split.
      * apply apart_cons; [|exact H3]. rewrite H4. intros y z Hy Hz Hyz.
        apply orb_true_iff in Eb.
        assert (Hfa : Forall (fun y => f y = f a) (a :: last)).
        { destruct Hg as [[w [Hw _]]|[_ [i [_ Hi]]]].
          - assert (w = a) as -> by congruence. rewrite Hw. auto.
          - rewrite Forall_forall in *. intros w Hw. rewrite (Hi w Hw). symmetry. apply Hi. left. reflexivity. }
        rewrite Forall_forall in Hfa. pose proof (Hfa y Hy) as Hya.
        assert (Hxz : f z = f x).
        { rewrite H4 in H2. apply Forall_inv in H2. destruct H2 as [[w [Hw _]]|[_ [i [_ Hi]]]].
          - rewrite Hw in Hz. destruct Hz as [<-|[]]. cbn [app] in Hw. congruence.
          - rewrite Forall_forall in Hi. rewrite (Hi z Hz). symmetry. apply Hi. left. reflexivity. }
        destruct Eb as [Eb|Eb].
        -- apply negb_true_iff, bytes_eqb_false in Eb. congruence.
        -- apply is_zero_true in Eb. congruence.
      * exists [], (groups_loop f [x] r). rewrite app_nil_r. reflexivity.
    + apply orb_false_iff in Eb. destruct Eb as [Eb1 Eb2]. apply negb_false_iff, bytes_eqb_true in Eb1. apply is_zero_false in Eb2.
      assert (Hx : is_group f ((a :: last) ++ [x])).
      { right. split; [discriminate|]. exists (f a). split; [exact Eb2|]. destruct Hg as [[w [Hw Hz]]|[_ [i [_ Hi]]]].
        - assert (w = a) as -> by congruence. contradiction.
        - apply Forall_app. split; [|auto]. rewrite Forall_forall in *. intros w Hw. rewrite (Hi w Hw). symmetry. apply Hi. left. reflexivity. }
      destruct (IH ((a :: last) ++ [x]) ltac:(discriminate) Hx) as [H1 [H2 [H3 [r' [rest H4]]]]].
      split; [rewrite H1, <- app_assoc; reflexivity|]. split; [exact H2|]. split; [exact H3|]. exists (x :: r'), rest. rewrite H4, <- app_assoc. reflexivity.
Qed.
Lemma grouping_lemma {A} (f : A -> bytes) l : grouping f l (groups_loop f [] l).
Proof.
  destruct l as [|x r]; [split; [reflexivity|split; [constructor|exact I]]|]. cbn [groups_loop].
  assert (Hx : is_group f [x]).
  { destruct (bytes_eq_dec (f x) zero32) as [Ez|Ez]; [left; eauto|]. right. split; [discriminate|]. exists (f x). split; [exact Ez|]. auto. }
  destruct (groups_loop_spec f r [x] ltac:(discriminate) Hx) as [H1 [H2 [H3 _]]]. split; [exact H1|]. split; assumption.
Qed.
Lemma decode_groups_lemma table b gs : decode_payset_groups table b = Ok gs ->
  exists l, decode_payset_flat table b = Ok l /\ grouping (fun s => tx_group (fst s)) l gs.
Proof.
  unfold decode_payset_groups, decode_payset_flat. destruct (decode_all table (head b) (payset b)) as [l|e|]; cbn [bind]; try discriminate.
  intros E. exists l. split; [reflexivity|]. assert (gs = groups_loop (fun s => tx_group (fst s)) [] l) as -> by congruence. apply grouping_lemma.
Qed.
(** The groups are determined by the list. *)
Lemma grouping_unique {A} (f : A -> bytes) : forall gs gs' l, grouping f l gs -> grouping f l gs' -> gs = gs'.
Proof.
  assert (Hne : forall g, is_group f g -> g <> []) by (intros g [[x [-> _]]|[Hn _]]; [discriminate|exact Hn]).
  assert (Hlen : forall g gs g' gs' l, grouping f l (g :: gs) -> grouping f l (g' :: gs') -> (length g' <= length g)%nat).
  { intros g gs g' gs' l [C1 [F1 A1]] [C2 [F2 _]]. destruct (Nat.le_gt_cases (length g') (length g)) as [|L]; [assumption|exfalso].
    apply Forall_cons_iff in F1, F2. destruct F1 as [G F1], F2 as [G' F2]. cbn [concat] in C1, C2.
    (* g' = g ++ y :: _ with the same identifier, so y belongs to g *)
    assert (E : g' = g ++ skipn (length g) g').
    { transitivity (firstn (length g) g' ++ skipn (length g) g'); [symmetry; apply firstn_skipn|]. f_equal.
      transitivity (firstn (length g) l); [rewrite <- C2, firstn_app|rewrite <- C1, firstn_app].
      - replace (length g - length g')%nat with O by lia. cbn [firstn]. rewrite app_nil_r. reflexivity.
      - rewrite Nat.sub_diag, firstn_all. cbn [firstn]. apply app_nil_r. }
    destruct (skipn (length g) g') as [|y t] eqn:Es; [apply (f_equal (@length A)) in E; rewrite app_length in E; cbn in E; lia|].
    destruct G' as [[w [Hw _]]|[_ [i [Hi Hall]]]].
    { apply (f_equal (@length A)) in Hw. specialize (Hne g G). destruct g; [contradiction|]. cbn in Hw, L. lia. }
    rewrite E in Hall. apply Forall_app in Hall. destruct Hall as [Hg Hy]. apply Forall_inv in Hy.
    rewrite E, <- app_assoc in C2. cbn [app] in C2. rewrite <- C2 in C1. apply app_inv_head in C1.
    destruct gs as [|g2 gs]; [discriminate|]. apply Forall_inv in F1. pose proof (Hne g2 F1) as Hn2. destruct g2 as [|z g2]; [contradiction|].
    cbn [concat app] in C1. assert (z = y) as -> by congruence.
    specialize (Hne g G). destruct g as [|x g]; [contradiction|].
    apply Forall_inv in Hg. 
    cbn [apart] in A1. apply Hi. rewrite <- Hg. apply (proj1 A1 x y); [left; reflexivity|left; reflexivity|congruence]. }
  induction gs as [|g gs IH]; intros gs' l G G'.
  - destruct gs' as [|g' gs']; [reflexivity|]. exfalso. destruct G as [C _], G' as [C' [F' _]]. cbn [concat] in C. subst l. apply Forall_inv in F'.
    specialize (Hne g' F'). destruct g'; [contradiction|discriminate].
  - destruct gs' as [|g' gs'].
    { exfalso. destruct G' as [C _], G as [C' [F' _]]. cbn [concat] in C. subst l. apply Forall_inv in F'. specialize (Hne g F'). destruct g; [contradiction|discriminate]. }
    pose proof (Hlen _ _ _ _ _ G G') as L1. pose proof (Hlen _ _ _ _ _ G' G) as L2. assert (L : length g = length g') by lia.
    destruct G as [C [F A']], G' as [C' [F' A'']]. cbn [concat] in C, C'.
    destruct (app_inj_length g (concat gs) g' (concat gs') L ltac:(congruence)) as [-> Ec]. f_equal.
    apply (IH gs' (concat gs)).
    + split; [reflexivity|]. split; [exact (Forall_inv_tail F)|]. destruct gs; [exact I|exact (proj2 A')].
    + split; [congruence|]. split; [exact (Forall_inv_tail F')|]. destruct gs'; [exact I|exact (proj2 A'')].
Qed.

(** ** Upgrade states, declaratively *)
Lemma upgrade_eqb_spec a b : upgrade_eqb a b = true <-> a = b.
Proof.
  destruct a as [c n a v s], b as [c' n' a' v' s']. unfold upgrade_eqb. cbn [current next_protocol approvals vote_before switch_on].
  rewrite !andb_true_iff, !N.eqb_eq, veqb. split.
  - intros [[[[-> Hn] ->] ->] ->]. destruct n as [x|], n' as [y|]; try discriminate; [apply veqb in Hn; subst|]; reflexivity.
  - intros E. assert (n = n') by congruence. subst n'. repeat split; try congruence. destruct n; [apply veqb_refl|reflexivity].
Qed.
Lemma upgrade_follows_lemma table m s r v s' p : lookup (current s) table = Some p -> rounds_fit table r -> approvals s + 1 < 2 ^ 64 ->
  apply_upgrade_vote table m s r v = (s', Ok tt) <-> upgrade_follows p s r v s'.
Proof.
  intros Hp Hr Ha. unfold apply_upgrade_vote. rewrite Hp. specialize (Hr _ _ Hp). unfold upgrade_follows.
  assert (Htail : forall s2, switch_over (clear_failed p s2 r) r = (s', Ok tt) <-> exists s3, failure_cleared p s2 r s3 /\ switched s3 r s').
  { intros s2.
    assert (Hc : forall s3, failure_cleared p s2 r s3 <-> s3 = clear_failed p s2 r).
    { intros s3. unfold failure_cleared, clear_failed. destruct (N.eqb_spec r (vote_before s2)), (N.ltb_spec (approvals s2) (upgrade_threshold p)); cbn [andb].
      - split; [intros [[_ E]|[E _]]; [exact E|exfalso; apply E; auto]|auto].
      - split; [intros [[[_ E] _]|[_ E]]; [lia|exact E]|intros ->; right; split; [lia|reflexivity]].
      - split; [intros [[[E _] _]|[_ E]]; [contradiction|exact E]|intros ->; right; split; [tauto|reflexivity]].
      - split; [intros [[[E _] _]|[_ E]]; [contradiction|exact E]|intros ->; right; split; [tauto|reflexivity]]. }
    assert (Hs : forall s3, switch_over s3 r = (s', Ok tt) <-> switched s3 r s').
    { intros s3. unfold switch_over, switched. destruct (N.eqb_spec r (switch_on s3)).
      - destruct (next_protocol s3) as [n|].
        + split; [intros E; left; split; [assumption|]; exists n; split; [reflexivity|congruence]|]. intros [[_ [n' [E1 E2]]]|[E _]]; [congruence|contradiction].
        + split; [discriminate|]. intros [[_ [n' [E1 E2]]]|[E _]]; [discriminate|contradiction].
      - split; [intros E; right; split; [assumption|congruence]|]. intros [[E _]|[_ E]]; [contradiction|congruence]. }
    split.
    - intros E. exists (clear_failed p s2 r). split; [apply Hc; reflexivity|apply Hs; exact E].
    - intros [s3 [E1 E2]]. apply Hc in E1. subst s3. apply Hs. exact E2. }
  assert (Happr : forall s1, approvals s1 + 1 < 2 ^ 64 ->
    (match apply_approval m s1 r v with (s2, Ok _) => switch_over (clear_failed p s2 r) r | x => x end) = (s', Ok tt) <->
    exists s2 s3, vote_counted s1 r v s2 /\ failure_cleared p s2 r s3 /\ switched s3 r s').
  { intros s1 Ha1. unfold apply_approval, vote_counted. destruct (approve v).
    - assert (Hn : is_next s1 (current s1) = true <-> next_protocol s1 = Some (current s1)).
      { unfold is_next. destruct (next_protocol s1) as [n|]; [rewrite veqb; split; congruence|split; discriminate]. }
      destruct (is_next s1 (current s1)).
      { split; [discriminate|]. intros [s2 [s3 [[[E _]|[_ [E _]]] _]]]; [discriminate|]. exfalso. apply E, Hn. reflexivity. }
      destruct (N.leb_spec (vote_before s1) r).
      { split; [discriminate|]. intros [s2 [s3 [[[E _]|[_ [_ [E _]]]] _]]]; [discriminate|lia]. }
      rewrite (add64_fits m _ _ Ha1). rewrite Htail. split.
      + intros [s3 [E1 E2]]. eexists. exists s3. split; [right; split; [reflexivity|]; split; [intros E; apply Hn in E; discriminate|]; split; [assumption|reflexivity]|]. split; assumption.
      + intros [s2 [s3 [[[E _]|[_ [_ [_ ->]]]] [E1 E2]]]]; [discriminate|]. exists s3. split; assumption.
    - rewrite Htail. split.
      + intros [s3 [E1 E2]]. exists s1, s3. split; [left; split; reflexivity|]. split; assumption.
      + intros [s2 [s3 [[[_ ->]|[E _]] [E1 E2]]]]; [|discriminate]. exists s3. split; assumption. }
  unfold apply_proposal, proposal_made. destruct (version_eqb (propose v) (current s)) eqn:Ev; cbn [negb].
  - apply veqb in Ev. destruct (N.eqb_spec (delay v) 0) as [Ed|Ed]; cbn [negb].
    + rewrite (Happr s Ha). split.
      * intros [s2 [s3 [E1 [E2 E3]]]]. exists s, s2, s3. split; [left; auto|auto].
      * intros [s1 [s2 [s3 [[[_ [_ ->]]|[E _]] [E1 E2]]]]]; [|contradiction]. exists s2, s3. auto.
    + split; [discriminate|]. intros [s1 [s2 [s3 [[[_ [E _]]|[E _]] _]]]]; contradiction.
  - apply veqb_false in Ev.
    assert (Hn : is_next s (current s) = true <-> next_protocol s = Some (current s)).
    { unfold is_next. destruct (next_protocol s) as [n|]; [rewrite veqb; split; congruence|split; discriminate]. }
    destruct (is_next s (current s)); cbn [negb].
    2:{ split; [discriminate|]. intros [s1 [s2 [s3 [[[E _]|[_ [E _]]] _]]]]; [contradiction|]. apply Hn in E. discriminate. }
    destruct (N.ltb_spec (max_upgrade_wait_rounds p) (delay v)) as [L|L]; cbn [orb].
    { split; [discriminate|]. intros [s1 [s2 [s3 [[[E _]|[_ [_ [_ [E _]]]]] _]]]]; [contradiction|lia]. }
    destruct (N.ltb_spec (delay v) (min_upgrade_wait_rounds p)) as [L'|L'].
    { split; [discriminate|]. intros [s1 [s2 [s3 [[[E _]|[_ [_ [E _]]]] _]]]]; [contradiction|lia]. }
    fold (wait p v). assert (Hw : wait p v <= N.max (default_upgrade_wait_rounds p) (max_upgrade_wait_rounds p)) by (unfold wait; destruct (delay v =? 0); lia).
    rewrite (add64_fits m r) by lia. rewrite (add64_fits m (r + upgrade_vote_rounds p)) by lia.
    rewrite Happr by (cbn; lia). split.
    + intros [s2 [s3 [E1 [E2 E3]]]]. eexists. exists s2, s3. split; [right; split; [exact Ev|]; split; [apply Hn; reflexivity|]; split; [assumption|]; split; [assumption|reflexivity]|]. auto.
    + intros [s1 [s2 [s3 [[[E _]|[_ [_ [_ [_ ->]]]]] [E1 E2]]]]]; [contradiction|]. exists s2, s3. auto.
Qed.

(** ** Successors *)
Section Chain.
Variables (table : list (version * params)) (H : bytes -> bytes).

Lemma check_rest_lemma m p self prev : timestamp prev + max_timestamp_increment p < 2 ^ 64 ->
  check_rest m p self prev = Ok tt <-> time_ok p (timestamp prev) (timestamp self) /\ genesis_ok p prev self.
Proof.
  intros Hf. unfold check_rest. cbv zeta.
  set (g := if is_empty (genesis_id self) then _ else _).
  assert (Hg : g = Ok tt <-> genesis_ok p prev self).
  { unfold g, genesis_ok. destruct (is_empty (genesis_id self)) eqn:E1.
    { apply is_empty_spec in E1. split; [discriminate|]. intros [E _]. contradiction. }
    assert (N1 : genesis_id self <> []) by (intros E; rewrite E in E1; discriminate).
    assert (Hid : negb (is_empty (genesis_id prev)) && negb (bytes_eqb (genesis_id self) (genesis_id prev)) = false <->
                  (genesis_id prev <> [] -> genesis_id self = genesis_id prev)).
    { rewrite andb_false_iff, !negb_false_iff, bytes_eqb_true, is_empty_spec. split; [tauto|]. intros A. destruct (genesis_id prev) eqn:Eg; [left; reflexivity|right; apply A; discriminate]. }
    destruct (negb (is_empty (genesis_id prev)) && negb (bytes_eqb (genesis_id self) (genesis_id prev))).
    { split; [discriminate|]. intros [_ [A _]]. apply Hid in A. discriminate. }
    pose proof (proj1 Hid eq_refl) as Hid'. clear Hid.
    destruct (support_genesis_hash p).
    - destruct (is_zero (genesis_hash self)) eqn:E2.
      { apply is_zero_true in E2. split; [discriminate|]. intros [_ [_ [A _]]]. contradiction. }
      apply is_zero_false in E2.
      assert (Hh : negb (is_zero (genesis_hash prev)) && negb (bytes_eqb (genesis_hash prev) (genesis_hash self)) = false <->
                   (genesis_hash prev <> zero32 -> genesis_hash self = genesis_hash prev)).
      { rewrite andb_false_iff, !negb_false_iff, bytes_eqb_true, is_zero_true. split; [intros [A|A] B; [contradiction|congruence]|].
        intros A. destruct (bytes_eq_dec (genesis_hash prev) zero32); [left; assumption|right; symmetry; apply A; assumption]. }
      destruct (negb (is_zero (genesis_hash prev)) && negb (bytes_eqb (genesis_hash prev) (genesis_hash self))).
      { split; [discriminate|]. intros [_ [_ [_ A]]]. apply Hh in A. discriminate. }
      split; [|reflexivity]. intros _. split; [exact N1|]. split; [exact Hid'|]. split; [exact E2|]. apply Hh. reflexivity.
    - destruct (is_zero (genesis_hash self)) eqn:E2; cbn [negb].
      + apply is_zero_true in E2. split; [|reflexivity]. auto.
      + apply is_zero_false in E2. split; [discriminate|]. intros [_ [_ A]]. contradiction. }
  unfold time_ok. destruct (N.ltb_spec 0 (timestamp prev)) as [L|L].
  - destruct (N.ltb_spec (timestamp self) (timestamp prev)) as [L1|L1].
    + split; [discriminate|]. intros [A _]. specialize (A ltac:(lia)). lia.
    + rewrite (add64_fits m _ _ Hf). destruct (N.ltb_spec (timestamp prev + max_timestamp_increment p) (timestamp self)) as [L2|L2].
      * split; [discriminate|]. intros [A _]. specialize (A ltac:(lia)). lia.
      * rewrite Hg. split; [intros G; split; [intros _; lia|exact G]|tauto].
  - rewrite Hg. split; [intros G; split; [intros Z; lia|exact G]|tauto].
Qed.

Lemma pre_check_lemma m self prev : successor_fits table prev self ->
  snd (pre_check table H m self prev) = Ok tt <-> successor table H prev self.
Proof.
  intros [F1 [F2 [F3 F4]]]. unfold pre_check, successor, params_of. unfold header_hash, header_rep. change (hash_rep BLOCK_HEADER (encode (header_value prev))) with (str "BH" ++ encode (header_value prev)).
  destruct (lookup (current (upgrade self)) table) as [p|] eqn:Ep.
  2:{ split; [discriminate|]. intros [p [q [E _]]]. discriminate. }
  rewrite (add64_fits m _ _ F2). destruct (N.eqb_spec (round prev + 1) (round self)) as [Er|Er]; cbn [negb].
  2:{ split; [discriminate|]. intros [p' [q [_ [_ [E _]]]]]. congruence. }
  destruct (bytes_eqb (branch self) (H (str "BH" ++ encode (header_value prev)))) eqn:Eb; cbn [negb].
  2:{ apply bytes_eqb_false in Eb. split; [discriminate|]. intros [p' [q [_ [_ [_ [E _]]]]]]. contradiction. }
  apply bytes_eqb_true in Eb.
  destruct (lookup (current (upgrade prev)) table) as [q|] eqn:Eq.
  2:{ split; [|intros [p' [q [_ [E _]]]]; discriminate]. unfold apply_upgrade_vote. rewrite Eq. discriminate. }
  pose proof (fun s' => upgrade_follows_lemma table m (upgrade prev) (round prev + 1) (vote self) s' q Eq F1 F3) as Hu.
  assert (Hq : forall p', Some p = Some p' -> p' = p) by congruence.
  destruct (apply_upgrade_vote table m (upgrade prev) (round prev + 1) (vote self)) as [u [[]|e|]] eqn:Ea; cbn [snd].
  - destruct (upgrade_eqb u (upgrade self)) eqn:Eu.
    + apply upgrade_eqb_spec in Eu. rewrite (check_rest_lemma m p self prev (F4 _ _ Ep)). split.
      * intros [A B]. exists p, q. split; [reflexivity|]. split; [reflexivity|]. split; [congruence|]. split; [exact Eb|]. split; [|split; assumption].
        rewrite <- Er. apply Hu. congruence.
      * intros [p' [q' [P1 [_ [_ [_ [_ [A B]]]]]]]]. apply Hq in P1. subst p'. split; assumption.
    + split; [discriminate|]. intros [p' [q' [P1 [P2 [_ [_ [A _]]]]]]]. assert (q' = q) as -> by congruence. rewrite <- Er in A. apply Hu in A.
      assert (upgrade_eqb u (upgrade self) = true) by (apply upgrade_eqb_spec; congruence). congruence.
  - split; [discriminate|]. intros [p' [q' [P1 [P2 [_ [_ [A _]]]]]]]. assert (q' = q) as -> by congruence. rewrite <- Er in A. apply Hu in A. discriminate.
  - split; [discriminate|]. intros [p' [q' [P1 [P2 [_ [_ [A _]]]]]]]. assert (q' = q) as -> by congruence. rewrite <- Er in A. apply Hu in A. discriminate.
Qed.
(** What a check leaves behind. *)
Lemma pre_check_effect m self prev : exists u, fst (pre_check table H m self prev) = set_upgrade prev u.
Proof.
  assert (Hs : prev = set_upgrade prev (upgrade prev)) by (destruct prev; reflexivity).
  unfold pre_check. destruct (params_of table self); [|exists (upgrade prev); exact Hs]. destruct (add64 _ _ _); [|exists (upgrade prev); exact Hs].
  destruct (negb _); [exists (upgrade prev); exact Hs|]. destruct (negb _); [exists (upgrade prev); exact Hs|].
  destruct (apply_upgrade_vote _ _ _ _ _) as [u [[]|e|]]; exists u; reflexivity.
Qed.

(** ** New blocks *)
Lemma block_time_lemma m p prev_time now t : prev_time + max_timestamp_increment p < 2 ^ 64 -> block_time m p prev_time now = Some t ->
  (prev_time = 0 -> t = now) /\
  (prev_time <> 0 -> prev_time <= t /\ t <= prev_time + max_timestamp_increment p /\
     (prev_time <= now -> now <= prev_time + max_timestamp_increment p -> t = now)).
Proof.
  intros Hf E. unfold block_time in E. destruct (N.ltb_spec 0 prev_time) as [L|L].
  - split; [lia|]. intros _. destruct (N.ltb_spec now prev_time) as [L1|L1]; [assert (t = prev_time) as -> by congruence; lia|].
    rewrite (add64_fits m _ _ Hf) in E. destruct (N.ltb_spec (prev_time + max_timestamp_increment p) now) as [L2|L2].
    + assert (t = prev_time + max_timestamp_increment p) as -> by congruence. lia.
    + assert (t = now) as -> by congruence. lia.
  - split; [congruence|lia].
Qed.
Lemma set_upgrade_value h u : header_value (set_upgrade h u) = header_value h.
Proof. reflexivity. Qed.

Lemma new_block_inv m now prev prev' b : new_block table H m now prev = (prev', Some b) ->
  exists v p, process_upgrade_params table m (round prev) (upgrade prev) = (upgrade (head b), Ok v) /\ vote (head b) = v /\
    prev' = set_upgrade prev (upgrade (head b)) /\ lookup (current (upgrade (head b))) table = Some p /\
    block_time m p (timestamp prev) now = Some (timestamp (head b)) /\ add64 m (round prev) 1 = Some (round (head b)) /\
    branch (head b) = header_hash H prev /\ genesis_id (head b) = genesis_id prev /\ genesis_hash (head b) = genesis_hash prev /\
    payset b = [] /\ contents_match_header table H b = Some true /\
    rs_fee_sink (rewards (head b)) = rs_fee_sink (rewards prev) /\ rs_rewards_pool (rewards (head b)) = rs_rewards_pool (rewards prev).
Proof.
  unfold new_block. destruct (process_upgrade_params table m (round prev) (upgrade prev)) as [u [v|e|]] eqn:Ep; try discriminate.
  intros E. assert (E1 : prev' = set_upgrade prev u) by congruence.
  destruct (lookup (current u) table) as [p|] eqn:El; [|congruence].
  destruct (block_time m p (timestamp prev) now) as [t|] eqn:Et; [|congruence]. destruct (add64 m (round prev) 1) as [r|] eqn:Er; [|congruence].
  cbv zeta in E. destruct (payset_commit_of table H _) as [root|] eqn:Ec; [|congruence].
  match type of E with (_, Some ?x) = _ => assert (b = x) as -> by congruence end. clear E. cbn [head payset round branch timestamp genesis_id genesis_hash upgrade vote rewards rs_fee_sink rs_rewards_pool].
  exists v, p. repeat (split; [first [reflexivity|assumption]|]). split; [|split; reflexivity].
  unfold contents_match_header.
  match goal with |- context [payset_commit_of table H ?b] => assert (Ec' : payset_commit_of table H b = Some root) end.
  { rewrite <- Ec. unfold payset_commit_of, params_of, tx_merkle_root. reflexivity. }
  rewrite Ec'. cbn [head tx_root]. rewrite bytes_eqb_refl. reflexivity.
Qed.
Lemma process_inv m r s u v : process_upgrade_params table m r s = (u, Ok v) ->
  exists r', add64 m r 1 = Some r' /\ apply_upgrade_vote table m s r' v = (u, Ok tt).
Proof.
  unfold process_upgrade_params. destruct (lookup (current s) table) as [p|]; [|discriminate]. unfold our_vote.
  destruct (add64 m r 1) as [r'|]; [|discriminate].
  assert (D : forall v0, (match apply_upgrade_vote table m s r' v0 with (s', Ok _) => (s', Ok v0) | (s', Err e) => (s', Err e) | (s', Panic) => (s', Panic) end)
              = (u, Ok v) -> exists r'0, Some r' = Some r'0 /\ apply_upgrade_vote table m s r'0 v = (u, Ok tt)).
  { intros v0 E. exists r'. split; [reflexivity|]. destruct (apply_upgrade_vote table m s r' v0) as [s' [[]|e|]] eqn:Ea; try congruence. }
  destruct (r' <? vote_before s); [destruct (next_protocol s); [|discriminate]|]; apply D.
Qed.

Lemma new_passes m now prev prev' b : new_block table H m now prev = (prev', Some b) ->
  (forall v p, lookup v table = Some p -> timestamp prev + max_timestamp_increment p < 2 ^ 64) ->
  genesis_id prev <> [] ->
  (forall p, lookup (current (upgrade (head b))) table = Some p -> (support_genesis_hash p = true <-> genesis_hash prev <> zero32)) ->
  snd (pre_check table H m (head b) prev) = Ok tt.
Proof.
  intros E Ht Hg Hh. destruct (new_block_inv _ _ _ _ _ E) as [v [p [P1 [P2 [P3 [P4 [P5 [P6 [P7 [P8 [P9 _]]]]]]]]]]].
  destruct (process_inv _ _ _ _ _ P1) as [r [R1 R2]]. unfold pre_check, params_of. rewrite P4, P6.
  rewrite N.eqb_refl. cbn [negb]. rewrite P7, bytes_eqb_refl. cbn [negb]. assert (r = round (head b)) as -> by congruence. rewrite P2, R2. cbn [snd].
  rewrite (proj2 (upgrade_eqb_spec _ _) eq_refl). apply (check_rest_lemma m p (head b) prev (Ht _ _ P4)). split.
  - unfold time_ok. destruct (block_time_lemma _ _ _ _ _ (Ht _ _ P4) P5) as [_ B]. intros Hn. destruct (B Hn) as [B1 [B2 _]]. split; assumption.
  - unfold genesis_ok. rewrite P8, P9. split; [exact Hg|]. split; [reflexivity|]. specialize (Hh p P4). destruct (support_genesis_hash p).
    + split; [apply Hh; reflexivity|reflexivity].
    + destruct (bytes_eq_dec (genesis_hash prev) zero32) as [|Hz]; [assumption|]. apply Hh in Hz. discriminate.
Qed.
Lemma new_passes_same m now prev prev' b : new_block table H m now prev = (prev', Some b) ->
  (forall v p, lookup v table = Some p -> timestamp prev + max_timestamp_increment p < 2 ^ 64) ->
  genesis_id prev <> [] ->
  (forall p, lookup (current (upgrade (head b))) table = Some p -> (support_genesis_hash p = true <-> genesis_hash prev <> zero32)) ->
  upgrade (head b) = upgrade prev ->
  snd (pre_check table H m (head b) prev') = Ok tt.
Proof.
  intros E Ht Hg Hh Hu. replace prev' with prev; [exact (new_passes m now prev prev' b E Ht Hg Hh)|].
  destruct (new_block_inv _ _ _ _ _ E) as [v [p [P1 [P2 [P3 _]]]]]. rewrite P3, Hu. destruct prev. reflexivity.
Qed.
(** Without a pending proposal a new block is only possible where the protocol is the newest
    and knows no upgrade. *)
Lemma new_panics m now prev p : lookup (current (upgrade prev)) table = Some p -> next_protocol (upgrade prev) = None -> vote_before (upgrade prev) = 0 ->
  (match approved_upgrades p with (k, _) :: _ => k | [] => CURRENT_CONSENSUS_VERSION end) <> current (upgrade prev) ->
  snd (new_block table H m now prev) = None.
Proof.
  intros Hp Hn Hb Hk. unfold new_block. unfold process_upgrade_params. rewrite Hp. unfold our_vote. rewrite Hn.
  destruct (add64 m (round prev) 1) as [r|]; [|reflexivity]. rewrite Hb. replace (r <? 0) with false by (symmetry; apply N.ltb_ge; lia).
  set (v0 := match approved_upgrades p with [] => no_vote | (k, d) :: _ => mkVote k d true end).
  assert (Hv : propose v0 <> current (upgrade prev)) by (unfold v0; destruct (approved_upgrades p) as [|[k d] l]; exact Hk).
  rewrite (no_proposal_lemma table m (upgrade prev) r v0 p Hp Hn Hv). reflexivity.
Qed.
End Chain.
