(** Proofs about accepted Merkle proofs for roots of unknown origin. *)
From Coq Require Import Permutation Sorting.Sorted.
From Verif Require Import Base BaseFacts MerkleArrayModel MerkleArraySpec MerkleArrayProofs AnyRootSpec.
Import ListNotations.

Section Two.
  Variable H : bytes -> bytes.
  Hypothesis Hlen : hash32 H.

  Definition node32 (n : N * bytes) : Prop := len32 (snd n).

  Definition order (p : N) (h s : bytes) : bytes := if N.even p then node_string h s else node_string s h.
  Lemma order_inj p h s h' s' : len32 h -> len32 s -> len32 h' -> len32 s' ->
    order p h s = order p h' s' -> h = h' /\ s = s'.
  Proof.
    unfold order. intros A B C D. destruct (N.even p); intros E; apply node_string_inj in E; tauto.
  Qed.

  (** Climbing depends on the positions and the number of hashes of the proof only. *)
  Lemma climb_same nodes : forall nodes' proof proof' up lft,
    map fst nodes = map fst nodes' -> length proof = length proof' ->
    climb nodes proof = Some (up, lft) ->
    exists up' lft', climb nodes' proof' = Some (up', lft') /\ map fst up = map fst up' /\ length lft = length lft'.
  Proof.
    induction nodes as [|[p h]|[p h] [q s] nodes IH1 IH2] using list_ind2; intros nodes' proof proof' up lft Ef El E.
    - destruct nodes'; [|discriminate]. cbn in E |- *. injection E as <- <-. exists [], proof'. auto.
    - destruct nodes' as [|[p' h'] [|]]; try discriminate. cbn in Ef. injection Ef as <-.
      cbn in E |- *. destruct proof as [|x proof]; [discriminate|]. destruct proof' as [|x' proof']; [discriminate|].
      injection E as <- <-. do 2 eexists. split; [reflexivity|]. split; [reflexivity|]. cbn in El. congruence.
    - destruct nodes' as [|[p' h'] [|[q' s'] nodes']]; try discriminate. cbn [map fst] in Ef. injection Ef as <- <- Ef.
      rewrite climb_cons2 in *. destruct (q =? (if N.even p then p + 1 else p - 1))%N.
      + destruct (climb nodes proof) as [[u l]|] eqn:Ec; [|discriminate]. injection E as <- <-.
        destruct (IH1 _ _ _ _ _ Ef El Ec) as (u' & l' & -> & F & L).
        do 2 eexists. split; [reflexivity|]. split; [cbn; congruence|exact L].
      + destruct proof as [|x proof]; [discriminate|]. destruct proof' as [|x' proof']; [discriminate|].
        destruct (climb ((q, s) :: nodes) proof) as [[u l]|] eqn:Ec; [|discriminate]. injection E as <- <-.
        destruct (IH2 ((q, s') :: nodes') proof proof' u l ltac:(cbn; congruence) ltac:(cbn in El; congruence) Ec) as (u' & l' & -> & F & L).
        do 2 eexists. split; [reflexivity|]. split; [cbn; congruence|exact L].
  Qed.

  (** Equal strings one level up come from equal nodes and proofs. *)
  Lemma climb_back nodes : forall nodes' proof proof' up lft,
    map fst nodes = map fst nodes' -> length proof = length proof' ->
    Forall node32 nodes -> Forall node32 nodes' -> Forall len32 proof -> Forall len32 proof' ->
    climb nodes proof = Some (up, lft) -> climb nodes' proof' = Some (up, lft) ->
    nodes = nodes' /\ proof = proof'.
  Proof.
    induction nodes as [|[p h]|[p h] [q s] nodes IH1 IH2] using list_ind2;
      intros nodes' proof proof' up lft Ef El N1 N2 P1 P2 E E'.
    - destruct nodes'; [|discriminate]. cbn in E, E'. split; [reflexivity|congruence].
    - destruct nodes' as [|[p' h'] [|]]; try discriminate. cbn in Ef. injection Ef as <-.
      cbn in E, E'. destruct proof as [|x proof]; [discriminate|]. destruct proof' as [|x' proof']; [discriminate|].
      injection E as <- <-. injection E' as E' ->.
      apply Forall_inv in N1, N2. apply Forall_inv in P1, P2. unfold node32 in *. cbn in N1, N2.
      apply (order_inj p) in E' as [-> ->]; auto.
    - destruct nodes' as [|[p' h'] [|[q' s'] nodes']]; try discriminate. cbn [map fst] in Ef. injection Ef as <- <- Ef.
      rewrite climb_cons2 in E, E'.
      apply Forall_cons_iff in N1 as [A1 N1]. apply Forall_cons_iff in N2 as [A2 N2]. unfold node32 in A1, A2. cbn in A1, A2.
      destruct (q =? (if N.even p then p + 1 else p - 1))%N.
      + apply Forall_cons_iff in N1 as [B1 N1]. apply Forall_cons_iff in N2 as [B2 N2]. unfold node32 in B1, B2. cbn in B1, B2.
        destruct (climb nodes proof) as [[u l]|] eqn:Ec; [|discriminate].
        destruct (climb nodes' proof') as [[u' l']|] eqn:Ec'; [|discriminate].
        injection E as <- <-. injection E' as E1 -> ->.
        apply (order_inj p) in E1 as [-> ->]; auto.
        destruct (IH1 _ _ _ _ _ Ef El N1 N2 P1 P2 Ec Ec') as [-> ->]. auto.
      + destruct proof as [|x proof]; [discriminate|]. destruct proof' as [|x' proof']; [discriminate|].
        destruct (climb ((q, s) :: nodes) proof) as [[u l]|] eqn:Ec; [|discriminate].
        destruct (climb ((q, s') :: nodes') proof') as [[u' l']|] eqn:Ec'; [|discriminate].
        injection E as <- <-. injection E' as E1 -> ->.
        apply Forall_cons_iff in P1 as [X1 P1]. apply Forall_cons_iff in P2 as [X2 P2].
        apply (order_inj p) in E1 as [-> ->]; auto.
        destruct (IH2 ((q, s') :: nodes') proof proof' u l ltac:(cbn; congruence) ltac:(cbn in El; congruence) N1 N2 P1 P2 Ec Ec') as [E2 ->].
        injection E2 as -> ->. auto.
  Qed.

  Lemma hashed_back (a b : list (N * bytes)) : map fst a = map fst b -> map (hashed H) a = map (hashed H) b ->
    a = b \/ collision_in H (map snd a) (map snd b).
  Proof.
    revert b. induction a as [|[p x] a IH]; intros [|[q y] b] Ef E; try discriminate; [left; reflexivity|].
    cbn [map fst hashed snd] in Ef, E. injection Ef as <- Ef. injection E as Exy E.
    destruct (bytes_eq_dec x y) as [->|Hne].
    - destruct (IH b Ef E) as [->|C]; [left; reflexivity|right]. eapply collision_in_mono; [| |exact C]; intros z Hz; right; exact Hz.
    - right. exists x, y. split; [left; reflexivity|]. split; [left; reflexivity|]. split; assumption.
  Qed.

  Lemma node32_hashed l : Forall node32 (map (hashed H) l).
  Proof. apply Forall_forall. intros n Hin. apply in_map_iff in Hin as (m & <- & _). apply Hlen. Qed.

  (** Two climbs from the same positions with proofs of the same length. *)
  Lemma climbs_agree k : forall nodes nodes' proof proof' fin k',
    climbs H k nodes proof fin -> climbs H k' nodes' proof' fin ->
    map fst nodes = map fst nodes' -> length proof = length proof' ->
    Forall node32 nodes -> Forall node32 nodes' -> Forall len32 proof -> Forall len32 proof' ->
    nodes = nodes' /\ proof = proof' \/
    collision_in H (climb_strings H k nodes proof) (climb_strings H k' nodes' proof').
  Proof.
    induction k as [|k IH]; intros nodes nodes' proof proof' fin k' C C' Ef El N1 N2 P1 P2.
    - inversion C as [n A1 A2 A3|]; subst. destruct proof'; [|discriminate].
      inversion C' as [n' B1 B2 B3|k0 nd pr up lft f Ecl Cl]; subst; [left; auto|].
      exfalso. destruct nodes' as [|[q s] [|]]; try discriminate. 
    - inversion C as [|k1 nd pr up lft f Ecl Cl]; subst.
      destruct (climb_same _ _ _ _ _ _ Ef El Ecl) as (up' & lft' & Ecl' & Fu & Ll).
      inversion C' as [n' B1 B2 B3|k1' nd' pr' up2 lft2 f' Ecl2 Cl2]; subst.
      { exfalso. destruct proof; [|discriminate]. destruct nodes as [|[q s] [|]]; try discriminate. }
      rewrite Ecl' in Ecl2. injection Ecl2 as <- <-.
      cbn [climb_strings]. rewrite Ecl, Ecl'.
      pose proof (climb_lens _ _ _ _ P1 Ecl) as L1. pose proof (climb_lens _ _ _ _ P2 Ecl') as L2.
      destruct (IH _ _ _ _ _ _ Cl Cl2 ltac:(rewrite !map_map; exact Fu) Ll (node32_hashed _) (node32_hashed _) L1 L2) as [[Eu El']|Cc].
      + subst lft'. destruct (hashed_back up up' Fu Eu) as [->|Cc].
        * left. exact (climb_back _ _ _ _ _ _ Ef El N1 N2 P1 P2 Ecl Ecl').
        * right. eapply collision_in_mono; [| |exact Cc]; intros z Hz; apply in_app_iff; left; exact Hz.
      + right. eapply collision_in_mono; [| |exact Cc]; intros z Hz; apply in_app_iff; right; exact Hz.
  Qed.

  Lemma climb_in nodes : forall proof up lft p h,
    Forall node32 nodes -> Forall len32 proof -> climb nodes proof = Some (up, lft) -> In (p, h) nodes ->
    len32 h /\ exists s, len32 s /\ In ((p / 2)%N, order p h s) up.
  Proof.
    induction nodes as [|[p0 h0]|[p0 h0] [q s] nodes IH1 IH2] using list_ind2; intros proof up lft p h Hn Hp E Hin.
    - contradiction.
    - cbn in E. destruct proof as [|x proof]; [discriminate|]. injection E as <- <-.
      destruct Hin as [Eq|[]]. injection Eq as <- <-. apply Forall_inv in Hn. apply Forall_inv in Hp.
      split; [exact Hn|]. exists x. split; [exact Hp|]. left. reflexivity.
    - rewrite climb_cons2 in E. apply Forall_cons_iff in Hn as [A Hn].
      destruct (q =? (if N.even p0 then p0 + 1 else p0 - 1))%N eqn:Eq.
      + apply N.eqb_eq in Eq. apply Forall_cons_iff in Hn as [B Hn]. unfold node32 in A, B. cbn in A, B.
        destruct (climb nodes proof) as [[u l]|] eqn:Ec; [|discriminate]. injection E as <- <-.
        destruct Hin as [E1|[E1|Hin]].
        * injection E1 as <- <-. split; [exact A|]. exists s. split; [exact B|]. left. reflexivity.
        * injection E1 as <- <-. split; [exact B|]. exists h0. split; [exact A|]. left.
          change (if N.even p0 then (p0 + 1)%N else (p0 - 1)%N) with (sib p0) in Eq. subst q.
          rewrite sib_half. f_equal. unfold order, sib. destruct (N.even p0) eqn:Ep.
          { apply even_spec2 in Ep as [k ->]. replace (N.even (2 * k + 1)) with false; [reflexivity|].
            symmetry. rewrite N.even_add_mul_2 || rewrite N.add_comm, N.even_add_mul_2. reflexivity. }
          { apply odd_spec2 in Ep as [k ->]. replace (2 * k + 1 - 1)%N with (2 * k)%N by lia.
            replace (N.even (2 * k)) with true; [reflexivity|]. symmetry. rewrite N.even_mul. reflexivity. }
        * destruct (IH1 _ _ _ _ _ Hn Hp Ec Hin) as (L & x & Lx & Hx). split; [exact L|]. exists x. split; [exact Lx|right; exact Hx].
      + destruct proof as [|x proof]; [discriminate|]. apply Forall_cons_iff in Hp as [X Hp].
        destruct (climb ((q, s) :: nodes) proof) as [[u l]|] eqn:Ec; [|discriminate]. injection E as <- <-.
        destruct Hin as [E1|Hin].
        * injection E1 as <- <-. split; [exact A|]. exists x. split; [exact X|]. left. reflexivity.
        * destruct (IH2 _ _ _ _ _ Hn Hp Ec Hin) as (L & y & Ly & Hy). split; [exact L|]. exists y. split; [exact Ly|right; exact Hy].
  Qed.

  (** Two climbs of the same height agree about common positions. *)
  Lemma climbs_common k : forall nodes nodes' proof proof' r p h h',
    climbs H k nodes proof [(0%N, r)] -> climbs H k nodes' proof' [(0%N, r)] ->
    Forall node32 nodes -> Forall node32 nodes' -> Forall len32 proof -> Forall len32 proof' ->
    In (p, h) nodes -> In (p, h') nodes' ->
    h = h' \/ collision_in H (climb_strings H k nodes proof) (climb_strings H k nodes' proof').
  Proof.
    induction k as [|k IH]; intros nodes nodes' proof proof' r p h h' C C' N1 N2 P1 P2 I1 I2.
    - inversion C; subst. inversion C'; subst. destruct I1 as [I1|[]]. destruct I2 as [I2|[]]. left. congruence.
    - inversion C as [|k1 nd pr up lft f Ecl Cl]; subst. inversion C' as [|k1' nd' pr' up' lft' f' Ecl' Cl']; subst.
      cbn [climb_strings]. rewrite Ecl, Ecl'.
      destruct (climb_in _ _ _ _ _ _ N1 P1 Ecl I1) as (L1 & s & Ls & J1).
      destruct (climb_in _ _ _ _ _ _ N2 P2 Ecl' I2) as (L2 & s' & Ls' & J2).
      destruct (IH _ _ _ _ _ (p / 2)%N (H (order p h s)) (H (order p h' s')) Cl Cl' (node32_hashed _) (node32_hashed _)
        (climb_lens _ _ _ _ P1 Ecl) (climb_lens _ _ _ _ P2 Ecl')
        (in_map (hashed H) _ _ J1) (in_map (hashed H) _ _ J2)) as [E|Cc].
      + destruct (bytes_eq_dec (order p h s) (order p h' s')) as [Eo|Hne].
        * left. apply order_inj in Eo; tauto.
        * right. exists (order p h s), (order p h' s'). split; [apply in_app_iff; left; exact (in_map snd _ _ J1)|].
          split; [apply in_app_iff; left; exact (in_map snd _ _ J2)|]. split; assumption.
      + right. eapply collision_in_mono; [| |exact Cc]; intros z Hz; apply in_app_iff; right; exact Hz.
  Qed.

  Lemma climbs_levels k nodes proof fin fuel : climbs H k nodes proof fin -> (k <= fuel)%nat ->
    levels_climbed H fuel nodes proof = k.
  Proof.
    intros C. revert fuel. induction C as [n|k nodes proof up lft fin Ec C IH]; intros fuel Hf.
    - destruct fuel; reflexivity.
    - destruct fuel as [|fuel]; [lia|]. cbn [levels_climbed]. rewrite Ec.
      assert (Hn : match proof, nodes with [], [_] => False | _, _ => True end).
      { destruct proof; [|exact I]. destruct nodes as [|[p h] [|]]; try exact I. discriminate. }
      destruct proof as [|x proof].
      + destruct nodes as [|n [|]]; [|contradiction|]; f_equal; apply IH; lia.
      + f_equal. apply IH. lia.
  Qed.

  Lemma accepted_climbs r claims nodes proof :
    claims <> [] -> NoDup (map fst claims) ->
    Permutation nodes (map (fun e => (fst e, H (snd e))) claims) -> sorted_by_position nodes ->
    verify H r (map (fun e => (fst e, H (snd e))) claims) proof = Some (Ok tt) ->
    exists k, (k <= 65)%nat /\ climbs H k nodes proof [(0%N, r)].
  Proof.
    intros Hne0 Hnd Hperm Hsort Hv. set (elems := map (fun e => (fst e, H (snd e))) claims) in *.
    assert (sort_items elems = nodes) as Es.
    { apply strict_unique.
      - apply sort_items_strict. unfold elems. rewrite map_map. cbn. exact Hnd.
      - apply sorted_by_position_strict. exact Hsort.
      - rewrite sort_items_perm. symmetry. exact Hperm. }
    unfold verify in Hv.
    assert (elems <> []) as Hne by (unfold elems; destruct claims; [contradiction|discriminate]).
    assert (exists e es, elems = e :: es) as (e0 & es & Eel) by (destruct elems; [contradiction|eauto]).
    rewrite Eel in Hv. rewrite <- Eel, Es in Hv. clear Es e0 es Eel.
    destruct (verify_loop H 65 0 nodes proof) as [[fin| |]|] eqn:El; try discriminate.
    destruct fin as [|[pos h] fin]; [discriminate|].
    destruct (negb (pos =? 0)%N || negb (bytes_eqb h r)) eqn:Ef; [discriminate|].
    apply orb_false_iff in Ef as [Ef1 Ef2]. apply negb_false_iff in Ef1, Ef2.
    apply N.eqb_eq in Ef1. apply bytes_eqb_spec in Ef2. subst pos h.
    assert (nodes <> []) as Hnn by (intros ->; apply Permutation_nil in Hperm; contradiction).
    apply verify_loop_climbs in El as (k & Hk & Hc); [|exact Hnn].
    assert (fin = []) as ->.
    { clear - Hc. remember ((0%N, r) :: fin) as f eqn:Ef. induction Hc as [n|]; [injection Ef; auto|auto]. }
    exists k. split; assumption.
  Qed.
End Two.

Lemma nodes_of_claims H (claims nodes : list (N * bytes)) p d :
  Permutation nodes (map (fun e => (fst e, H (snd e))) claims) -> In (p, d) claims -> In (p, H d) nodes.
Proof.
  intros P Hin. eapply Permutation_in; [symmetry; exact P|]. apply in_map_iff. exists (p, d). auto.
Qed.

Lemma sorted_positions (a b : list (N * bytes)) : sorted_by_position a -> sorted_by_position b ->
  Permutation (map fst a) (map fst b) -> map fst a = map fst b.
Proof.
  intros Ha Hb P. apply sorted_by_position_strict in Ha, Hb. apply StronglySorted_fst in Ha, Hb.
  apply (strictN_unique _ _ Ha Hb). intros x. split; apply Permutation_in; [exact P|symmetry; exact P].
Qed.

Lemma any_root_lemma (H : bytes -> bytes) (Hlen : hash32 H) r claims claims' nodes nodes' proof proof' :
  NoDup (map fst claims) -> NoDup (map fst claims') ->
  Forall (fun h => length h = 32) proof -> Forall (fun h => length h = 32) proof' ->
  Permutation nodes (map (fun e => (fst e, H (snd e))) claims) -> sorted_by_position nodes ->
  Permutation nodes' (map (fun e => (fst e, H (snd e))) claims') -> sorted_by_position nodes' ->
  verify H r (map (fun e => (fst e, H (snd e))) claims) proof = Some (Ok tt) ->
  verify H r (map (fun e => (fst e, H (snd e))) claims') proof' = Some (Ok tt) ->
  Permutation (map fst claims) (map fst claims') -> length proof = length proof' ->
  Permutation claims claims' /\ proof = proof' \/
  collision_in H (map snd claims ++ climb_strings H 65 nodes proof) (map snd claims' ++ climb_strings H 65 nodes' proof').
Proof.
  intros Hnd Hnd' Hp Hp' Pn Sn Pn' Sn' V V' Pf El.
  assert (claims = [] \/ claims <> []) as [->|Hne] by (destruct claims; [left; reflexivity|right; discriminate]).
  { apply Permutation_nil in Pf. apply map_eq_nil in Pf as ->. cbn in V, V'. left. split; [constructor|].
    destruct proof; [|discriminate]. destruct proof'; [reflexivity|discriminate]. }
  assert (Hne' : claims' <> []).
  { intros ->. apply Permutation_sym, Permutation_nil in Pf. apply map_eq_nil in Pf. contradiction. }
  destruct (accepted_climbs H r claims nodes proof Hne Hnd Pn Sn V) as (k & Hk & C).
  destruct (accepted_climbs H r claims' nodes' proof' Hne' Hnd' Pn' Sn' V') as (k' & Hk' & C').
  assert (F : forall cl nd, Permutation nd (map (fun e : N * bytes => (fst e, H (snd e))) cl) -> Permutation (map fst nd) (map fst cl)).
  { intros cl nd P. apply (Permutation_map fst) in P. rewrite map_map in P. exact P. }
  assert (L : forall cl nd, Permutation nd (map (fun e : N * bytes => (fst e, H (snd e))) cl) -> Forall node32 nd).
  { intros cl nd P. apply Forall_forall. intros n Hin. eapply Permutation_in in Hin; [|exact P].
    apply in_map_iff in Hin as (e & <- & _). apply Hlen. }
  assert (Ef : map fst nodes = map fst nodes').
  { apply sorted_positions; [exact Sn|exact Sn'|]. rewrite (F _ _ Pn), Pf. symmetry. exact (F _ _ Pn'). }
  destruct (climbs_agree H Hlen k nodes nodes' proof proof' _ k' C C' Ef El (L _ _ Pn) (L _ _ Pn') Hp Hp') as [[En Epf]|Cc].
  2:{ right. eapply collision_in_mono; [| |exact Cc]; intros z Hz; apply in_app_iff; right;
        eapply climbs_strings_mono; try eassumption. }
  subst nodes' proof'.
  (* the same hashes: the same data or a collision *)
  assert (D : (exists p d d', In (p, d) claims /\ In (p, d') claims' /\ d <> d' /\ H d = H d') \/
              (forall p d, In (p, d) claims -> In (p, d) claims')).
  { assert (G : forall cl, (forall e, In e cl -> In e claims) ->
      (exists p d d', In (p, d) claims /\ In (p, d') claims' /\ d <> d' /\ H d = H d') \/
      (forall p d, In (p, d) cl -> In (p, d) claims')).
    { induction cl as [|[p d] cl IH]; intros Hsub; [right; intros p d []|].
      destruct (IH (fun e He => Hsub e (or_intror He))) as [X|X]; [left; exact X|].
      pose proof (Hsub _ (or_introl eq_refl)) as Hin.
      pose proof (nodes_of_claims H claims nodes p d Pn Hin) as Hn.
      eapply Permutation_in in Hn; [|exact Pn']. apply in_map_iff in Hn as ([p' d'] & E & Hin'). cbn in E.
      injection E as -> Eh. destruct (bytes_eq_dec d d') as [->|Hd].
      - right. intros q e [Eq|He]; [injection Eq as <- <-; exact Hin'|exact (X q e He)].
      - left. exists p, d, d'. auto. }
    exact (G claims (fun e He => He)). }
  destruct D as [(p & d & d' & I1 & I2 & Hd & Eh)|D].
  - right. exists d, d'. split; [apply in_app_iff; left; change d with (snd (p, d)); apply in_map; exact I1|].
    split; [apply in_app_iff; left; change d' with (snd (p, d')); apply in_map; exact I2|]. split; assumption.
  - left. split; [|reflexivity]. apply NoDup_Permutation_bis.
    + exact (NoDup_map_inv _ _ Hnd).
    + apply Permutation_length in Pf. rewrite !map_length in Pf. lia.
    + intros [p d] Hin. exact (D p d Hin).
Qed.

Lemma same_height_lemma (H : bytes -> bytes) (Hlen : hash32 H) r claims claims' nodes nodes' proof proof' :
  NoDup (map fst claims) -> NoDup (map fst claims') ->
  Forall (fun h => length h = 32) proof -> Forall (fun h => length h = 32) proof' ->
  Permutation nodes (map (fun e => (fst e, H (snd e))) claims) -> sorted_by_position nodes ->
  Permutation nodes' (map (fun e => (fst e, H (snd e))) claims') -> sorted_by_position nodes' ->
  verify H r (map (fun e => (fst e, H (snd e))) claims) proof = Some (Ok tt) ->
  verify H r (map (fun e => (fst e, H (snd e))) claims') proof' = Some (Ok tt) ->
  levels_climbed H 65 nodes proof = levels_climbed H 65 nodes' proof' ->
  forall p d d', In (p, d) claims -> In (p, d') claims' ->
  d = d' \/
  collision_in H (map snd claims ++ climb_strings H 65 nodes proof) (map snd claims' ++ climb_strings H 65 nodes' proof').
Proof.
  intros Hnd Hnd' Hp Hp' Pn Sn Pn' Sn' V V' El p d d' I1 I2.
  assert (Hne : claims <> []) by (intros ->; contradiction).
  assert (Hne' : claims' <> []) by (intros ->; contradiction).
  destruct (accepted_climbs H r claims nodes proof Hne Hnd Pn Sn V) as (k & Hk & C).
  destruct (accepted_climbs H r claims' nodes' proof' Hne' Hnd' Pn' Sn' V') as (k' & Hk' & C').
  rewrite (climbs_levels H k _ _ _ 65 C Hk), (climbs_levels H k' _ _ _ 65 C' Hk') in El. subst k'.
  assert (L : forall cl nd, Permutation nd (map (fun e : N * bytes => (fst e, H (snd e))) cl) -> Forall node32 nd).
  { intros cl nd P. apply Forall_forall. intros n Hin. eapply Permutation_in in Hin; [|exact P].
    apply in_map_iff in Hin as (e & <- & _). apply Hlen. }
  destruct (climbs_common H Hlen k nodes nodes' proof proof' r p (H d) (H d') C C' (L _ _ Pn) (L _ _ Pn') Hp Hp'
    (nodes_of_claims H _ _ _ _ Pn I1) (nodes_of_claims H _ _ _ _ Pn' I2)) as [E|Cc].
  - destruct (bytes_eq_dec d d') as [->|Hd]; [left; reflexivity|right].
    exists d, d'. split; [apply in_app_iff; left; exact (in_map snd _ _ I1)|].
    split; [apply in_app_iff; left; exact (in_map snd _ _ I2)|]. split; assumption.
  - right. eapply collision_in_mono; [| |exact Cc]; intros z Hz; apply in_app_iff; right;
      eapply climbs_strings_mono; try eassumption.
Qed.

Lemma one_position_lemma (H : bytes -> bytes) (Hlen : hash32 H) r p d d' proof proof' :
  Forall (fun h => length h = 32) proof -> Forall (fun h => length h = 32) proof' ->
  verify H r [(p, H d)] proof = Some (Ok tt) -> verify H r [(p, H d')] proof' = Some (Ok tt) ->
  length proof = length proof' ->
  d = d' /\ proof = proof' \/
  collision_in H (d :: climb_strings H 65 [(p, H d)] proof) (d' :: climb_strings H 65 [(p, H d')] proof').
Proof.
  intros Hp Hp' V V' El.
  assert (S1 : forall h, sorted_by_position [(p, h)]).
  { intros h i j a b Ha Hb Hij. destruct i as [|i]; [|destruct i; discriminate]. destruct j as [|j]; [lia|destruct j; discriminate]. }
  assert (N1 : forall x : bytes, NoDup (map fst [(p, x)])) by (intros x; repeat constructor; intros []).
  destruct (any_root_lemma H Hlen r [(p, d)] [(p, d')] [(p, H d)] [(p, H d')] proof proof'
    (N1 d) (N1 d') Hp Hp' (Permutation_refl _) (S1 _) (Permutation_refl _) (S1 _) V V' (Permutation_refl _) El) as [[P E]|C].
  - left. split; [|exact E]. apply Permutation_length_1 in P. congruence.
  - right. exact C.
Qed.

(** A root with two elements at position 1. *)
Lemma two_heights (H : bytes -> bytes) (a d d' : bytes) :
  let root := H (node_string (H (node_string a (H d'))) (H d)) in
  verify H root [(1%N, H d)] [H (node_string a (H d'))] = Some (Ok tt) /\
  verify H root [(1%N, H d')] [a; H d] = Some (Ok tt).
Proof.
  cbv zeta. unfold verify, verify_loop. cbn [sort_items fold_right insert_item].
  split.
  - rewrite partial_up_verify. cbn -[bytes_eqb].
    change (MAX_HEIGHT <? 0 + 1)%N with false. change (N.even 1) with false. change (1 / 2)%N with 0%N.
    cbn -[bytes_eqb]. rewrite bytes_eqb_refl. reflexivity.
  - rewrite partial_up_verify. cbn -[bytes_eqb].
    change (MAX_HEIGHT <? 0 + 1)%N with false. change (MAX_HEIGHT <? 0 + 1 + 1)%N with false.
    change (N.even 1) with false. change (1 / 2)%N with 0%N. cbn -[bytes_eqb].
    rewrite ?partial_up_verify. cbn -[bytes_eqb].
    change (N.even 0) with true. change (0 / 2)%N with 0%N. cbn -[bytes_eqb]. rewrite bytes_eqb_refl. reflexivity.
Qed.
