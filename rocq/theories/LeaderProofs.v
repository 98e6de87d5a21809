From Coq Require Import Permutation.
From Verif Require Import Base BaseFacts MsgpackModel CommitteeModel CommitteeSpec CommitteeProofs LeaderSpec.
Local Open Scope N_scope.

Section Leader.
Variable H : bytes -> bytes.

(** A credential has the priority [m], and keeps it. *)
Definition has (c : credential) (m : N) : Prop := exists c', lowest_output H c = (c', Some m).
Lemma has_fun c m m' : has c m -> has c m' -> m = m'.
Proof. intros [a E] [b F]. congruence. Qed.
Lemma lowest_full c : complete c -> exists c' m, lowest_output H c = (c', Some m) /\ complete c' /\ has c' m.
Proof.
  intros Cc. destruct (lowest_loop_spec H (N.to_nat (weight c - 1)) c 1 0 Cc ltac:(lia)) as [c' [m [F1 [F2 [F3 _]]]]].
  exists c', m. split; [exact F1|]. split; [exact F3|].
  pose proof (lowest_stable H c c' m Cc F1) as S. destruct (lowest_output H c') as [c2 o] eqn:E. cbn in S. subst o. exists c2. exact E.
Qed.
Lemma has_ex c : complete c -> exists m, has c m.
Proof. intros Cc. destruct (lowest_full c Cc) as [c' [m [E _]]]. exists m, c'. exact E. Qed.
Lemma lt_full c d a b : complete c -> complete d -> has c a -> has d b ->
  exists c' d', lt H c d = (c', d', Some (a <? b)) /\ complete c' /\ complete d' /\ has c' a /\ has d' b.
Proof.
  intros Cc Cd Ha Hb. destruct (lowest_full c Cc) as [c' [m [E [Cc' Hc']]]], (lowest_full d Cd) as [d' [n [F [Cd' Hd']]]].
  assert (m = a) by (apply (has_fun c); [exists c'; exact E|exact Ha]). assert (n = b) by (apply (has_fun d); [exists d'; exact F|exact Hb]). subst m n.
  exists c', d'. unfold lt. rewrite E, F. auto.
Qed.
Lemma before_iff c d a b : complete c -> complete d -> has c a -> has d b -> (before H c d <-> a < b) /\ (not_before H c d <-> b <= a).
Proof.
  intros Cc Cd Ha Hb. destruct (lt_full c d a b Cc Cd Ha Hb) as [c' [d' [E _]]]. unfold before, not_before. rewrite E. cbn.
  destruct (N.ltb_spec a b); split; split; intros; try lia; try congruence.
Qed.

Lemma put_length cs i c : (i < length cs)%nat -> length (put cs i c) = length cs.
Proof. intros L. unfold put. rewrite app_length, firstn_length. cbn [length]. rewrite skipn_length. lia. Qed.
Lemma put_same cs i c : (i < length cs)%nat -> nth_error (put cs i c) i = Some c.
Proof. intros L. unfold put. rewrite nth_error_app2; rewrite firstn_length; [|lia]. replace (i - Nat.min i (length cs))%nat with O by lia. reflexivity. Qed.
Lemma put_other : forall cs i k c, (i < length cs)%nat -> k <> i -> nth_error (put cs i c) k = nth_error cs k.
Proof.
  induction cs as [|x cs IH]; intros i k c L Nk; [cbn in L; lia|]. destruct i as [|i].
  - destruct k as [|k]; [contradiction|]. reflexivity.
  - destruct k as [|k]; [reflexivity|]. cbn in L. change (nth_error (put cs i c) k = nth_error cs k). apply IH; lia.
Qed.

(** The lists agree place by place in priority. *)
Definition alike (cs ds : list credential) : Prop :=
  length cs = length ds /\ forall k c d, nth_error cs k = Some c -> nth_error ds k = Some d -> complete d /\ exists m, has c m /\ has d m.
Lemma history_spec : forall history cs ds, Forall complete cs -> alike cs ds -> Forall (places cs) history ->
  exists ds' answers, compare_each H ds history = Some (ds', answers) /\ length ds' = length cs /\
  Forall2 (fun p answer => exists c d, nth_error cs (fst p) = Some c /\ nth_error cs (snd p) = Some d /\ snd (lt H c d) = Some answer) history answers.
Proof.
  induction history as [|[i j] rest IH]; intros cs ds Cs [L A] P; cbn [compare_each].
  { exists ds, []. split; [reflexivity|]. split; [congruence|constructor]. }
  inversion P as [|? ? [Pi [Pj Nij]] P']; subst. cbn [fst snd] in *.
  destruct (nth_error cs i) as [c|] eqn:Ec; [|apply nth_error_None in Ec; lia]. destruct (nth_error cs j) as [d|] eqn:Ed; [|apply nth_error_None in Ed; lia].
  destruct (nth_error ds i) as [c1|] eqn:Ec1; [|apply nth_error_None in Ec1; lia]. destruct (nth_error ds j) as [d1|] eqn:Ed1; [|apply nth_error_None in Ed1; lia].
  destruct (A i c c1 Ec Ec1) as [Cc1 [a [Ha Ha1]]], (A j d d1 Ed Ed1) as [Cd1 [b [Hb Hb1]]].
  rewrite Forall_forall in Cs. pose proof (Cs c (nth_error_In _ _ Ec)) as Cc. pose proof (Cs d (nth_error_In _ _ Ed)) as Cd.
  destruct (lt_full c1 d1 a b Cc1 Cd1 Ha1 Hb1) as [c2 [d2 [E2 [Cc2 [Cd2 [Hc2 Hd2]]]]]]. rewrite E2.
  destruct (lt_full c d a b Cc Cd Ha Hb) as [c3 [d3 [E3 _]]].
  destruct (IH cs (put (put ds i c2) j d2)) as [ds' [answers [F1 [F2 F3]]]].
  - apply Forall_forall. exact Cs.
  - split; [rewrite !put_length; rewrite ?put_length; lia|]. intros k x y Ex Ey.
    destruct (Nat.eq_dec k j) as [-> | Nj].
    { rewrite put_same in Ey by (rewrite put_length; lia). assert (y = d2) by congruence. assert (x = d) by congruence. subst. eauto. }
    rewrite put_other in Ey by (rewrite ?put_length; lia). destruct (Nat.eq_dec k i) as [-> | Ni].
    { rewrite put_same in Ey by lia. assert (y = c2) by congruence. assert (x = c) by congruence. subst. eauto. }
    rewrite put_other in Ey by lia. exact (A k x y Ex Ey).
  - exact P'.
  - rewrite F1. exists ds', ((a <? b) :: answers). split; [reflexivity|]. split; [exact F2|]. constructor; [|exact F3].
    exists c, d. cbn [fst snd]. rewrite E3. auto.
Qed.
Lemma alike_refl cs : Forall complete cs -> alike cs cs.
Proof.
  intros Cs. split; [reflexivity|]. intros k c d E F. assert (c = d) by congruence. subst d. rewrite Forall_forall in Cs. pose proof (Cs c (nth_error_In _ _ E)) as Cc.
  split; [exact Cc|]. destruct (has_ex c Cc) as [m Hm]. eauto.
Qed.
Lemma history_lemma cs history : Forall complete cs -> Forall (places cs) history ->
  exists cs' answers, compare_each H cs history = Some (cs', answers) /\ length cs' = length cs /\
  Forall2 (fun p answer => exists c d, nth_error cs (fst p) = Some c /\ nth_error cs (snd p) = Some d /\ snd (lt H c d) = Some answer) history answers.
Proof. intros Cs P. apply history_spec; [exact Cs|apply alike_refl; exact Cs|exact P]. Qed.

Lemma order_lemma c d e : complete c -> complete d -> complete e ->
  (before H c d \/ not_before H c d) /\ not_before H c c /\ (before H c d -> not_before H d c) /\
  (before H c d -> before H d e -> before H c e) /\ (not_before H c d -> not_before H d e -> not_before H c e).
Proof.
  intros Cc Cd Ce. destruct (has_ex c Cc) as [x Hx], (has_ex d Cd) as [y Hy], (has_ex e Ce) as [z Hz].
  destruct (before_iff c d x y Cc Cd Hx Hy) as [A1 A2], (before_iff c c x x Cc Cc Hx Hx) as [B1 B2], (before_iff d c y x Cd Cc Hy Hx) as [C1 C2],
    (before_iff d e y z Cd Ce Hy Hz) as [D1 D2], (before_iff c e x z Cc Ce Hx Hz) as [E1 E2].
  rewrite A1, A2, B2, C2, D1, D2, E1, E2. lia.
Qed.

Lemma leader_ex cs : cs <> [] -> Forall complete cs -> exists c, leads H cs c.
Proof.
  induction cs as [|c cs IH]; [contradiction|]. intros _ Cs. inversion Cs as [|? ? Cc Cs']; subst. destruct cs as [|d cs].
  - exists c. split; [left; reflexivity|]. intros d [-> | []]. destruct (order_lemma d d d Cc Cc Cc) as [_ [R _]]. exact R.
  - destruct (IH ltac:(discriminate) Cs') as [l [Il Ll]]. assert (Cl : complete l) by (rewrite Forall_forall in Cs'; apply Cs'; exact Il).
    destruct (order_lemma c l l Cc Cl Cl) as [[B|B] [R [As [_ _]]]].
    + exists c. split; [left; reflexivity|]. intros e [-> | Ie]; [exact R|]. assert (Ce : complete e) by (rewrite Forall_forall in Cs'; apply Cs'; exact Ie).
      destruct (order_lemma e l c Ce Cl Cc) as [_ [_ [_ [_ T]]]]. apply T; [apply Ll; exact Ie|apply As; exact B].
    + exists l. split; [right; exact Il|]. intros e [<- | Ie]; [exact B|apply Ll; exact Ie].
Qed.
Lemma leaders_tie cs ds c d : Permutation cs ds -> leads H cs c -> leads H ds d -> not_before H c d /\ not_before H d c /\ leads H cs d.
Proof.
  intros P [Ic Lc] [Id Ld]. split; [apply Ld; eapply Permutation_in; eassumption|]. split; [apply Lc; eapply Permutation_in; [apply Permutation_sym|]; eassumption|].
  split; [eapply Permutation_in; [apply Permutation_sym|]; eassumption|]. intros e Ie. apply Ld. eapply Permutation_in; eassumption.
Qed.

Lemma weight_values c w i : counter_value H (with_weight c w) i = counter_value H c i.
Proof. reflexivity. Qed.
Lemma heavier_lemma c v w : complete c -> 2 <= v <= w -> not_before H (with_weight c v) (with_weight c w).
Proof.
  intros Cc L. assert (C1 : complete (with_weight c v)) by exact Cc. assert (C2 : complete (with_weight c w)) by exact Cc.
  destruct (lowest_lemma H (with_weight c v) C1 ltac:(cbn; lia)) as [c1 [m [E [[i [Hi Ei]] M]]]].
  destruct (lowest_lemma H (with_weight c w) C2 ltac:(cbn; lia)) as [c2 [n [F [_ M2]]]].
  apply (before_iff _ _ m n C1 C2); [exists c1; exact E|exists c2; exact F|]. rewrite <- Ei, weight_values. rewrite <- (weight_values c w). apply M2. cbn in *. lia.
Qed.
Lemma one_leads c d : weight c = 1 -> complete d -> not_before H d c.
Proof.
  intros E Cd. destruct (has_ex d Cd) as [m [d' Hm]]. unfold not_before, lt. rewrite Hm, (lowest_small H c) by lia. cbn [snd]. f_equal. apply N.ltb_ge. lia.
Qed.
Lemma one_beats c d : weight c = 1 -> complete d -> 2 <= weight d -> (forall i, 1 <= i < weight d -> counter_value H d i <> 0) -> before H c d.
Proof.
  intros E Cd Hw Hv. destruct (lowest_lemma H d Cd Hw) as [d' [m [F [[i [Hi Ei]] _]]]]. unfold before, lt. rewrite F, (lowest_small H c) by lia. cbn.
  f_equal. apply N.ltb_lt. specialize (Hv i ltac:(lia)). lia.
Qed.
End Leader.
