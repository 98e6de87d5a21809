From Coq Require Import SpecFloat Reals.
From Flocq Require Import Core BinarySingleNaN.
From Verif Require Import Base BaseFacts MsgpackModel MsgpackProofs ConsensusModel DomainModel BasicsModel CommitteeModel CommitteeSpec FloatFacts.
From Verif Require VrfModel VrfSpec VrfProofs.
Local Open Scope N_scope.

(** ** Sortition *)
Lemma walk_spec f : forall k i, let w := walk f i k in
  i <= w /\ w <= i + N.of_nat k /\ (forall j, i <= j -> j < w -> f j = false) /\ (w < i + N.of_nat k -> f w = true).
Proof.
  induction k as [|k IH]; intros i; cbn [walk]; cbv zeta.
  - split; [lia|]. split; [lia|]. split; [intros; lia|lia].
  - destruct (f i) eqn:Ef.
    + split; [lia|]. split; [lia|]. split; [intros; lia|auto].
    + destruct (IH (i + 1)) as [A [B [D E]]]. split; [lia|]. split; [lia|]. split.
      * intros j H1 H2. destruct (N.eq_dec j i) as [->|]; [exact Ef|]. apply D; lia.
      * intros L. apply E. lia.
Qed.
Lemma ge_reaches a b : f64_ge a b = true <-> reaches a b.
Proof. unfold f64_ge, reaches. destruct (SFcompare a b) as [[]|]; split; try discriminate; auto; intros [E|E]; discriminate. Qed.

Lemma walk_mono f g : (forall i, g i = true -> f i = true) -> forall k i, walk f i k <= walk g i k.
Proof.
  intros Hfg. induction k as [|k IH]; intros i; cbn [walk]; [lia|]. destruct (g i) eqn:Eg.
  - rewrite (Hfg i Eg). lia.
  - destruct (f i); [|apply IH]. pose proof (walk_spec g k (i + 1)) as W. cbv zeta in W. lia.
Qed.
Lemma be_acc_bound s : forall acc, be_acc acc s < (acc + 1) * 256 ^ N.of_nat (length s).
Proof.
  induction s as [|b s IH]; intros acc; cbn [be_acc length]; [cbn; lia|].
  rewrite Nat2N.inj_succ, N.pow_succ_r'. specialize (IH (acc * 256 + Byte.to_N b)). pose proof (Byte.to_N_bounded b).
  eapply N.lt_le_trans; [exact IH|]. rewrite N.mul_assoc. apply N.mul_le_mono_r. lia.
Qed.
Lemma be_val_bound s : be_val s < 256 ^ N.of_nat (length s).
Proof. pose proof (be_acc_bound s 0). unfold be_val. lia. Qed.
Lemma output_bound h : length h = 32%nat -> be_val h <= max_output.
Proof. intros L. pose proof (be_val_bound h) as B. rewrite L in B. change (256 ^ N.of_nat 32) with (2 ^ 256) in B. unfold max_output. lia. Qed.
Lemma max_output_pos : 0 < max_output.
Proof. reflexivity. Qed.

Section Sortition.
Variable cdf : f64 -> N -> N -> f64.

Lemma quantile_lemma money total e h w : select cdf money total e h = Some w ->
  least_or money (fun i => reaches (cdf (f64_div e (u64_as_f64 total)) money i) (ratio_to_f64 (be_val h) (2 ^ 256 - 1))) w.
Proof.
  unfold select, sortition_binomial_cdf_walk. destruct (_ || _ || _)%bool; [discriminate|]. intros E.
  match type of E with Some (walk ?f 0 ?k) = _ => pose proof (walk_spec f k 0) as W; assert (w = walk f 0 k) as -> by congruence end. clear E.
  cbv zeta in W. destruct W as [_ [W1 [W2 W3]]]. split; [lia|]. split.
  - intros i Hi R. apply ge_reaches in R. specialize (W2 i ltac:(lia) Hi). cbv beta in W2. unfold max_output in W2. congruence.
  - intros L. apply ge_reaches. apply W3. lia.
Qed.
Lemma quantile_monotone money total e h w : select cdf money total e h = Some w ->
  (forall i j r, i <= j -> j < money -> reaches (cdf (f64_div e (u64_as_f64 total)) money i) r -> reaches (cdf (f64_div e (u64_as_f64 total)) money j) r) ->
  forall i, i < money -> (w <= i <-> reaches (cdf (f64_div e (u64_as_f64 total)) money i) (ratio_to_f64 (be_val h) (2 ^ 256 - 1))).
Proof.
  intros E M i Hi. destruct (quantile_lemma _ _ _ _ _ E) as [A [B D]]. split.
  - intros L. apply (M w i); [exact L|exact Hi|]. apply D. lia.
  - intros R. destruct (N.le_gt_cases w i) as [|L]; [assumption|]. exfalso. exact (B i L R).
Qed.
Lemma select_defined money total e h : 0 < total -> e <= total -> total <= 2 ^ 64 -> exists w, select cdf money total (u64_as_f64 e) h = Some w.
Proof.
  intros Ht He Hb. destruct (probability_ok e total Ht He Hb) as [p [P1 [P2 [P3 _]]]]. unfold select, sortition_binomial_cdf_walk. rewrite P1, probability_accepted by assumption. eauto.
Qed.
Lemma select_monotone money total e h h' w w' : (forall p n k, is_f64 (cdf p n k)) -> length h = 32%nat -> length h' = 32%nat -> be_val h <= be_val h' ->
  select cdf money total e h = Some w -> select cdf money total e h' = Some w' -> w <= w'.
Proof.
  intros V L L' Hle. unfold select, sortition_binomial_cdf_walk. destruct (_ || _ || _)%bool; [discriminate|]. intros E E'.
  match type of E with Some ?x = _ => assert (w = x) as -> by congruence end. match type of E' with Some ?x = _ => assert (w' = x) as -> by congruence end.
  apply walk_mono. intros i Hi. destruct (ratio_mono (be_val h) (be_val h') max_output max_output_pos Hle (output_bound h' L')) as [b [b' [B1 [B2 [B3 [B4 B5]]]]]].
  rewrite B1. rewrite B2 in Hi. exact (ge_mono _ b b' (V _ _ _) B3 B4 B5 Hi).
Qed.

(** ** Verification *)
Section Verify.
Variables (C : VrfModel.curve) (H : bytes -> bytes).
Lemma deciding H' proto out addr : (if credential_domain_separation_enabled proto then H' (hashable_rep (mkHashable out addr 0)) else H' (out ++ addr)) = deciding_hash H' proto out addr.
Proof. unfold deciding_hash, deciding_input. destruct (credential_domain_separation_enabled proto); reflexivity. Qed.
Lemma totals_dec stake total expected : 
  (total <? stake = false /\ ((total =? 0) || (expected =? 0) || (total <? expected))%bool = false /\ totals_ok stake total expected) \/
  ((total <? stake = true \/ ((total =? 0) || (expected =? 0) || (total <? expected))%bool = true) /\ ~ totals_ok stake total expected).
Proof.
  unfold totals_ok. destruct (N.ltb_spec total stake); [right; split; [auto|lia]|].
  destruct (N.eqb_spec total 0), (N.eqb_spec expected 0), (N.ltb_spec total expected); cbn [orb]; first [left; repeat (split; [reflexivity|]); lia|right; split; [auto|lia]].
Qed.
Lemma verify_ok proto self mem c : total_money mem <= 2 ^ 64 ->
  verify cdf C H proto self mem = Ok c <->
  exists out w, output_of C H mem self = Ok out /\
    totals_ok (voting_stake (mem_data mem)) (total_money mem) (committee_size (mem_selector mem) proto) /\
    voting_stake (mem_data mem) <> 0 /\ w <> 0 /\
    select cdf (voting_stake (mem_data mem)) (total_money mem) (u64_as_f64 (committee_size (mem_selector mem) proto)) (deciding_hash H proto out (mem_addr mem)) = Some w /\
    c = mkCredential w (deciding_hash H proto out (mem_addr mem)) (credential_domain_separation_enabled proto)
          (if credential_domain_separation_enabled proto then Some (mkHashable out (mem_addr mem) 0) else None) self.
Proof.
  intros Hb. unfold verify. fold (output_of C H mem self). destruct (output_of C H mem self) as [out|e|].
  2:{ split; [discriminate|]. intros [o [w [E _]]]. discriminate. }
  2:{ split; [discriminate|]. intros [o [w [E _]]]. discriminate. }
  cbv zeta. rewrite deciding. set (u := voting_stake (mem_data mem)). set (ex := committee_size (mem_selector mem) proto).
  destruct (totals_dec u (total_money mem) ex) as [[T1 [T2 T3]]|[T1 T2]].
  - rewrite T1, T2. destruct (N.eqb_spec u 0) as [Eu|Eu]; cbv beta iota.
    + cbn [N.eqb]. split; [discriminate|]. intros [o [w [_ [_ [E _]]]]]. contradiction.
    + destruct T3 as [T3 [T4 [T5 T6]]]. destruct (select_defined u (total_money mem) ex (deciding_hash H proto out (mem_addr mem)) T4 T6 Hb) as [w Ew]. rewrite Ew.
      destruct (N.eqb_spec w 0) as [Z|Z].
      * split; [discriminate|]. intros [o [w' [E1 [_ [_ [E2 [E3 _]]]]]]]. assert (o = out) by congruence. subst o. congruence.
      * split.
        -- intros E. exists out, w. split; [reflexivity|]. split; [split; [|split; [|split]]; assumption|]. split; [exact Eu|]. split; [exact Z|]. split; [exact Ew|]. congruence.
        -- intros [o [w' [E1 [_ [_ [_ [E3 E4]]]]]]]. assert (o = out) by congruence. subst o. assert (w' = w) by congruence. subst w'. congruence.
  - destruct T1 as [T1|T1]; rewrite T1; [|destruct (total_money mem <? u)]; (split; [discriminate|]); intros [o [w [_ [E _]]]]; contradiction.
Qed.
Lemma verify_panic proto self mem : total_money mem <= 2 ^ 64 ->
  verify cdf C H proto self mem = Panic <->
  output_of C H mem self = Panic \/
  (exists out, output_of C H mem self = Ok out) /\ ~ totals_ok (voting_stake (mem_data mem)) (total_money mem) (committee_size (mem_selector mem) proto).
Proof.
  intros Hb. unfold verify. fold (output_of C H mem self). destruct (output_of C H mem self) as [out|e|].
  2:{ split; [discriminate|]. intros [E|[[o E] _]]; discriminate. }
  2:{ split; auto. }
  cbv zeta. rewrite deciding. set (u := voting_stake (mem_data mem)). set (ex := committee_size (mem_selector mem) proto).
  destruct (totals_dec u (total_money mem) ex) as [[T1 [T2 T3]]|[T1 T2]].
  - rewrite T1, T2. split; [|intros [E|[_ E]]; [discriminate|contradiction]]. destruct T3 as [T3 [T4 [T5 T6]]].
    destruct (N.eqb_spec u 0); [cbn; discriminate|]. destruct (select_defined u (total_money mem) ex (deciding_hash H proto out (mem_addr mem)) T4 T6 Hb) as [w Ew]. rewrite Ew.
    destruct (w =? 0); discriminate.
  - split; [intros _; right; split; [eauto|exact T2]|]. intros _. destruct T1 as [T1|T1]; rewrite T1; [reflexivity|]. destruct (total_money mem <? u); reflexivity.
Qed.
Lemma verify_weight proto self mem c : total_money mem <= 2 ^ 64 -> verify cdf C H proto self mem = Ok c -> 0 < weight c /\ weight c <= voting_stake (mem_data mem) /\ selected c = true /\ complete c.
Proof.
  intros Hb E. apply verify_ok in E; [|exact Hb]. destruct E as [out [w [_ [_ [_ [Z [E ->]]]]]]]. cbn [weight]. apply quantile_lemma in E. destruct E as [E _].
  split; [lia|]. split; [exact E|]. split; [unfold selected; cbn [weight]; apply N.ltb_lt; lia|]. intros D. cbn in *. rewrite D. discriminate.
Qed.
Lemma verify_err proto self mem : total_money mem <= 2 ^ 64 ->
  (verify cdf C H proto self mem = Err VrfVerifyFailed <-> exists e, output_of C H mem self = Err e).
Proof.
  intros Hb. unfold verify. fold (output_of C H mem self). destruct (output_of C H mem self) as [out|e|].
  - split; [|intros [e E]; discriminate]. cbv zeta. destruct (_ <? _); [discriminate|]. destruct (_ || _ || _)%bool; [discriminate|].
    destruct (if _ =? 0 then _ else _) as [w|]; [|discriminate]. destruct (w =? 0); discriminate.
  - split; [eauto|reflexivity].
  - split; [discriminate|intros [e E]; discriminate].
Qed.
Lemma own_credential proto seed sel mem : VrfSpec.curve_ok C -> mem_selector mem = sel -> selection_id (mem_data mem) = VrfModel.public_key (VrfModel.from_seed C seed) ->
  total_money mem <= 2 ^ 64 -> totals_ok (voting_stake (mem_data mem)) (total_money mem) (committee_size sel proto) ->
  (exists c, verify cdf C H proto (new_credential C H (VrfModel.from_seed C seed) sel) mem = Ok c) \/
  verify cdf C H proto (new_credential C H (VrfModel.from_seed C seed) sel) mem = Err ZeroWeight.
Proof.
  intros OK Es Ek Hb T. unfold new_credential. destruct (VrfProofs.completeness_lemma C OK seed (H (sel_rep sel))) as [out [_ V]].
  set (pr := VrfModel.prove_bytes C (VrfModel.from_seed C seed) (H (sel_rep sel))) in *.
  assert (O : output_of C H mem pr = Ok out) by (unfold output_of; rewrite Es, Ek; exact V).
  destruct (verify cdf C H proto pr mem) as [c|[|]|] eqn:E; [eauto| |auto|].
  - apply (verify_err proto pr mem Hb) in E. destruct E as [e E]. congruence.
  - apply (verify_panic proto pr mem Hb) in E. destruct E as [E|[_ E]]; [congruence|]. subst sel. contradiction.
Qed.
End Verify.

End Sortition.
(** ** Priorities *)
Lemma be_acc_split s : forall acc, be_acc acc s = acc * 256 ^ N.of_nat (length s) + be_val s.
Proof.
  unfold be_val. induction s as [|b s IH]; intros acc; cbn [be_acc length]; [cbn; lia|].
  rewrite IH, (IH (0 * 256 + _)), Nat2N.inj_succ, N.pow_succ_r'. lia.
Qed.
Lemma be_of_val s : forall n, n mod 256 ^ N.of_nat (length s) = be_val s -> be (length s) n = s.
Proof.
  induction s as [|b s IH]; intros n E; cbn [be length]; [reflexivity|].
  unfold be_val in E. cbn [be_acc length] in E. rewrite be_acc_split in E. pose proof (be_val_bound s) as B.
  rewrite Nat2N.inj_succ, N.pow_succ_r' in E. set (p := 256 ^ N.of_nat (length s)) in *. assert (p <> 0) by (apply N.pow_nonzero; lia).
  rewrite (N.mul_comm 256 p), N.mod_mul_r in E by lia.
  pose proof (Byte.to_N_bounded b) as Bb. pose proof (N.mod_lt n p ltac:(lia)) as Bm.
  assert (E1 : (n / p) mod 256 = Byte.to_N b /\ n mod p = be_val s).
  { replace (0 * 256 + Byte.to_N b) with (Byte.to_N b) in E by lia. 
    assert (E' : p * ((n / p) mod 256) + n mod p = p * Byte.to_N b + be_val s) by lia.
    destruct (N.div_mod_unique p ((n / p) mod 256) (Byte.to_N b) (n mod p) (be_val s) Bm B E') as [E1 E2]. auto. }
  destruct E1 as [E1 E2]. f_equal; [|apply IH; exact E2].
  apply to_N_inj. rewrite to_N_b8. exact E1.
Qed.
Lemma be_of_be_val s : be (length s) (be_val s) = s.
Proof. apply be_of_val. apply N.mod_small, be_val_bound. Qed.
Lemma be_pad j k n : n < 256 ^ N.of_nat k -> be (j + k) n = repeat x00 j ++ be k n.
Proof.
  intros Hn. induction j as [|j IH]; cbn [Nat.add be repeat app]; [reflexivity|]. rewrite IH. f_equal.
  rewrite N.div_small; [reflexivity|]. eapply N.lt_le_trans; [exact Hn|]. apply N.pow_le_mono_r; lia.
Qed.
Lemma big_bytes_pad n : n < 2 ^ 256 -> (length (big_bytes n) <= 32)%nat /\ repeat x00 (32 - length (big_bytes n)) ++ big_bytes n = be 32 n.
Proof.
  intros Hn. unfold big_bytes. rewrite be_length. set (k := N.max 1 ((N.size n + 7) / 8)).
  assert (Hs : N.size n <= 256).
  { destruct (N.eq_dec n 0) as [->|]; [cbn; lia|]. rewrite N.size_log2 by assumption. assert (N.log2 n < 256) by (apply N.log2_lt_pow2; lia). lia. }
  assert (Hk : k <= 32) by (unfold k; lia). split; [lia|].
  rewrite <- be_pad; [f_equal; lia|]. rewrite N2Nat.id. eapply N.lt_le_trans; [apply N.size_gt|].
  change 256 with (2 ^ 8). rewrite <- N.pow_mul_r. apply N.pow_le_mono_r; [lia|]. unfold k. lia.
Qed.

Section Lowest.
Variable H : bytes -> bytes.
Lemma output_hash_value c i : complete c -> exists h, output_hash H c i = Some h /\ be_val h = counter_value H c i.
Proof.
  unfold complete, output_hash, counter_value. destruct (domain_separation_enabled c); intros Cc; [|eauto].
  destruct (hashable c) as [h|]; [|exfalso; apply Cc; reflexivity]. eauto.
Qed.
Lemma with_iter_same c i j : counter_value H (with_iter c i) j = counter_value H c j.
Proof. unfold counter_value, with_iter. cbn. destruct (domain_separation_enabled c), (hashable c); reflexivity. Qed.
Lemma with_iter_complete c i : complete c -> complete (with_iter c i).
Proof. unfold complete, with_iter. cbn. intros Cc D. specialize (Cc D). destruct (hashable c); [discriminate|contradiction]. Qed.
Lemma with_iter_weight c i : weight (with_iter c i) = weight c. Proof. reflexivity. Qed.
Lemma lowest_loop_spec : forall k c i low, complete c -> 1 <= i ->
  exists c' m, lowest_loop H c i k low = (c', Some m) /\ weight c' = weight c /\ complete c' /\ (forall j, counter_value H c' j = counter_value H c j) /\
    (k = O -> m = low) /\
    (k <> O -> i = 1 -> minimum_of (counter_value H c) i (i + N.of_nat k - 1) m) /\
    (k <> O -> i <> 1 -> (m = low \/ exists j, i <= j <= i + N.of_nat k - 1 /\ counter_value H c j = m) /\ m <= low /\ (forall j, i <= j <= i + N.of_nat k - 1 -> m <= counter_value H c j)).
Proof.
  induction k as [|k IH]; intros c i low Cc Hi; cbn [lowest_loop].
  { exists c, low. split; [reflexivity|]. split; [reflexivity|]. split; [exact Cc|]. split; [reflexivity|]. split; [reflexivity|]. split; intros E; contradiction. }
  destruct (output_hash_value c i Cc) as [h [E1 E2]]. rewrite E1. cbv zeta. rewrite E2.
  set (c1 := if domain_separation_enabled c then with_iter c i else c).
  assert (W1 : weight c1 = weight c) by (unfold c1; destruct (domain_separation_enabled c); reflexivity).
  assert (C1 : complete c1) by (unfold c1; destruct (domain_separation_enabled c); [apply with_iter_complete|]; exact Cc).
  assert (V1 : forall j, counter_value H c1 j = counter_value H c j) by (intros j; unfold c1; destruct (domain_separation_enabled c); [apply with_iter_same|reflexivity]).
  set (low1 := if i =? 1 then _ else _).
  destruct (IH c1 (i + 1) low1 C1 ltac:(lia)) as [c' [m [F1 [F2 [F3 [F4 [F5 [_ F7]]]]]]]].
  exists c', m. split; [exact F1|]. split; [congruence|]. split; [exact F3|]. split; [intros j; rewrite F4; apply V1|]. split; [discriminate|].
  assert (Hl : (i = 1 -> low1 = counter_value H c i) /\ (i <> 1 -> low1 = N.min (counter_value H c i) low)).
  { unfold low1. destruct (N.eqb_spec i 1); [split; [reflexivity|contradiction]|]. split; [contradiction|]. intros _. destruct (N.ltb_spec (counter_value H c i) low); lia. }
  destruct Hl as [Hl1 Hl2].
  destruct k as [|k].
  - specialize (F5 eq_refl). subst m. split.
    + intros _ Ei. rewrite (Hl1 Ei). split; [exists i; split; [lia|reflexivity]|]. intros j Hj. replace j with i by lia. lia.
    + intros _ Ei. rewrite (Hl2 Ei). split; [|split; [lia|intros j Hj; replace j with i by lia; lia]].
      destruct (N.min_spec (counter_value H c i) low) as [[_ ->]|[_ ->]]; [right; exists i; split; [lia|reflexivity]|left; reflexivity].
  - destruct (F7 ltac:(discriminate) ltac:(lia)) as [G1 [G2 G3]].
    assert (G4 : forall j, i <= j <= i + N.of_nat (S (S k)) - 1 -> j <> i -> m <= counter_value H c j) by (intros j Hj Nj; rewrite <- V1; apply G3; lia).
    split.
    + intros _ Ei. rewrite (Hl1 Ei) in *. split.
      * destruct G1 as [->|[j [Hj Ej]]]; [exists i; split; [lia|reflexivity]|]. exists j. split; [lia|]. rewrite <- V1. exact Ej.
      * intros j Hj. destruct (N.eq_dec j i) as [->|]; [exact G2|apply G4; assumption].
    + intros _ Ei. rewrite (Hl2 Ei) in *. split; [|split; [lia|]].
      * destruct G1 as [->|[j [Hj Ej]]]; [|right; exists j; split; [lia|]; rewrite <- V1; exact Ej].
        destruct (N.min_spec (counter_value H c i) low) as [[_ ->]|[_ ->]]; [right; exists i; split; [lia|reflexivity]|left; reflexivity].
      * intros j Hj. destruct (N.eq_dec j i) as [->|]; [lia|apply G4; assumption].
Qed.
Lemma lowest_lemma c : complete c -> 2 <= weight c -> exists c' m, lowest_output H c = (c', Some m) /\ minimum_of (counter_value H c) 1 (weight c - 1) m.
Proof.
  intros Cc Hw. destruct (lowest_loop_spec (N.to_nat (weight c - 1)) c 1 0 Cc ltac:(lia)) as [c' [m [F1 [_ [_ [_ [_ [F6 _]]]]]]]].
  exists c', m. split; [exact F1|]. specialize (F6 ltac:(lia) eq_refl). replace (1 + N.of_nat (N.to_nat (weight c - 1)) - 1) with (weight c - 1) in F6 by lia. exact F6.
Qed.
Lemma lowest_small c : weight c <= 1 -> lowest_output H c = (c, Some 0).
Proof. intros Hw. unfold lowest_output. replace (weight c - 1) with 0 by lia. reflexivity. Qed.
Lemma lowest_stable c c' m : complete c -> lowest_output H c = (c', Some m) -> snd (lowest_output H c') = Some m.
Proof.
  intros Cc E. unfold lowest_output in *.
  destruct (lowest_loop_spec (N.to_nat (weight c - 1)) c 1 0 Cc ltac:(lia)) as [c1 [m1 [F1 [F2 [F3 [F4 [F5 [F6 _]]]]]]]].
  assert (c1 = c') by congruence. assert (m1 = m) by congruence. subst c1 m1. rewrite F2.
  destruct (lowest_loop_spec (N.to_nat (weight c - 1)) c' 1 0 F3 ltac:(lia)) as [c2 [m2 [G1 [_ [_ [_ [G5 [G6 _]]]]]]]]. rewrite G1. cbn [snd]. f_equal.
  destruct (N.to_nat (weight c - 1)) as [|k]; [rewrite (F5 eq_refl), (G5 eq_refl); reflexivity|].
  destruct (F6 ltac:(discriminate) eq_refl) as [[i [Hi Ei]] A], (G6 ltac:(discriminate) eq_refl) as [[j [Hj Ej]] B].
  specialize (A j Hj). specialize (B i Hi). rewrite F4 in B, Ej. lia.
Qed.
Lemma counter_value_hash c i : hash32 H -> exists h, length h = 32%nat /\ counter_value H c i = be_val h.
Proof. intros H32. unfold counter_value. eexists. split; [|reflexivity]. destruct (domain_separation_enabled c), (hashable c); apply H32. Qed.
Lemma digest_lemma c : hash32 H -> complete c -> exists c' m, lowest_output H c = (c', Some m) /\ lowest_output_digest H c = (c', Some (be 32 m)).
Proof.
  intros H32 Cc. unfold lowest_output_digest. destruct (N.le_gt_cases (weight c) 1) as [Hw|Hw].
  - rewrite lowest_small by exact Hw. exists c, 0. split; reflexivity.
  - destruct (lowest_lemma c Cc ltac:(lia)) as [c' [m [E [[i [_ Ei]] _]]]]. exists c', m. rewrite E. split; [reflexivity|].
    destruct (counter_value_hash c i H32) as [h [Lh Vh]]. pose proof (be_val_bound h) as B. rewrite Lh in B. change (256 ^ N.of_nat 32) with (2 ^ 256) in B.
    destruct (big_bytes_pad m ltac:(lia)) as [P1 P2]. cbv zeta. destruct (Nat.ltb_spec 32 (length (big_bytes m))); [lia|]. rewrite P2. reflexivity.
Qed.
Lemma lt_lemma c d : complete c -> complete d -> exists c' d' a b, lowest_output H c = (c', Some a) /\ lowest_output H d = (d', Some b) /\ lt H c d = (c', d', Some (a <? b)).
Proof.
  intros Cc Cd. unfold lt.
  assert (D : forall e, complete e -> exists e' m, lowest_output H e = (e', Some m)).
  { intros e Ce. destruct (N.le_gt_cases (weight e) 1) as [Hw|Hw]; [rewrite lowest_small by exact Hw; eauto|]. destruct (lowest_lemma e Ce ltac:(lia)) as [e' [m [E _]]]. eauto. }
  destruct (D c Cc) as [c' [a Ea]], (D d Cd) as [d' [b Eb]]. rewrite Ea, Eb. exists c', d', a, b. auto.
Qed.
End Lowest.

(** ** Hash inputs *)
Lemma separated_ignores_output cdf C H proto proof proof' mem mem' c c' : total_money mem <= 2 ^ 64 -> total_money mem' <= 2 ^ 64 ->
  credential_domain_separation_enabled proto = true -> mem_addr mem = mem_addr mem' ->
  verify cdf C H proto proof mem = Ok c -> verify cdf C H proto proof' mem' = Ok c' -> vrf_out c = vrf_out c'.
Proof.
  intros B B' D A E E'. apply verify_ok in E; [|exact B]. apply verify_ok in E'; [|exact B'].
  destruct E as [o [w [_ [_ [_ [_ [_ ->]]]]]]]. destruct E' as [o' [w' [_ [_ [_ [_ [_ ->]]]]]]]. cbn [vrf_out]. unfold deciding_hash, deciding_input. rewrite D, A. reflexivity.
Qed.
Lemma inputs_inj (o o' a a' : bytes) : length o = length o' -> o ++ a = o' ++ a' -> o = o' /\ a = a'.
Proof. intros L E. apply app_inj_length; assumption. Qed.
Lemma separated_inputs a a' i i' : N.of_nat (length a) < 2 ^ 32 -> N.of_nat (length a') < 2 ^ 32 -> i < 2 ^ 64 -> i' < 2 ^ 64 ->
  str "CR" ++ encode (VArr [VBin a; VNum i]) = str "CR" ++ encode (VArr [VBin a'; VNum i']) -> a = a' /\ i = i'.
Proof.
  intros La La' Li Li' E. apply app_inv_head in E. 
  assert (W : forall x n, N.of_nat (length x) < 2 ^ 32 -> n < 2 ^ 64 -> wf (VArr [VBin x; VNum n])).
  { intros x n Lx Ln. cbn [wf]. repeat split; cbn; lia. }
  pose proof (encode_inj _ _ (W a i La Li) (W a' i' La' Li') E) as V. injection V as -> E2. split; [reflexivity|lia].
Qed.
Lemma output_length C H mem proof out : VrfSpec.curve_ok C -> output_of C H mem proof = Ok out -> length out = 64%nat.
Proof.
  intros OK. unfold output_of, VrfModel.verify_bytes, VrfModel.to_output. destruct (VrfModel.decode C proof) as [[[g c] s]|]; [|discriminate].
  cbv zeta. destruct (VrfModel.decompress C _); [|discriminate]. destruct (_ =? c); [|discriminate]. intros E. injection E as <-. apply (VrfSpec.sha512_length C OK).
Qed.
Lemma unseparated_binds cdf C H proto proof proof' mem mem' c c' : VrfSpec.curve_ok C -> total_money mem <= 2 ^ 64 -> total_money mem' <= 2 ^ 64 ->
  credential_domain_separation_enabled proto = false ->
  verify cdf C H proto proof mem = Ok c -> verify cdf C H proto proof' mem' = Ok c' -> vrf_out c = vrf_out c' ->
  exists out out', output_of C H mem proof = Ok out /\ output_of C H mem' proof' = Ok out' /\
    (out = out' /\ mem_addr mem = mem_addr mem' \/ collision_in H [out ++ mem_addr mem] [out' ++ mem_addr mem']).
Proof.
  intros OK B B' D E E' V. apply verify_ok in E; [|exact B]. apply verify_ok in E'; [|exact B'].
  destruct E as [o [w [O [_ [_ [_ [_ ->]]]]]]]. destruct E' as [o' [w' [O' [_ [_ [_ [_ ->]]]]]]]. cbn [vrf_out] in V.
  exists o, o'. split; [exact O|]. split; [exact O'|]. unfold deciding_hash, deciding_input in V. rewrite D in V.
  destruct (bytes_eqb_reflect (o ++ mem_addr mem) (o' ++ mem_addr mem')) as [Eq|Ne].
  - left. apply inputs_inj; [|exact Eq]. rewrite (output_length _ _ _ _ _ OK O), (output_length _ _ _ _ _ OK O'). reflexivity.
  - right. exists (o ++ mem_addr mem), (o' ++ mem_addr mem'). split; [left; reflexivity|]. split; [left; reflexivity|]. split; assumption.
Qed.
Lemma members_bind cdf C H proto proof proof' mem mem' c c' : total_money mem <= 2 ^ 64 -> total_money mem' <= 2 ^ 64 ->
  length (mem_addr mem) = 32%nat -> length (mem_addr mem') = 32%nat -> credential_domain_separation_enabled proto = true ->
  verify cdf C H proto proof mem = Ok c -> verify cdf C H proto proof' mem' = Ok c' -> vrf_out c = vrf_out c' ->
  mem_addr mem = mem_addr mem' \/
  collision_in H [str "CR" ++ encode (VArr [VBin (mem_addr mem); VNum 0])] [str "CR" ++ encode (VArr [VBin (mem_addr mem'); VNum 0])].
Proof.
  intros B B' L L' D E E' V. apply verify_ok in E; [|exact B]. apply verify_ok in E'; [|exact B'].
  destruct E as [o [w [O [_ [_ [_ [_ ->]]]]]]]. destruct E' as [o' [w' [O' [_ [_ [_ [_ ->]]]]]]]. cbn [vrf_out] in V.
  unfold deciding_hash, deciding_input in V. rewrite D in V.
  match type of V with H ?x = H ?y => destruct (bytes_eqb_reflect x y) as [Eq|Ne]; [|right; exists x, y; split; [left; reflexivity|]; split; [left; reflexivity|]; split; assumption] end.
  left. refine (proj1 (separated_inputs _ _ 0 0 _ _ _ _ Eq)); rewrite ?L, ?L'; reflexivity.
Qed.
