(** Proofs for chains of blocks. *)
From Verif Require Import Base BaseFacts AddressModel BlockModel BlockSpec BlockProofs BlockBind TxCodecSpec UpgradeSpec UpgradeProofs ChainSpec MerkleArraySpec.
Local Open Scope N_scope.

Section Chain.
Variable table : list (version * params).
Variable H : bytes -> bytes.
Variable m : mode.

Lemma passes_facts self prev : snd (pre_check table H m self prev) = Ok tt ->
  add64 m (round prev) 1 = Some (round self) /\ branch self = header_hash H prev /\
  apply_upgrade_vote table m (upgrade prev) (round self) (vote self) = (upgrade self, Ok tt) /\
  exists p, lookup (current (upgrade self)) table = Some p /\ check_rest m p self prev = Ok tt.
Proof.
  unfold pre_check, params_of. destruct (lookup _ table) as [p|] eqn:Ep; [|discriminate].
  destruct (add64 m (round prev) 1) as [r|]; [|discriminate].
  destruct (r =? round self) eqn:Er; [|discriminate]. apply N.eqb_eq in Er; subst r. cbn [negb].
  destruct (bytes_eqb (branch self) (header_hash H prev)) eqn:Eb; [|discriminate]. apply bytes_eqb_spec in Eb. cbn [negb].
  destruct (apply_upgrade_vote table m (upgrade prev) (round self) (vote self)) as [u [[]|e|]]; try discriminate.
  cbn [snd]. destruct (upgrade_eqb u (upgrade self)) eqn:Eu; [|discriminate]. apply upgrade_eqb_spec in Eu; subst u.
  intros C. split; [reflexivity|]. split; [assumption|]. split; [reflexivity|]. exists p. split; [reflexivity|assumption].
Qed.

Lemma linked_app g hs h : linked table H m g (hs ++ [h]) <-> linked table H m g hs /\ snd (pre_check table H m h (last hs g)) = Ok tt.
Proof.
  revert g. induction hs as [|a hs IH]; intros g.
  - cbn. tauto.
  - cbn [app linked]. rewrite IH. destruct hs as [|b hs].
    + cbn [last linked]. tauto.
    + change (last (a :: b :: hs) g) with (last (b :: hs) g). 
      assert (E : forall d d', last (b :: hs) d = last (b :: hs) d').
      { clear. revert b. induction hs as [|c hs IH]; intros b d d'; [reflexivity|]. exact (IH c d d'). }
      rewrite (E a g). tauto.
Qed.
Lemma last_app (g : header) hs h : last (hs ++ [h]) g = h.
Proof. apply last_last. Qed.
Lemma last_cons (g a : header) hs : last (a :: hs) g = last hs a.
Proof. revert g a. induction hs as [|b hs IH]; intros g a; [reflexivity|]. change (last (a :: b :: hs) g) with (last (b :: hs) g). rewrite (IH g b), (IH a b). reflexivity. Qed.

Lemma add64_mod a b r : add64 m a b = Some r -> r = (a + b) mod 2 ^ 64.
Proof.
  unfold add64. change two64 with (2 ^ 64). destruct (a + b <? 2 ^ 64) eqn:E.
  - intros X. assert (a + b = r) as <- by congruence. symmetry. apply N.mod_small. lia.
  - destruct m; [discriminate|congruence].
Qed.
Lemma rounds_mod g hs : linked table H m g hs -> round g < 2 ^ 64 -> round (last hs g) = (round g + N.of_nat (length hs)) mod 2 ^ 64.
Proof.
  revert g. induction hs as [|a hs IH]; intros g L F.
  - cbn [last length N.of_nat]. rewrite N.add_0_r. symmetry. apply N.mod_small. assumption.
  - cbn [linked] in L. destruct L as [P L]. apply passes_facts in P. destruct P as [P _]. apply add64_mod in P.
    rewrite last_cons. rewrite (IH a L); [|rewrite P; apply N.mod_lt; discriminate].
    rewrite P. rewrite N.add_mod_idemp_l by discriminate. f_equal. cbn [length]. lia.
Qed.

Lemma back hs : forall hs' g g', length hs = length hs' -> linked table H m g hs -> linked table H m g' hs' ->
  Forall BlockSpec.header_fits (g :: hs) -> Forall BlockSpec.header_fits (g' :: hs') ->
  header_hash H (last hs g) = header_hash H (last hs' g') ->
  Forall2 same_but_upgrade (g :: hs) (g' :: hs') \/ collision_in H (map header_rep (g :: hs)) (map header_rep (g' :: hs')).
Proof.
  assert (Inc : forall A B A' B', collision_in H A B -> incl A A' -> incl B B' -> collision_in H A' B').
  { intros A B A' B' (x & y & Hx & Hy & N & E) IA IB. exists x, y. split; [apply IA; assumption|]. split; [apply IB; assumption|]. split; assumption. }
  induction hs as [|h hs IH] using rev_ind; intros hs' g g' Len L L' F F' E.
  - destruct hs'; [|discriminate]. cbn [last] in E. inversion F; subst. inversion F'; subst.
    destruct (header_hash_lemma H g g' ltac:(assumption) ltac:(assumption) E) as [S|C]; [left|right; exact C]. constructor; [assumption|constructor].
  - destruct (@exists_last _ hs') as (hs2 & h' & ->). { intros ->. rewrite app_length in Len. cbn in Len. lia. }
    rewrite !app_length in Len. cbn [length] in Len. apply linked_app in L, L'. destruct L as [L P], L' as [L' P'].
    rewrite !last_app in E. rewrite app_comm_cons in F, F'. apply Forall_app in F, F'. destruct F as [F Fh], F' as [F' Fh'].
    inversion Fh; subst. inversion Fh'; subst.
    assert (T : forall A B, collision_in H A B -> incl A (map header_rep (g :: hs ++ [h])) -> incl B (map header_rep (g' :: hs2 ++ [h'])) ->
      collision_in H (map header_rep (g :: hs ++ [h])) (map header_rep (g' :: hs2 ++ [h']))) by (intros A B; apply Inc).
    rewrite !app_comm_cons, !map_app in *.
    destruct (header_hash_lemma H h h' ltac:(assumption) ltac:(assumption) E) as [S|C].
    2:{ right. apply (T _ _ C); apply incl_appr, incl_refl. }
    apply passes_facts in P, P'. destruct P as (_ & B & _), P' as (_ & B' & _).
    assert (E2 : header_hash H (last hs g) = header_hash H (last hs2 g')).
    { rewrite <- B, <- B'. unfold same_but_upgrade in S. rewrite S. reflexivity. }
    destruct (IH hs2 g g' ltac:(lia) L L' F F' E2) as [A|C].
    + left. apply Forall2_app; [assumption|]. constructor; [assumption|constructor].
    + right. apply (T _ _ C); apply incl_appl, incl_refl.
Qed.

Lemma forward hs : forall hs' g g', linked table H m g hs -> linked table H m g' hs' -> upgrade g = upgrade g' ->
  Forall2 same_but_upgrade (g :: hs) (g' :: hs') -> g = g' /\ hs = hs'.
Proof.
  assert (G : forall g g', upgrade g = upgrade g' -> same_but_upgrade g g' -> g = g').
  { intros g g' U S. unfold same_but_upgrade in S. rewrite S, <- U. destruct g; reflexivity. }
  induction hs as [|h hs IH]; intros hs' g g' L L' U S; inversion S as [|x y l l' Sg St]; subst; inversion St as [|x y l l' Sh Sr]; subst.
  - split; [apply G; assumption|reflexivity].
  - assert (g = g') as <- by (apply G; assumption). split; [reflexivity|].
    cbn [linked] in L, L'. destruct L as [P L], L' as [P' L'].
    apply passes_facts in P, P'. destruct P as (_ & _ & P & _), P' as (_ & _ & P' & _).
    assert (V : vote y = vote h) by (unfold same_but_upgrade in Sh; rewrite Sh; reflexivity).
    assert (R : round y = round h) by (unfold same_but_upgrade in Sh; rewrite Sh; reflexivity).
    rewrite V, R in P'. rewrite P in P'. assert (U' : upgrade h = upgrade y) by congruence.
    destruct (IH l' h y L L' U' (Forall2_cons _ _ Sh Sr)) as [-> ->]. reflexivity.
Qed.

Lemma chain_lemma g g' hs hs' : round g = round g' -> upgrade g = upgrade g' -> linked table H m g hs -> linked table H m g' hs' ->
  Forall BlockSpec.header_fits (g :: hs) -> Forall BlockSpec.header_fits (g' :: hs') ->
  N.of_nat (length hs) < 2 ^ 64 -> N.of_nat (length hs') < 2 ^ 64 ->
  header_hash H (last hs g) = header_hash H (last hs' g') ->
  (g = g' /\ hs = hs') \/ collision_in H (map header_rep (g :: hs)) (map header_rep (g' :: hs')).
Proof.
  intros R U L L' F F' N1 N2 E.
  assert (Fl : forall k ks, Forall BlockSpec.header_fits (k :: ks) -> BlockSpec.header_fits (last ks k)).
  { intros k ks. revert k. induction ks as [|a ks IH]; intros k Fk; inversion Fk; subst; [assumption|]. rewrite last_cons. apply IH. assumption. }
  destruct (header_hash_lemma H (last hs g) (last hs' g') (Fl _ _ F) (Fl _ _ F') E) as [S|C].
  2:{ right. destruct C as (x & y & [<-|[]] & [<-|[]] & N & Hc).
      assert (Il : forall k ks, In (header_rep (last ks k)) (map header_rep (k :: ks))).
      { intros k ks. apply in_map. revert k. induction ks as [|a ks IH]; intros k; [left; reflexivity|]. rewrite last_cons. right. apply IH. }
      exists (header_rep (last hs g)), (header_rep (last hs' g')). split; [apply Il|]. split; [apply Il|]. split; assumption. }
  assert (Hr : round (last hs g) = round (last hs' g')) by (unfold same_but_upgrade in S; rewrite S; reflexivity).
  assert (Rg : round g < 2 ^ 64) by (inversion F as [|? ? Q]; subst; destruct Q as [Q _]; exact Q).
  rewrite (rounds_mod g hs L Rg), (rounds_mod g' hs' L' ltac:(rewrite <- R; assumption)), <- R in Hr.
  assert (Len : length hs = length hs').
  { change (2 ^ 64) with 18446744073709551616 in *. clear - Hr N1 N2 Rg. lia. }
  destruct (back hs hs' g g' Len L L' F F' E) as [A|C]; [left|right; exact C].
  apply (forward hs hs' g g'); assumption.
Qed.

(** Rounds, times and genesis fields. *)
Lemma linked_nth g hs i a b : linked table H m g hs -> nth_error (g :: hs) i = Some a -> nth_error (g :: hs) (S i) = Some b ->
  snd (pre_check table H m b a) = Ok tt.
Proof.
  revert g i. induction hs as [|h hs IH]; intros g i L A B.
  - destruct i as [|[|]]; discriminate.
  - cbn [linked] in L. destruct L as [P L]. destruct i as [|i].
    + cbn in A, B. congruence.
    + exact (IH h i L A B).
Qed.
(** Induction along the chain from header [i] on. *)
Lemma along (P : nat -> header -> Prop) g hs i a :
  linked table H m g hs -> nth_error (g :: hs) i = Some a -> P O a ->
  (forall k x y, P k x -> nth_error (g :: hs) (i + k) = Some x -> nth_error (g :: hs) (i + S k) = Some y -> snd (pre_check table H m y x) = Ok tt -> P (S k) y) ->
  forall k b, nth_error (g :: hs) (i + k) = Some b -> P k b.
Proof.
  intros L A P0 St. induction k as [|k IH]; intros b B.
  - rewrite Nat.add_0_r in B. congruence.
  - destruct (nth_error (g :: hs) (i + k)) as [x|] eqn:X.
    + apply (St k x b (IH x eq_refl) X B). apply (linked_nth g hs (i + k) x b L X). rewrite <- B. f_equal. lia.
    + exfalso. apply nth_error_None in X. assert (nth_error (g :: hs) (i + S k) = None) by (apply nth_error_None; lia). congruence.
Qed.

Lemma rounds_lemma g hs i h : linked table H m g hs -> round g + N.of_nat (length hs) < 2 ^ 64 -> nth_error hs i = Some h ->
  round h = round g + N.of_nat i + 1.
Proof.
  intros L F E. assert (Q : nth_error (g :: hs) (0 + S i) = Some h) by exact E.
  assert (R : forall k b, nth_error (g :: hs) (0 + k) = Some b -> round b = round g + N.of_nat k); [|rewrite (R _ _ Q); lia].
  apply (along (fun k b => round b = round g + N.of_nat k) g hs 0 g L eq_refl); [lia|].
  intros k x y Px X Y P. apply passes_facts in P. destruct P as [P _]. apply add64_mod in P.
  assert (S k < length (g :: hs))%nat by (apply nth_error_Some; cbn [Nat.add] in Y; congruence). cbn [length] in *.
  rewrite P, Px, N.mod_small; lia.
Qed.

Lemma time_step D x y : snd (pre_check table H m y x) = Ok tt ->
  (forall v p, lookup v table = Some p -> max_timestamp_increment p <= D) -> D < 2 ^ 64 -> timestamp x < 2 ^ 64 ->
  timestamp x <> 0 -> timestamp x <= timestamp y <= timestamp x + D.
Proof.
  intros P HD D64 X64 X0. apply passes_facts in P. destruct P as (_ & _ & _ & p & Lp & C). specialize (HD _ _ Lp).
  unfold check_rest in C. destruct (0 <? timestamp x) eqn:E0; [|lia]. destruct (timestamp y <? timestamp x) eqn:E1; [discriminate|].
  destruct (add64 m (timestamp x) (max_timestamp_increment p)) as [l|] eqn:A; [|discriminate].
  destruct (l <? timestamp y) eqn:E2; [discriminate|]. apply add64_mod in A.
  assert (l <= timestamp x + max_timestamp_increment p) by (subst l; apply N.mod_le; discriminate). lia.
Qed.
Lemma time_lemma D g hs i j a b : linked table H m g hs -> Forall (fun h => timestamp h < 2 ^ 64) (g :: hs) ->
  (forall v p, lookup v table = Some p -> max_timestamp_increment p <= D) -> D < 2 ^ 64 ->
  (i <= j)%nat -> nth_error (g :: hs) i = Some a -> nth_error (g :: hs) j = Some b ->
  timestamp a <= timestamp b /\ (timestamp a <> 0 -> timestamp b <= timestamp a + N.of_nat (j - i) * D).
Proof.
  intros L F HD D64 Hij A B. replace j with (i + (j - i))%nat in B by lia. revert B. generalize (j - i)%nat as k. clear j Hij. intros k. revert k b.
  apply (along (fun k b => timestamp a <= timestamp b /\ (timestamp a <> 0 -> timestamp b <= timestamp a + N.of_nat k * D)) g hs i a L A); [split; lia|].
  intros k x y [P1 P2] X Y P. assert (X64 : timestamp x < 2 ^ 64) by (apply nth_error_In in X; rewrite Forall_forall in F; apply F; assumption).
  destruct (N.eq_dec (timestamp x) 0) as [Z|Z].
  - assert (timestamp a = 0) by lia. split; lia.
  - pose proof (time_step D x y P HD D64 X64 Z). split; [lia|]. intros Q. specialize (P2 Q). lia.
Qed.

Lemma is_empty_spec (l : bytes) : is_empty l = true <-> l = [].
Proof. destruct l; cbn; split; congruence. Qed.
Lemma genesis_step x y : snd (pre_check table H m y x) = Ok tt ->
  genesis_id y <> [] /\ (genesis_id x <> [] -> genesis_id y = genesis_id x) /\
  exists p, lookup (current (upgrade y)) table = Some p /\
    (if support_genesis_hash p then genesis_hash y <> zero32 /\ (genesis_hash x <> zero32 -> genesis_hash y = genesis_hash x) else genesis_hash y = zero32).
Proof.
  intros P. apply passes_facts in P. destruct P as (_ & _ & _ & p & Lp & C). unfold check_rest in C.
  assert (G : (if is_empty (genesis_id y) then Err MissingGenesisID
    else if negb (is_empty (genesis_id x)) && negb (bytes_eqb (genesis_id y) (genesis_id x)) then Err GenesisIDMismatch
    else if support_genesis_hash p then
      if is_zero (genesis_hash y) then Err MissingGenesisHash
      else if negb (is_zero (genesis_hash x)) && negb (bytes_eqb (genesis_hash x) (genesis_hash y)) then Err UpgradeModel.GenesisHashMismatch
      else Ok tt
    else if negb (is_zero (genesis_hash y)) then Err GenesisHashNotSupported
    else Ok tt) = Ok tt).
  { destruct (0 <? timestamp x); [|assumption]. destruct (timestamp y <? timestamp x); [discriminate|].
    destruct (add64 m _ _); [|discriminate]. destruct (_ <? _); [discriminate|assumption]. }
  clear C. destruct (is_empty (genesis_id y)) eqn:E1; [discriminate|].
  assert (Z : forall s, is_zero s = true <-> s = zero32) by (intros s; unfold is_zero; apply bytes_eqb_spec).
  destruct (negb (is_empty (genesis_id x)) && negb (bytes_eqb (genesis_id y) (genesis_id x))) eqn:E2; [discriminate|].
  split; [intros Q; apply is_empty_spec in Q; congruence|]. split.
  { intros Q. destruct (is_empty (genesis_id x)) eqn:E3; [apply is_empty_spec in E3; contradiction|].
    destruct (bytes_eqb (genesis_id y) (genesis_id x)) eqn:E4; [apply bytes_eqb_spec; assumption|discriminate]. }
  exists p. split; [assumption|]. destruct (support_genesis_hash p).
  - destruct (is_zero (genesis_hash y)) eqn:E3; [discriminate|]. split; [intros Q; apply Z in Q; congruence|].
    intros Q. destruct (is_zero (genesis_hash x)) eqn:E4; [apply Z in E4; contradiction|].
    destruct (bytes_eqb (genesis_hash x) (genesis_hash y)) eqn:E5; [symmetry; apply bytes_eqb_spec; assumption|discriminate].
  - destruct (is_zero (genesis_hash y)) eqn:E3; [apply Z; assumption|discriminate].
Qed.
Lemma genesis_id_lemma g hs i j a b : linked table H m g hs -> (i <= j)%nat -> nth_error hs i = Some a -> nth_error hs j = Some b ->
  genesis_id a <> [] /\ genesis_id b = genesis_id a /\ (genesis_id g <> [] -> genesis_id b = genesis_id g).
Proof.
  intros L Hij A B.
  assert (Ne : forall i a, nth_error hs i = Some a -> genesis_id a <> []).
  { clear - L. intros i a A. destruct (nth_error (g :: hs) i) as [x|] eqn:X.
    - pose proof (linked_nth g hs i x a L X A) as P. apply genesis_step in P. tauto.
    - exfalso. apply nth_error_None in X. cbn [length] in X. assert (nth_error hs i = None) by (apply nth_error_None; lia). congruence. }
  split; [exact (Ne i a A)|]. split.
  - assert (B' : nth_error (g :: hs) (S i + (j - i)) = Some b) by (cbn [Nat.add nth_error]; rewrite <- B; f_equal; lia). revert B'. generalize (j - i)%nat as k.
    intros k. generalize b. clear b B. revert k.
    apply (along (fun _ b => genesis_id b = genesis_id a) g hs (S i) a L A eq_refl).
    intros k x y Px X Y P. apply genesis_step in P. destruct P as (_ & P & _). rewrite P; [assumption|]. rewrite Px. exact (Ne i a A).
  - intros Q. revert B. change (nth_error hs j = Some b -> genesis_id b = genesis_id g). intros B.
    assert (B' : nth_error (g :: hs) (0 + S j) = Some b) by exact B. revert B'. generalize (S j) as k. intros k. generalize b. clear b B. revert k.
    apply (along (fun _ b => genesis_id b = genesis_id g) g hs 0 g L eq_refl eq_refl).
    intros k x y Px X Y P. apply genesis_step in P. destruct P as (_ & P & _). rewrite P; [assumption|]. rewrite Px. assumption.
Qed.
Lemma genesis_hash_lemma g hs i j a b : linked table H m g hs -> (i <= j)%nat -> nth_error hs i = Some a -> nth_error hs j = Some b ->
  hashed_from table hs i j -> genesis_hash a <> zero32 /\ genesis_hash b = genesis_hash a.
Proof.
  intros L Hij A B Hs.
  assert (Ne : genesis_hash a <> zero32).
  { destruct (nth_error (g :: hs) i) as [x|] eqn:X.
    - pose proof (linked_nth g hs i x a L X A) as P. apply genesis_step in P. destruct P as (_ & _ & p & Lp & P).
      destruct (Hs i a ltac:(lia) A) as (q & Lq & Sq). assert (q = p) as -> by congruence. rewrite Sq in P. tauto.
    - exfalso. apply nth_error_None in X. cbn [length] in X. assert (nth_error hs i = None) by (apply nth_error_None; lia). congruence. }
  split; [assumption|].
  assert (B' : nth_error (g :: hs) (S i + (j - i)) = Some b) by (cbn [Nat.add nth_error]; rewrite <- B; f_equal; lia).
  assert (K : (j - i <= j - i)%nat) by lia. revert B' K. generalize (j - i)%nat at 1 2 as k.
  intros k. generalize b. clear b B. revert k.
  apply (along (fun k b => (k <= j - i)%nat -> genesis_hash b = genesis_hash a) g hs (S i) a L A (fun _ => eq_refl)).
  intros k x y Px X Y P K. specialize (Px ltac:(lia)). apply genesis_step in P. destruct P as (_ & _ & p & Lp & P).
  assert (Y' : nth_error hs (i + S k) = Some y) by exact Y.
  destruct (Hs (i + S k)%nat y ltac:(lia) Y') as (q & Lq & Sq). assert (q = p) as -> by congruence. rewrite Sq in P.
  rewrite (proj2 P); [assumption|]. rewrite Px. assumption.
Qed.

(** Votes. *)
Lemma recorded_lemma g hs : linked table H m g hs -> round g + N.of_nat (length hs) < 2 ^ 64 ->
  history table m (upgrade g) (round g + 1) (recorded hs) (upgrade (last hs g)).
Proof.
  revert g. induction hs as [|h hs IH]; intros g L F; [constructor|].
  cbn [linked] in L. destruct L as [P L]. apply passes_facts in P. destruct P as (R & _ & A & _). apply add64_mod in R. cbn [length] in F.
  rewrite N.mod_small in R by lia. rewrite last_cons. cbn [recorded map]. rewrite R in A.
  apply (HistoryStep table m (upgrade g) (round g + 1) (recorded hs) (upgrade h) _ (vote h) A). rewrite <- R. apply IH; [assumption|rewrite R; lia].
Qed.
Lemma voted_lemma g hs i old new : linked table H m g hs -> idle (upgrade g) ->
  rounds_fit table (round g + 1 + N.of_nat (length hs)) -> round g + N.of_nat (length hs) < 2 ^ 64 ->
  changes (current (upgrade g)) (recorded hs) i old new -> voted_in table (recorded hs) i old new.
Proof.
  intros L I F F' C. apply (upgrade_lemma table m (upgrade g) (round g + 1) (recorded hs) (upgrade (last hs g))); [apply recorded_lemma; assumption|assumption|lia| |assumption].
  unfold recorded. rewrite map_length. assumption.
Qed.

End Chain.

(** Blocks. *)
Section Blocks.
Variable table : list (version * params).
Variable H : bytes -> bytes.
Variable m : mode.

Lemma same_block_lemma b b' : hash32 H -> head b = head b' -> block_fits table b -> block_fits table b' ->
  contents_match_header table H b = Some true -> contents_match_header table H b' = Some true ->
  same_block table b b' \/ collision_in H (commit_strings table H b) (commit_strings table H b') \/
  zero_preimage_in H (commit_strings table H b ++ commit_strings table H b').
Proof.
  intros H32 E F F' M M'. assert (R : tx_root (head b) = tx_root (head b')) by (rewrite E; reflexivity).
  destruct (matching_lemma table H b b' H32 (proj1 F) (proj1 F') R M M') as [A|C]; [|right; exact C].
  destruct (decode_payset_flat table b) as [l| |] eqn:D;
    [|left; split; [assumption|split; [assumption|intros _ ? ? Q; rewrite D in Q; discriminate Q]]..].
  destruct (decode_payset_flat table b') as [l'| |] eqn:D';
    [|left; split; [assumption|split; [assumption|intros _ ? ? _ Q; rewrite D' in Q; discriminate Q]]..].
  destruct (lookup (current (upgrade (head b))) table) as [p|] eqn:Lp.
  2:{ left. split; [assumption|]. split; [assumption|]. intros (q & Q & _). congruence. }
  assert (Lp' : lookup (current (upgrade (head b'))) table = Some p) by (rewrite <- E; assumption).
  assert (K : (payset_commit p = Merkle \/ (support_signed_tx_in_block p = true /\ require_genesis_hash p = true)) -> 
    l = l' \/ collision_in H (commit_strings table H b) (commit_strings table H b') \/ zero_preimage_in H (commit_strings table H b ++ commit_strings table H b')).
  { intros [Mk|[S1 S2]].
    - apply (matching_merkle table H b b' l l' p p); assumption.
    - apply (matching_required table H b b' l l' p); try assumption; [exact (proj1 F)|exact (proj1 F')|rewrite E; reflexivity|rewrite E; reflexivity]. }
  assert (Dec : (payset_commit p = Merkle \/ (support_signed_tx_in_block p = true /\ require_genesis_hash p = true)) \/
    ~ (payset_commit p = Merkle \/ (support_signed_tx_in_block p = true /\ require_genesis_hash p = true))).
  { destruct (payset_commit p), (support_signed_tx_in_block p), (require_genesis_hash p);
      first [left; left; reflexivity|left; right; split; reflexivity|right; intros [Q|[Q1 Q2]]; discriminate]. }
  assert (Fin : (unambiguous table b -> l = l') -> same_block table b b').
  { intros Q. split; [assumption|]. split; [assumption|]. intros U k k' X Y. rewrite D in X. rewrite D' in Y.
    assert (l = k) as <- by congruence. assert (l' = k') as <- by congruence. apply Q. assumption. }
  destruct Dec as [U|U].
  - destruct (K U) as [Q|C]; [left; apply Fin; intros _; assumption|right; exact C].
  - left. apply Fin. intros (q & Lq & Uq). assert (q = p) as -> by congruence. contradiction.
Qed.

Lemma same_blocks bs : forall bs', hash32 H -> map head bs = map head bs' -> Forall (block_fits table) bs -> Forall (block_fits table) bs' ->
  Forall (fun b => contents_match_header table H b = Some true) bs -> Forall (fun b => contents_match_header table H b = Some true) bs' ->
  Forall2 (same_block table) bs bs' \/
  collision_in H (flat_map (commit_strings table H) bs) (flat_map (commit_strings table H) bs') \/
  zero_preimage_in H (flat_map (commit_strings table H) bs ++ flat_map (commit_strings table H) bs').
Proof.
  induction bs as [|b bs IH]; intros [|b' bs'] H32 E F F' M M'; try discriminate; [left; constructor|].
  inversion E. inversion F; subst. inversion F'; subst. inversion M; subst. inversion M'; subst. cbn [flat_map].
  assert (Z : forall A B, zero_preimage_in H A -> incl A B -> zero_preimage_in H B) by (intros A B (x & I & Q) In; exists x; split; [apply In; assumption|assumption]).
  assert (C : forall A B A' B', collision_in H A B -> incl A A' -> incl B B' -> collision_in H A' B').
  { intros A B A' B' (x & y & Hx & Hy & N & Ec) IA IB. exists x, y. split; [apply IA; assumption|]. split; [apply IB; assumption|]. split; assumption. }
  destruct (same_block_lemma b b') as [S|[S|S]]; try assumption.
  - destruct (IH bs') as [R|[R|R]]; try assumption.
    + left. constructor; assumption.
    + right. left. apply (C _ _ _ _ R); apply incl_appr, incl_refl.
    + right. right. apply (Z _ _ R). intros x I. apply in_app_or in I. rewrite !in_app_iff. tauto.
  - right. left. apply (C _ _ _ _ S); apply incl_appl, incl_refl.
  - right. right. apply (Z _ _ S). intros x I. apply in_app_or in I. rewrite !in_app_iff. tauto.
Qed.

Lemma block_chain_lemma g g' bs bs' : hash32 H -> round g = round g' -> upgrade g = upgrade g' ->
  linked table H m g (map head bs) -> linked table H m g' (map head bs') ->
  Forall BlockSpec.header_fits (g :: map head bs) -> Forall BlockSpec.header_fits (g' :: map head bs') ->
  N.of_nat (length bs) < 2 ^ 64 -> N.of_nat (length bs') < 2 ^ 64 ->
  Forall (block_fits table) bs -> Forall (block_fits table) bs' ->
  Forall (fun b => contents_match_header table H b = Some true) bs -> Forall (fun b => contents_match_header table H b = Some true) bs' ->
  header_hash H (last (map head bs) g) = header_hash H (last (map head bs') g') ->
  (g = g' /\ Forall2 (same_block table) bs bs') \/
  collision_in H (chain_strings table H g bs) (chain_strings table H g' bs') \/
  zero_preimage_in H (chain_strings table H g bs ++ chain_strings table H g' bs').
Proof.
  intros H32 R U L L' F F' N1 N2 Fb Fb' M M' E. unfold chain_strings.
  destruct (chain_lemma table H m g g' (map head bs) (map head bs')) as [[G Hd]|C]; try assumption; try (rewrite map_length; assumption).
  2:{ right. left. destruct C as (x & y & Hx & Hy & Q). exists x, y. split; [apply in_or_app; left; assumption|]. split; [apply in_or_app; left; assumption|exact Q]. }
  destruct (same_blocks bs bs' H32 Hd Fb Fb' M M') as [S|[C|Z]].
  - left. split; assumption.
  - right. left. destruct C as (x & y & Hx & Hy & Q). exists x, y. split; [apply in_or_app; right; assumption|]. split; [apply in_or_app; right; assumption|exact Q].
  - right. right. destruct Z as (x & I & Q). exists x. split; [|assumption]. apply in_app_or in I. rewrite !in_app_iff. tauto.
Qed.
End Blocks.
