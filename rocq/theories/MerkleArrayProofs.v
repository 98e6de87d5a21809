From Coq Require Import Permutation Sorted.
From Verif Require Import Base BaseFacts MerkleArrayModel MerkleArraySpec.

Arguments N.div : simpl never.
Arguments N.mul : simpl never.
Arguments N.add : simpl never.
Arguments N.lxor : simpl never.
Arguments N.even : simpl never.
Arguments N.of_nat : simpl never.
Arguments N.to_nat : simpl never.
Arguments node_string : simpl never.
Arguments pair_rep : simpl never.
Arguments zero32 : simpl never.

Lemma list_ind2 {A} (P : list A -> Prop) :
  P [] -> (forall a, P [a]) -> (forall a b l, P l -> P (b :: l) -> P (a :: b :: l)) ->
  forall l, P l.
Proof.
  intros H0 H1 H2 l.
  assert (P l /\ forall a, P (a :: l)) as [H _]; [|exact H].
  induction l as [|b l [IHl IHc]].
  - split; auto.
  - split; [apply IHc|]. intros a. apply H2; auto.
Qed.

Lemma lxor1 (p : N) : N.lxor p 1 = if N.even p then (p + 1)%N else (p - 1)%N.
Proof. destruct p as [|[q|q|]]; reflexivity. Qed.

Lemma even_spec2 (p : N) : N.even p = true -> exists k, p = (2 * k)%N.
Proof. intros E. apply N.even_spec in E. exact E. Qed.

Lemma odd_spec2 (p : N) : N.even p = false -> exists k, p = (2 * k + 1)%N.
Proof.
  intros E. assert (N.odd p = true) as O by (rewrite <- N.negb_even, E; reflexivity).
  apply N.odd_spec in O. exact O.
Qed.

Lemma pair_rep_string l r : pair_rep l r = node_string l r.
Proof. reflexivity. Qed.

Lemma layer_up_strings H l : layer_up H l = map H (pair_strings l).
Proof.
  induction l as [|a|a b l IH _] using list_ind2; cbn; rewrite ?pair_rep_string, ?IH; reflexivity.
Qed.

Lemma length_pair_strings (l : list bytes) : length (pair_strings l) = Nat.div2 (S (length l)).
Proof. induction l as [|a|a b l IH _] using list_ind2; cbn in *; congruence. Qed.

Lemma div2_le n : (n <= 2 * Nat.div2 (S n))%nat /\ (2 * Nat.div2 (S n) <= S n)%nat.
Proof.
  pose proof (Nat.div2_odd (S n)) as E. destruct (Nat.odd (S n)); cbn [Nat.b2n] in E; lia.
Qed.

(** ** Building the tree *)

Lemma levels_from_some H fuel l :
  (length l <= S fuel)%nat -> exists ls, levels_from H fuel l = Some ls.
Proof.
  revert l; induction fuel as [|f IH]; intros l Hl; cbn [levels_from].
  - destruct (Nat.leb_spec (length l) 1); [eauto|lia].
  - destruct (Nat.leb_spec (length l) 1); [eauto|].
    destruct (IH (layer_up H l)) as [ls E].
    + rewrite layer_up_strings, map_length, length_pair_strings.
      pose proof (div2_le (length l)). lia.
    + rewrite E. eauto.
Qed.

Lemma from_array_some H xs : exists t, from_array H xs = Some t.
Proof. apply levels_from_some. rewrite map_length. lia. Qed.

(** [n]-fold iteration of the next-layer function. *)
Fixpoint ups (H : bytes -> bytes) (n : nat) (l : list bytes) : list bytes :=
  match n with O => l | S n' => ups H n' (layer_up H l) end.

Lemma ups_add H a b l : ups H (a + b) l = ups H b (ups H a l).
Proof. revert l; induction a as [|a IH]; intros l; cbn; auto. Qed.

Definition is_levels (H : bytes -> bytes) (l : list bytes) (ls : list (list bytes)) : Prop :=
  ls <> [] /\
  (forall k, (k < length ls)%nat -> nth_error ls k = Some (ups H k l)) /\
  (forall k, (S k < length ls)%nat -> (1 < length (ups H k l))%nat) /\
  (length (ups H (length ls - 1) l) <= 1)%nat.

Lemma levels_from_spec H fuel l ls :
  levels_from H fuel l = Some ls -> is_levels H l ls.
Proof.
  revert l ls; induction fuel as [|f IH]; intros l ls; cbn [levels_from].
  - destruct (Nat.leb_spec (length l) 1); intros E; [|discriminate].
    injection E as <-. split; [discriminate|]. split; [|split].
    + intros [|k] Hk; cbn in *; [reflexivity|lia].
    + intros k Hk; cbn in Hk; lia.
    + cbn. assumption.
  - destruct (Nat.leb_spec (length l) 1); intros E.
    + injection E as <-. split; [discriminate|]. split; [|split].
      * intros [|k] Hk; cbn in *; [reflexivity|lia].
      * intros k Hk; cbn in Hk; lia.
      * cbn. assumption.
    + destruct (levels_from H f (layer_up H l)) as [ls'|] eqn:E'; [|discriminate].
      injection E as <-. apply IH in E' as (Hne & H1 & H2 & H3).
      assert (0 < length ls')%nat by (destruct ls'; [contradiction|cbn; lia]).
      split; [discriminate|]. split; [|split].
      * intros [|k] Hk; cbn in *; [reflexivity|]. apply H1. lia.
      * intros [|k] Hk; cbn in *; [assumption|]. apply H2. lia.
      * cbn. rewrite Nat.sub_0_r. destruct (length ls') as [|n] eqn:En; [lia|].
        cbn [ups]. cbn in H3. rewrite Nat.sub_0_r in H3. exact H3.
Qed.

Lemma levels_last H l ls : is_levels H l ls -> last ls [] = ups H (length ls - 1) l.
Proof.
  intros (Hne & H1 & _ & _).
  assert (0 < length ls)%nat by (destruct ls; [contradiction|cbn; lia]).
  specialize (H1 (length ls - 1) ltac:(lia)).
  destruct (exists_last Hne) as (ls' & x & ->).
  rewrite last_last. rewrite app_length in H1 |- *. cbn [length] in H1 |- *.
  replace (length ls' + 1 - 1) with (length ls') in H1 |- * by lia.
  rewrite nth_error_app2 in H1 by lia. rewrite Nat.sub_diag in H1. cbn in H1. congruence.
Qed.

Lemma length_layer_up H l : length (layer_up H l) = Nat.div2 (S (length l)).
Proof. rewrite layer_up_strings, map_length. apply length_pair_strings. Qed.

Lemma ups_nonempty H n l : l <> [] -> ups H n l <> [].
Proof.
  revert l; induction n as [|n IH]; intros l Hl; cbn; [exact Hl|].
  apply IH. destruct l as [|a [|b l]]; [contradiction| |]; cbn; discriminate.
Qed.

(** Root of a non-empty tree: the single node of the last level. *)
Lemma root_nonempty H xs t :
  from_array H xs = Some t -> xs <> [] ->
  exists r, root t = Ok r /\ ups H (length t - 1) (map H xs) = [r].
Proof.
  intros E Hx. apply levels_from_spec in E.
  pose proof (levels_last _ _ _ E) as Hl. destruct E as (Hne & H1 & H2 & H3).
  destruct t as [|l0 t]; [contradiction|].
  pose proof (H1 0%nat ltac:(cbn; lia)) as E0. cbn in E0. injection E0 as E0.
  pose proof (ups_nonempty H (length (l0 :: t) - 1) (map H xs)) as Hn.
  destruct (ups H (length (l0 :: t) - 1) (map H xs)) as [|r [|r' rs]] eqn:Eu.
  - exfalso. apply Hn; [|reflexivity]. destruct xs; [contradiction|discriminate].
  - exists r. split; [|reflexivity]. unfold root. destruct l0 as [|y l0].
    + destruct xs; [contradiction|discriminate].
    + rewrite Hl. reflexivity.
  - cbn [length] in H3. lia.
Qed.

Lemma root_empty H t : from_array H [] = Some t -> root t = Ok zero32.
Proof. cbn. intros E. injection E as <-. reflexivity. Qed.

(** ** One level: the model follows [climb] *)

Lemma climb_cons2 p h q s rest proof :
  climb ((p, h) :: (q, s) :: rest) proof =
  if (q =? (if N.even p then p + 1 else p - 1))%N
  then match climb rest proof with
       | Some (up, lft) =>
           Some (((p / 2)%N, if N.even p then node_string h s else node_string s h) :: up, lft)
       | None => None
       end
  else match proof with
       | [] => None
       | s' :: proof' =>
           match climb ((q, s) :: rest) proof' with
           | Some (up, lft) =>
               Some (((p / 2)%N, if N.even p then node_string h s' else node_string s' h) :: up, lft)
           | None => None
           end
       end.
Proof. reflexivity. Qed.

Lemma partial_up_cons2 H tree hints l d p h q s rest :
  partial_up H tree hints l d ((p, h) :: (q, s) :: rest) =
  (if (q =? N.lxor p 1)%N
   then bind (partial_up H tree hints l d rest)
          (fun '(res, hints2) => Ok (next_item H d p h s :: res, hints2))
   else bind (siblings_get tree hints l (N.lxor p 1))
          (fun '(sib, hints1) =>
             bind (partial_up H tree hints1 l d ((q, s) :: rest))
               (fun '(res, hints2) => Ok (next_item H d p h sib :: res, hints2)))).
Proof. reflexivity. Qed.

Definition hashed (H : bytes -> bytes) (n : N * bytes) : item := (fst n, H (snd n)).

Lemma partial_up_verify H l items hints :
  partial_up H [] hints l true items =
  match climb items hints with
  | Some (up, lft) => Ok (map (hashed H) up, lft)
  | None => Err tt
  end.
Proof.
  revert hints; induction items as [|[p h]|[p h] [q s] items IH1 IH2] using list_ind2; intros hints.
  - reflexivity.
  - cbn. destruct hints as [|x hints]; cbn; [reflexivity|].
    unfold hashed, next_item; cbn. destruct (N.even p); reflexivity.
  - rewrite partial_up_cons2, climb_cons2, lxor1.
    destruct (q =? (if N.even p then p + 1 else p - 1))%N.
    + rewrite IH1. destruct (climb items hints) as [[up left]|]; cbn; [|reflexivity].
      unfold hashed, next_item; cbn. destruct (N.even p); reflexivity.
    + destruct hints as [|x hints]; [reflexivity|]. cbn [siblings_get bind].
      rewrite IH2. destruct (climb ((q, s) :: items) hints) as [[up lft]|]; cbn; [|reflexivity].
      unfold hashed, next_item; cbn. destruct (N.even p); reflexivity.
Qed.

(** ** Soundness *)

Definition at_pos (L : list bytes) (p : N) : option bytes := nth_error L (N.to_nat p).

(** A node agrees with the layer, or claims the zero hash for a missing neighbour. *)
Definition zmatch (L : list bytes) (n : N * bytes) : Prop :=
  at_pos L (fst n) = Some (snd n) \/ snd n = zero32.

Definition len32 (x : bytes) : Prop := length x = 32.

Lemma pair_strings_nth (L : list bytes) (k : nat) (s : bytes) :
  nth_error (pair_strings L) k = Some s ->
  exists a b, nth_error L (2 * k) = Some a /\ s = node_string a b /\
    (nth_error L (2 * k + 1) = Some b \/ (nth_error L (2 * k + 1) = None /\ b = zero32)).
Proof.
  revert k; induction L as [|a|a b L IH _] using list_ind2; intros k E.
  - destruct k; discriminate.
  - destruct k as [|[|k]]; cbn in E; try discriminate. injection E as <-.
    exists a, zero32. cbn. auto.
  - destruct k as [|k].
    + cbn in E. injection E as <-. exists a, b. cbn. auto.
    + cbn in E. apply IH in E as (c & d & E1 & E2 & E3).
      exists c, d. replace (2 * S k) with (S (S (2 * k))) by lia.
      replace (S (S (2 * k)) + 1) with (S (S (2 * k + 1))) by lia. cbn. auto.
Qed.

Lemma pair_strings_nth_some (L : list bytes) (k : nat) (a : bytes) :
  nth_error L (2 * k) = Some a ->
  nth_error (pair_strings L) k =
    Some (node_string a (match nth_error L (2 * k + 1) with Some b => b | None => zero32 end)).
Proof.
  revert k; induction L as [|x|x y L IH _] using list_ind2; intros k E.
  - destruct k; discriminate.
  - destruct k as [|k]; cbn in E |- *; [congruence|].
    replace (k + S (k + 0)) with (S (2 * k)) in E by lia. discriminate.
  - destruct k as [|k].
    + cbn in *. congruence.
    + replace (2 * S k) with (S (S (2 * k))) in E |- * by lia.
      replace (S (S (2 * k)) + 1) with (S (S (2 * k + 1))) by lia. cbn in E |- *. apply IH. exact E.
Qed.

Lemma node_string_inj a b c d :
  len32 a -> len32 c -> node_string a b = node_string c d -> a = c /\ b = d.
Proof.
  unfold node_string, len32. intros Ha Hc E. apply app_inv_head in E.
  apply app_inj_length; congruence.
Qed.

Section Sound.
  Variable H : bytes -> bytes.
  Hypothesis Hlen : hash32 H.

  (** A recomputed parent that agrees with the next layer forces the two children. *)
  Lemma parent_match L (p : N) (h s : bytes) (str : bytes) :
    Forall len32 L -> len32 h -> len32 s ->
    str = (if N.even p then node_string h s else node_string s h) ->
    at_pos (map H (pair_strings L)) (p / 2) = Some (H str) ->
    (zmatch L (p, h) /\ zmatch L ((if N.even p then p + 1 else p - 1)%N, s)) \/
    collision_in H [str] (pair_strings L).
  Proof.
    intros HL Hh Hs Estr E. unfold at_pos in E. rewrite nth_error_map in E.
    destruct (nth_error (pair_strings L) (N.to_nat (p / 2))) as [t|] eqn:Et; [|discriminate].
    cbn in E. injection E as E.
    destruct (bytes_eq_dec t str) as [->|Hne].
    2:{ right. exists str, t. split; [left; reflexivity|]. split; [|split; congruence].
        eapply nth_error_In; exact Et. }
    left. apply pair_strings_nth in Et as (a & b & E1 & E2 & E3).
    assert (len32 a) as Ha.
    { rewrite Forall_forall in HL. apply HL. eapply nth_error_In; exact E1. }
    unfold zmatch, at_pos. cbn [fst snd].
    destruct (N.even p) eqn:Ep.
    - apply even_spec2 in Ep as [k ->].
      replace (2 * k / 2)%N with k in * by lia.
      rewrite Estr in E2. apply node_string_inj in E2 as [-> ->]; [|assumption..].
      replace (N.to_nat (2 * k)) with (2 * N.to_nat k) by lia.
      replace (N.to_nat (2 * k + 1)) with (2 * N.to_nat k + 1) by lia.
      split; [left; exact E1|]. destruct E3 as [E3|[_ E3]]; auto.
    - apply odd_spec2 in Ep as [k ->].
      replace ((2 * k + 1) / 2)%N with k in * by lia.
      rewrite Estr in E2. apply node_string_inj in E2 as [-> ->]; [|assumption..].
      replace (N.to_nat (2 * k + 1 - 1)) with (2 * N.to_nat k) by lia.
      replace (N.to_nat (2 * k + 1)) with (2 * N.to_nat k + 1) by lia.
      split; [|left; exact E1]. destruct E3 as [E3|[_ E3]]; auto.
  Qed.

  Lemma climb_sound L nodes proof up lft :
    Forall len32 L -> Forall (fun n => len32 (snd n)) nodes -> Forall len32 proof ->
    climb nodes proof = Some (up, lft) ->
    Forall (fun n => at_pos (map H (pair_strings L)) (fst n) = Some (H (snd n))) up ->
    Forall (zmatch L) nodes \/ collision_in H (map snd up) (pair_strings L).
  Proof.
    intros HL. revert proof up lft.
    induction nodes as [|[p h]|[p h] [q s] nodes IH1 IH2] using list_ind2;
      intros proof up lft Hn Hp E HF.
    - left; constructor.
    - cbn in E. destruct proof as [|s proof]; [discriminate|]. injection E as <- <-.
      apply Forall_inv in HF. cbn [fst snd] in HF. apply Forall_inv in Hn, Hp. cbn in Hn.
      destruct (parent_match L p h s _ HL Hn Hp eq_refl HF) as [[M _]|C].
      + left. constructor; [exact M|constructor].
      + right. exact C.
    - pose proof (Forall_inv Hn) as Hh. pose proof (Forall_inv_tail Hn) as Hn'.
      rewrite climb_cons2 in E. destruct (q =? (if N.even p then p + 1 else p - 1))%N eqn:Eq.
      + destruct (climb nodes proof) as [[up' lft']|] eqn:Ec; [|discriminate].
        injection E as <- <-.
        pose proof (Forall_inv HF) as HF1. pose proof (Forall_inv_tail HF) as HF2.
        cbn [fst snd] in HF1.
        pose proof (Forall_inv Hn') as Hs. pose proof (Forall_inv_tail Hn') as Hn''.
        cbn in Hh, Hs.
        destruct (IH1 _ _ _ Hn'' Hp Ec HF2) as [M|C].
        2:{ right. eapply collision_in_mono; [| |exact C]; [|auto]. cbn. auto. }
        destruct (parent_match L p h s _ HL Hh Hs eq_refl HF1) as [[M1 M2]|C].
        * left. constructor; [exact M1|]. constructor; [|exact M].
          apply N.eqb_eq in Eq. rewrite Eq. exact M2.
        * right. eapply collision_in_mono; [| |exact C]; [|auto].
          intros x [<-|[]]. cbn. auto.
      + destruct proof as [|s' proof]; [discriminate|].
        destruct (climb ((q, s) :: nodes) proof) as [[up' lft']|] eqn:Ec; [|discriminate].
        injection E as <- <-.
        pose proof (Forall_inv HF) as HF1. pose proof (Forall_inv_tail HF) as HF2.
        cbn [fst snd] in HF1. cbn in Hh.
        destruct (IH2 _ _ _ Hn' (Forall_inv_tail Hp) Ec HF2) as [M|C].
        2:{ right. eapply collision_in_mono; [| |exact C]; [|auto]. cbn. auto. }
        destruct (parent_match L p h s' _ HL Hh (Forall_inv Hp) eq_refl HF1) as [[M1 _]|C].
        * left. constructor; assumption.
        * right. eapply collision_in_mono; [| |exact C]; [|auto].
          intros x [<-|[]]. cbn. auto.
  Qed.

  (** Shape of [climb]. *)
  Lemma climb_lens nodes proof up lft :
    Forall len32 proof -> climb nodes proof = Some (up, lft) -> Forall len32 lft.
  Proof.
    revert proof up lft.
    induction nodes as [|[p h]|[p h] [q s] nodes IH1 IH2] using list_ind2; intros proof up lft Hp E.
    - cbn in E. injection E as <- <-. exact Hp.
    - cbn in E. destruct proof; [discriminate|]. injection E as <- <-. exact (Forall_inv_tail Hp).
    - rewrite climb_cons2 in E. destruct (q =? (if N.even p then p + 1 else p - 1))%N eqn:Eq.
      + destruct (climb nodes proof) as [[up' lft']|] eqn:Ec; [|discriminate].
        injection E as <- <-. eapply IH1; eassumption.
      + destruct proof as [|s' proof]; [discriminate|].
        destruct (climb ((q, s) :: nodes) proof) as [[up' lft']|] eqn:Ec; [|discriminate].
        injection E as <- <-. eapply IH2; [exact (Forall_inv_tail Hp)|exact Ec].
  Qed.

  Lemma climb_nonempty n nodes proof up lft :
    climb (n :: nodes) proof = Some (up, lft) -> up <> [].
  Proof.
    destruct n as [p h]. destruct nodes as [|[q s] nodes]; [cbn [climb]|rewrite climb_cons2].
    - destruct proof; [discriminate|]. cbn. intros E; injection E as <- <-. discriminate.
    - destruct (q =? _)%N.
      + destruct (climb nodes proof) as [[u l]|]; [|discriminate]. intros E; injection E as <- <-. discriminate.
      + destruct proof; [discriminate|].
        destruct (climb ((q, s) :: nodes) proof) as [[u l']|]; [|discriminate].
        intros E; injection E as <- <-. discriminate.
  Qed.

  (** Number of iterations of the verification loop. *)
  Inductive climbs : nat -> list (N * bytes) -> list bytes -> list (N * bytes) -> Prop :=
  | climbs_done n : climbs 0 [n] [] [n]
  | climbs_step k nodes proof up lft fin :
      climb nodes proof = Some (up, lft) ->
      climbs k (map (hashed H) up) lft fin ->
      climbs (S k) nodes proof fin.

  Lemma verify_loop_climbs fuel l nodes proof fin :
    nodes <> [] ->
    verify_loop H fuel l nodes proof = Some (Ok fin) ->
    exists k, (k <= fuel)%nat /\ climbs k nodes proof fin.
  Proof.
    revert l nodes proof; induction fuel as [|f IH]; intros l nodes proof Hne E; cbn [verify_loop] in E.
    - destruct proof as [|x proof].
      + destruct nodes as [|n [|n' nodes]]; [contradiction| |]; cbn in E; [|discriminate].
        injection E as <-. exists 0%nat. split; [lia|constructor].
      + discriminate.
    - destruct (match proof with [] => false | _ => true end || Nat.ltb 1 (length nodes)) eqn:Ec.
      + rewrite partial_up_verify in E.
        destruct (climb nodes proof) as [[up left]|] eqn:Ecl; [|discriminate].
        destruct (MAX_HEIGHT <? l + 1)%N; [discriminate|].
        apply IH in E as (k & Hk & Hc).
        2:{ destruct nodes as [|n nodes]; [contradiction|]. apply climb_nonempty in Ecl.
            destruct up; [contradiction|discriminate]. }
        exists (S k). split; [lia|]. econstructor; eassumption.
      + injection E as <-. exists 0%nat. split; [lia|].
        destruct proof; [|discriminate].
        destruct nodes as [|n [|n' nodes]]; [contradiction| |discriminate]. constructor.
  Qed.

  Lemma climbs_strings_mono k nodes proof fin fuel :
    climbs k nodes proof fin -> (k <= fuel)%nat ->
    forall x, In x (climb_strings H k nodes proof) -> In x (climb_strings H fuel nodes proof).
  Proof.
    intros Hc. revert fuel; induction Hc as [|k nodes proof up lft fin Ec _ IH]; intros fuel Hf x Hx.
    - contradiction.
    - destruct fuel as [|fuel]; [lia|]. cbn [climb_strings] in *. rewrite Ec in *.
      apply in_app_iff in Hx as [Hx|Hx]; apply in_app_iff; [left; exact Hx|right].
      apply IH; [lia|exact Hx].
  Qed.

  Definition up_strings (n : nat) (L : list bytes) : list bytes := interior_strings H n L.

  (** All strings hashed for [n] further layers. *)
  Fixpoint strings_upto (n : nat) (L : list bytes) : list bytes :=
    match n with O => [] | S n' => pair_strings L ++ strings_upto n' (map H (pair_strings L)) end.

  Lemma Forall_len32_map l : Forall len32 (map H l).
  Proof. apply Forall_forall. intros x Hx. apply in_map_iff in Hx as (y & <- & _). apply Hlen. Qed.

  Definition bad (A B : list bytes) : Prop :=
    collision_in H A B \/ zero_preimage_in H (A ++ B).

  Lemma bad_mono A A' B B' :
    (forall x, In x A -> In x A') -> (forall x, In x B -> In x B') -> bad A B -> bad A' B'.
  Proof.
    intros HA HB [C|Z]; [left|right].
    - eapply collision_in_mono; eassumption.
    - eapply zero_preimage_mono; [|eassumption]. intros x Hx.
      apply in_app_iff in Hx. apply in_app_iff. destruct Hx; auto.
  Qed.

  (** Backwards from the root: the starting nodes agree with the layer. *)
  Lemma climbs_sound k nodes proof r L :
    Forall len32 L -> Forall (fun n => len32 (snd n)) nodes -> Forall len32 proof ->
    climbs k nodes proof [(0%N, r)] -> ups H k L = [r] ->
    Forall (zmatch L) nodes \/
    bad (climb_strings H k nodes proof) (strings_upto k L).
  Proof.
    intros HL Hn Hp Hc. remember [(0%N, r)] as fin eqn:Ef. revert L HL Hn Hp Ef.
    induction Hc as [n|k nodes proof up lft fin Ec Hc IH]; intros L HL Hn Hp Ef Eu; subst.
    - injection Ef as ->. cbn in Eu. subst L. left. constructor; [|constructor].
      left. reflexivity.
    - cbn [ups] in Eu. rewrite layer_up_strings in Eu.
      specialize (IH (map H (pair_strings L)) (Forall_len32_map _)).
      destruct IH as [M|B].
      + apply Forall_forall. intros n Hin. apply in_map_iff in Hin as (m & <- & _). apply Hlen.
      + eapply climb_lens; eassumption.
      + reflexivity.
      + exact Eu.
      + assert (Forall (fun n => at_pos (map H (pair_strings L)) (fst n) = Some (H (snd n))) up \/
                zero_preimage_in H (map snd up)) as [M'|Z].
        { clear - M. induction up as [|[p s] up IHup]; [left; constructor|].
          cbn [map hashed] in M. pose proof (Forall_inv M) as M1. pose proof (Forall_inv_tail M) as M2.
          destruct (IHup M2) as [IH|Z].
          - destruct M1 as [M1|M1]; cbn in M1.
            + left. constructor; assumption.
            + right. exists s. split; [left; reflexivity|exact M1].
          - right. eapply zero_preimage_mono; [|exact Z]. cbn. auto. }
        * destruct (climb_sound _ _ _ _ _ HL Hn Hp Ec M') as [Z|C]; [left; exact Z|].
          right. left. eapply collision_in_mono; [| |exact C].
          -- intros x Hx. cbn [climb_strings]. rewrite Ec. apply in_app_iff. left. exact Hx.
          -- intros x Hx. cbn [strings_upto]. apply in_app_iff. left. exact Hx.
        * right. right. eapply zero_preimage_mono; [|exact Z].
          intros x Hx. apply in_app_iff. left. cbn [climb_strings]. rewrite Ec.
          apply in_app_iff. left. exact Hx.
      + right. eapply bad_mono; [| |exact B].
        * intros x Hx. cbn [climb_strings]. rewrite Ec. apply in_app_iff. right. exact Hx.
        * intros x Hx. cbn [strings_upto]. apply in_app_iff. right. exact Hx.
  Qed.

  (** The strings of a whole tree. *)
  Lemma strings_upto_interior n fuel L :
    (length L <= S fuel)%nat ->
    (forall k, (k < n)%nat -> (1 < length (ups H k L))%nat) ->
    forall x, In x (strings_upto n L) -> In x (interior_strings H fuel L).
  Proof.
    revert fuel L; induction n as [|n IH]; intros fuel L Hf Hk x Hx; [contradiction|].
    pose proof (Hk 0%nat ltac:(lia)) as H0. cbn in H0.
    destruct fuel as [|fuel]; [lia|]. cbn [interior_strings strings_upto] in *.
    destruct (Nat.leb_spec (length L) 1) as [Hle|_]; [lia|].
    apply in_app_iff in Hx as [Hx|Hx]; apply in_app_iff; [left; exact Hx|right].
    apply IH; [| |exact Hx].
    - rewrite map_length, length_pair_strings. pose proof (div2_le (length L)). lia.
    - intros k Hlt. specialize (Hk (S k) ltac:(lia)). cbn in Hk. rewrite layer_up_strings in Hk. exact Hk.
  Qed.

  Lemma strings_upto_app a b L x :
    In x (strings_upto b (ups H a L)) -> In x (strings_upto (a + b) L).
  Proof.
    revert L; induction a as [|a IH]; intros L Hx; [exact Hx|].
    cbn [Nat.add strings_upto ups] in *. rewrite layer_up_strings in Hx.
    apply in_app_iff. right. apply IH. exact Hx.
  Qed.

  Lemma ups_succ_map a L : exists M, ups H (S a) L = map H M /\
     forall x, In x M -> exists l r, x = node_string l r.
  Proof.
    revert L; induction a as [|a IH]; intros L.
    - exists (pair_strings L). split; [apply layer_up_strings|].
      induction L as [|u|u v L IHL _] using list_ind2; cbn; intros x Hx.
      + contradiction.
      + destruct Hx as [<-|[]]. eauto.
      + destruct Hx as [<-|Hx]; [eauto|]. apply IHL. exact Hx.
    - change (ups H (S (S a)) L) with (ups H (S a) (layer_up H L)). apply IH.
  Qed.

  Lemma ups_S_in a b L x : In x (pair_strings (ups H a L)) -> (a < b)%nat -> In x (strings_upto b L).
  Proof.
    intros Hx Hab. replace b with (a + S (b - a - 1)) by lia. apply strings_upto_app.
    cbn [strings_upto]. apply in_app_iff. left. exact Hx.
  Qed.

  Lemma ups_S a L : ups H (S a) L = layer_up H (ups H a L).
  Proof. replace (S a) with (a + 1) by lia. rewrite ups_add. reflexivity. Qed.

  Lemma leaf_not_node x l r : leaf_data x -> x <> node_string l r.
  Proof. intros Hx ->. apply Hx. exists (l ++ r). reflexivity. Qed.

  Lemma climbs_split a k nodes proof fin :
    (a <= k)%nat -> climbs k nodes proof fin ->
    exists nodes' proof', climbs (k - a) nodes' proof' fin /\
      (a = 0%nat -> nodes' = nodes /\ proof' = proof) /\
      (0 < a -> exists up, nodes' = map (hashed H) up /\
         forall n, In n up -> (exists l r, snd n = node_string l r) /\
            In (snd n) (climb_strings H k nodes proof)) /\
      (nodes <> [] -> nodes' <> []) /\
      (Forall len32 proof -> Forall len32 proof') /\
      (forall x, In x (climb_strings H (k - a) nodes' proof') -> In x (climb_strings H k nodes proof)).
  Proof.
    revert k nodes proof. induction a as [|a IH]; intros k nodes proof Ha Hc.
    - exists nodes, proof. rewrite Nat.sub_0_r. repeat split; auto; lia.
    - destruct k as [|k]; [lia|]. inversion Hc as [|k' nd pf up lft fi Ec Hc']; subst.
      destruct (IH k (map (hashed H) up) lft ltac:(lia) Hc') as (nodes' & proof' & C & I0 & I1 & I2 & I3 & I4).
      exists nodes', proof'. rewrite Nat.sub_succ. repeat split.
      + exact C.
      + lia.
      + lia.
      + intros _. destruct a as [|a].
        * destruct (I0 eq_refl) as [-> ->]. exists up. split; [reflexivity|].
          intros n Hn. split.
          -- clear - Ec Hn. revert proof up lft Ec n Hn.
             induction nodes as [|[p h]|[p h] [q s] nodes IH1 IH2] using list_ind2; intros proof up lft E n Hn.
             ++ cbn in E. injection E as <- <-. contradiction.
             ++ cbn in E. destruct proof; [discriminate|]. injection E as <- <-.
                destruct Hn as [<-|[]]. cbn. destruct (N.even p); eauto.
             ++ rewrite climb_cons2 in E. destruct (q =? (if N.even p then p + 1 else p - 1))%N.
                ** destruct (climb nodes proof) as [[u l]|] eqn:E1; [|discriminate].
                   injection E as <- <-. destruct Hn as [<-|Hn]; [cbn; destruct (N.even p); eauto|].
                   eapply IH1; eassumption.
                ** destruct proof as [|x proof]; [discriminate|].
                   destruct (climb ((q, s) :: nodes) proof) as [[u l]|] eqn:E1; [|discriminate].
                   injection E as <- <-. destruct Hn as [<-|Hn]; [cbn; destruct (N.even p); eauto|].
                   eapply IH2; [exact E1|exact Hn].
          -- cbn [climb_strings]. rewrite Ec. apply in_app_iff. left. apply in_map. exact Hn.
        * destruct (I1 ltac:(lia)) as (up' & E' & Hup). exists up'. split; [exact E'|].
          intros n Hn. destruct (Hup n Hn) as [Hs Hi]. split; [exact Hs|].
          cbn [climb_strings]. rewrite Ec. apply in_app_iff. right. exact Hi.
      + intros Hne. apply I2. destruct nodes as [|n nodes]; [contradiction|].
        apply climb_nonempty in Ec. destruct up; [contradiction|discriminate].
      + intros Hp. apply I3. eapply climb_lens; eassumption.
      + intros x Hx. apply I4 in Hx. cbn [climb_strings]. rewrite Ec. apply in_app_iff. right. exact Hx.
  Qed.
End Sound.

(** ** Sorting *)

Lemma insert_item_perm i l : Permutation (insert_item i l) (i :: l).
Proof.
  induction l as [|q l IH]; cbn; [reflexivity|].
  destruct (fst i <=? fst q)%N; [reflexivity|]. rewrite IH. apply perm_swap.
Qed.

Lemma sort_items_perm l : Permutation (sort_items l) l.
Proof.
  induction l as [|i l IH]; cbn; [reflexivity|]. rewrite insert_item_perm. constructor. exact IH.
Qed.

Definition sle (a b : N * bytes) : Prop := (fst a <= fst b)%N.
Definition slt (a b : N * bytes) : Prop := (fst a < fst b)%N.

Lemma insert_item_sorted i l : StronglySorted sle l -> StronglySorted sle (insert_item i l).
Proof.
  induction 1 as [|q l Hs IH Hq]; cbn; [repeat constructor|].
  destruct (fst i <=? fst q)%N eqn:E.
  - constructor; [constructor; assumption|]. constructor; [unfold sle; lia|].
    eapply Forall_impl; [|exact Hq]. unfold sle. intros a Ha. lia.
  - constructor; [exact IH|]. eapply Permutation_Forall; [symmetry; apply insert_item_perm|].
    constructor; [unfold sle; lia|exact Hq].
Qed.

Lemma sort_items_sorted l : StronglySorted sle (sort_items l).
Proof. induction l as [|i l IH]; cbn; [constructor|]. apply insert_item_sorted. exact IH. Qed.

Lemma sorted_strict l : StronglySorted sle l -> NoDup (map fst l) -> StronglySorted slt l.
Proof.
  induction 1 as [|a l Hs IH Ha]; cbn; intros Hd; constructor.
  - apply IH. inversion Hd; assumption.
  - inversion Hd as [|x y Hn Hd']; subst. apply Forall_forall. intros b Hb.
    rewrite Forall_forall in Ha. specialize (Ha b Hb). unfold sle, slt in *.
    assert (fst a <> fst b); [|lia]. intros E. apply Hn. rewrite E. apply in_map. exact Hb.
Qed.

Lemma sort_items_strict l : NoDup (map fst l) -> StronglySorted slt (sort_items l).
Proof.
  intros Hd. apply sorted_strict; [apply sort_items_sorted|].
  eapply Permutation_NoDup; [|exact Hd]. apply Permutation_map. symmetry. apply sort_items_perm.
Qed.

Lemma strict_unique (a b : list (N * bytes)) :
  StronglySorted slt a -> StronglySorted slt b -> Permutation a b -> a = b.
Proof.
  revert b; induction a as [|x a IH]; intros b Ha Hb Hp.
  - apply Permutation_nil in Hp. congruence.
  - destruct b as [|y b]; [symmetry in Hp; apply Permutation_nil in Hp; discriminate|].
    apply StronglySorted_inv in Ha as [Ha Hx]. apply StronglySorted_inv in Hb as [Hb Hy].
    assert (x = y) as ->.
    { assert (In x (y :: b)) as Hin by (eapply Permutation_in; [exact Hp|left; reflexivity]).
      assert (In y (x :: a)) as Hin2 by (eapply Permutation_in; [symmetry; exact Hp|left; reflexivity]).
      destruct Hin as [E|Hin]; [congruence|]. destruct Hin2 as [E|Hin2]; [congruence|].
      rewrite Forall_forall in Hx, Hy. specialize (Hx _ Hin2). specialize (Hy _ Hin).
      unfold slt in *. lia. }
    f_equal. apply IH; [assumption..|]. eapply Permutation_cons_inv; exact Hp.
Qed.

Lemma sorted_by_position_strict l : sorted_by_position l -> StronglySorted slt l.
Proof.
  induction l as [|a l IH]; intros Hs; constructor.
  - apply IH. intros i j x y Hx Hy Hij. apply (Hs (S i) (S j) x y); [exact Hx|exact Hy|lia].
  - apply Forall_forall. intros b Hb. apply In_nth_error in Hb as [n Hn].
    apply (Hs 0%nat (S n) a b); [reflexivity|exact Hn|lia].
Qed.

Lemma strict_sorted_by_position l : StronglySorted slt l -> sorted_by_position l.
Proof.
  induction 1 as [|a l Hs IH Ha]; intros i j x y Hx Hy Hij.
  - destruct i; discriminate.
  - destruct j as [|j]; [lia|]. cbn in Hy. destruct i as [|i]; cbn in Hx.
    + injection Hx as <-. rewrite Forall_forall in Ha. apply Ha. eapply nth_error_In; exact Hy.
    + apply (IH i j); [assumption..|lia].
Qed.

(** ** Soundness of verification *)

Lemma map_hashed_perm H a b : Permutation a b -> Permutation (map (hashed H) a) (map (hashed H) b).
Proof. apply Permutation_map. Qed.

Lemma verify_sound_height (H : bytes -> bytes) (Hlen : hash32 H)
    (xs : list bytes) (t : list (list bytes)) (r : bytes)
    (claims nodes : list (N * bytes)) (proof : list bytes) :
  from_array H xs = Some t -> root t = Ok r ->
  Forall leaf_data xs -> Forall (fun e => leaf_data (snd e)) claims ->
  NoDup (map fst claims) -> Forall (fun h => length h = 32) proof ->
  Permutation nodes (map (fun e => (fst e, H (snd e))) claims) -> sorted_by_position nodes ->
  verify H r (map (fun e => (fst e, H (snd e))) claims) proof = Some (Ok tt) ->
  let S := tree_strings H xs ++ map snd claims ++ climb_strings H 65 nodes proof in
  (forall p d, In (p, d) claims -> nth_error xs (N.to_nat p) = Some d) /\
  (claims <> [] -> (length t - 1 <= 65)%nat /\ climbs H (length t - 1) nodes proof [(0%N, r)]) \/
  collision_in H S S \/ zero_preimage_in H S.
Proof.
  intros Ht Hr Hxs Hcl Hnd Hpf Hperm Hsort Hv S.
  assert (claims = [] \/ exists c cs, claims = c :: cs) as [->|(c0 & claims0 & Ecl)]
    by (destruct claims; eauto); [left; split; [intros p d []|congruence]|].
  set (elems := map (fun e => (fst e, H (snd e))) claims) in *.
  assert (sort_items elems = nodes) as Es.
  { apply strict_unique.
    - apply sort_items_strict. unfold elems. rewrite map_map. cbn. exact Hnd.
    - apply sorted_by_position_strict. exact Hsort.
    - rewrite sort_items_perm. symmetry. exact Hperm. }
  unfold verify in Hv.
  assert (elems <> []) as Hne by (unfold elems; rewrite Ecl; discriminate).
  assert (exists e es, elems = e :: es) as (e0 & es & Eel)
    by (destruct elems; [contradiction|eauto]).
  rewrite Eel in Hv. rewrite <- Eel, Es in Hv. clear Es e0 es Eel.
  destruct (verify_loop H 65 0 nodes proof) as [[fin| |]|] eqn:El; try discriminate.
  destruct fin as [|[pos h] fin]; [discriminate|].
  destruct (negb (pos =? 0)%N || negb (bytes_eqb h r)) eqn:Ef; [discriminate|].
  apply orb_false_iff in Ef as [Ef1 Ef2]. apply negb_false_iff in Ef1, Ef2.
  apply N.eqb_eq in Ef1. apply bytes_eqb_spec in Ef2. subst pos h.
  assert (nodes <> []) as Hnn.
  { intros ->. apply Permutation_nil in Hperm. contradiction. }
  apply verify_loop_climbs in El as (k & Hk & Hc); [|exact Hnn].
  assert (fin = []) as ->.
  { clear - Hc. remember ((0%N, r) :: fin) as f eqn:Ef. induction Hc as [n|]; [injection Ef; auto|auto]. }
  assert (Hvs : forall x, In x (climb_strings H k nodes proof) -> In x S).
  { intros x Hx. unfold S. apply in_app_iff. right. apply in_app_iff. right.
    eapply climbs_strings_mono; [exact Hc| |exact Hx]. lia. }
  assert (Hcs : forall p d, In (p, d) claims -> In d S).
  { intros p d Hin. unfold S. apply in_app_iff. right. apply in_app_iff. left.
    change d with (snd (p, d)). apply in_map. exact Hin. }
  assert (Hnodes : forall n, In n nodes -> exists d, In (fst n, d) claims /\ snd n = H d).
  { intros n Hin. eapply Permutation_in in Hin; [|exact Hperm].
    apply in_map_iff in Hin as ([p d] & <- & Hin). exists d. cbn. auto. }
  assert (Hnl : Forall (fun n => len32 (snd n)) nodes).
  { apply Forall_forall. intros n Hin. apply Hnodes in Hin as (d & _ & ->). apply Hlen. }
  assert (Hin0 : forall p d, In (p, d) claims -> In (p, H d) nodes).
  { intros p d Hin. eapply Permutation_in; [symmetry; exact Hperm|].
    apply in_map_iff. exists (p, d). auto. }
  assert (xs = [] \/ xs <> []) as [->|Hxne] by (destruct xs; [left; reflexivity|right; discriminate]).
  { (* empty array *)
    assert (r = zero32) as -> by (apply root_empty in Ht; congruence).
    right. right.
    destruct (climbs_split H k k nodes proof _ ltac:(lia) Hc) as (nodes' & proof' & C & I0 & I1 & _).
    rewrite Nat.sub_diag in C. inversion C as [n Ea Eb Ed|]; subst. clear C.
    destruct k as [|k].
    - destruct (I0 eq_refl) as [<- _].
      destruct (Hnodes (0%N, zero32)) as (d & Hd & Ez); [left; reflexivity|]. cbn in Ez.
      exists d. split; [eapply Hcs; exact Hd|congruence].
    - destruct (I1 ltac:(lia)) as (up & Eup & Hup).
      destruct up as [|u up]; [discriminate|]. cbn in Eup. injection Eup as _ Ez _.
      destruct (Hup u ltac:(left; reflexivity)) as [_ Hs].
      exists (snd u). split; [apply Hvs; exact Hs|congruence]. }
  destruct (root_nonempty H xs t Ht Hxne) as (r' & Hr' & Hu).
  assert (r' = r) as -> by congruence.
  set (h := (length t - 1)%nat) in *.
  assert (Hint : forall x, In x (strings_upto H h (map H xs)) -> In x S).
  { intros x Hx. unfold S, tree_strings. apply in_app_iff. left. apply in_app_iff. right.
    pose proof (levels_from_spec _ _ _ _ Ht) as (Hne' & _ & H2 & _).
    eapply strings_upto_interior; [| |exact Hx].
    - rewrite map_length. lia.
    - intros j Hj. apply H2. unfold h in Hj. lia. }
  assert (Hxs' : forall x, In x xs -> In x S).
  { intros x Hx. unfold S, tree_strings. apply in_app_iff. left. apply in_app_iff. left. exact Hx. }
  assert (Hbad : forall A B, (forall x, In x A -> In x S) -> (forall x, In x B -> In x S) ->
      bad H A B -> collision_in H S S \/ zero_preimage_in H S).
  { intros A B HA HB [C|Z]; [left|right].
    - exact (collision_in_mono _ _ _ _ _ HA HB C).
    - eapply zero_preimage_mono; [|exact Z]. intros x Hx. apply in_app_iff in Hx as [|]; auto. }
  destruct (Nat.le_gt_cases k h) as [Hkh|Hkh].
  - (* at most as many levels as the tree *)
    assert (Eu : ups H k (ups H (h - k) (map H xs)) = [r]).
    { rewrite <- ups_add. replace (h - k + k)%nat with h by lia. exact Hu. }
    assert (HL : Forall len32 (ups H (h - k) (map H xs))).
    { destruct (h - k)%nat as [|j]; [apply Forall_len32_map; exact Hlen|].
      destruct (ups_succ_map H j (map H xs)) as (M & -> & _). apply Forall_len32_map; exact Hlen. }
    destruct (climbs_sound H Hlen k nodes proof r _ HL Hnl Hpf Hc Eu) as [M|B].
    2:{ right. eapply Hbad; [exact Hvs| |exact B].
        intros x Hx. apply Hint. replace h with (h - k + k)%nat by lia.
        apply strings_upto_app. exact Hx. }
    rewrite Forall_forall in M.
    destruct (h - k)%nat as [|j] eqn:Ej.
    + (* same height *)
      cbn [ups] in M.
      assert (Hall : forall l, (forall e, In e l -> In e claims) ->
         (forall p d, In (p, d) l -> nth_error xs (N.to_nat p) = Some d) \/
         collision_in H S S \/ zero_preimage_in H S).
      { induction l as [|[p d] l IHl]; intros Hsub; [left; intros p d []|].
        destruct IHl as [IHl|IHl]; [intros e He; apply Hsub; right; exact He| |right; exact IHl].
        assert (In (p, d) claims) as Hpd by (apply Hsub; left; reflexivity).
        destruct (M _ (Hin0 _ _ Hpd)) as [E|E]; cbn in E.
        - unfold at_pos in E. rewrite nth_error_map in E.
          destruct (nth_error xs (N.to_nat p)) as [x|] eqn:Ex; [|discriminate].
          cbn in E. injection E as E.
          destruct (bytes_eq_dec x d) as [->|Hxd].
          + left. intros p' d' [E'|Hin']; [injection E' as <- <-; exact Ex|apply IHl; exact Hin'].
          + right. left. exists x, d. split; [apply Hxs'; eapply nth_error_In; exact Ex|].
            split; [eapply Hcs; exact Hpd|]. split; assumption.
        - right. right. exists d. split; [eapply Hcs; exact Hpd|exact E]. }
      destruct (Hall claims ltac:(auto)) as [Hok|Hno]; [|right; exact Hno]. left. split; [exact Hok|].
      intros _. fold h. replace h with k by lia. split; [lia|exact Hc].
    + (* fewer levels than the tree: a leaf equals an interior node *)
      right. destruct c0 as [p0 d0].
      assert (In (p0, d0) claims) as Hpd by (rewrite Ecl; left; reflexivity).
      destruct (M _ (Hin0 _ _ Hpd)) as [E|E]; cbn [fst snd] in E.
      * unfold at_pos in E.
        rewrite ups_S, layer_up_strings, nth_error_map in E.
        destruct (nth_error (pair_strings (ups H j (map H xs))) (N.to_nat p0)) as [s|] eqn:Es'; [|discriminate].
        cbn in E. injection E as E. apply nth_error_In in Es'.
        left. exists s, d0. split; [apply Hint; eapply ups_S_in; [exact Es'|lia]|].
        split; [eapply Hcs; exact Hpd|]. split; [|exact E].
        intros ->. rewrite Forall_forall in Hcl. specialize (Hcl _ Hpd). cbn in Hcl.
        assert (exists l r0, d0 = node_string l r0) as (l & r0 & E2).
        { clear - Es'. revert Es'. generalize (ups H j (map H xs)) as L.
          induction L as [|u|u v L IHL _] using list_ind2; cbn; [intros []| |].
          - intros [<-|[]]. eauto.
          - intros [<-|Hx]; [eauto|apply IHL; exact Hx]. }
        exact (leaf_not_node _ _ _ Hcl E2).
      * right. exists d0. split; [eapply Hcs; exact Hpd|exact E].
  - (* more levels than the tree *)
    right.
    destruct (climbs_split H (k - h) k nodes proof _ ltac:(lia) Hc)
      as (nodes' & proof' & C & _ & I1 & I2 & I3 & I4).
    replace (k - (k - h))%nat with h in * by lia.
    destruct (I1 ltac:(lia)) as (up & -> & Hup).
    destruct (climbs_sound H Hlen h (map (hashed H) up) proof' r (map H xs)) as [M|B].
    + apply Forall_len32_map; exact Hlen.
    + apply Forall_forall. intros n Hin. apply in_map_iff in Hin as (m & <- & _). apply Hlen.
    + apply I3. exact Hpf.
    + exact C.
    + exact Hu.
    + destruct up as [|u up]; [exfalso; apply (I2 Hnn); reflexivity|].
      destruct (Hup u ltac:(left; reflexivity)) as [(l & r0 & Es') Hs].
      cbn [map] in M. apply Forall_inv in M. destruct M as [E|E]; cbn in E.
      * unfold at_pos in E. rewrite nth_error_map in E.
        destruct (nth_error xs (N.to_nat (fst u))) as [x|] eqn:Ex; [|discriminate].
        cbn in E. injection E as E. apply nth_error_In in Ex.
        left. exists x, (snd u). split; [apply Hxs'; exact Ex|]. split; [apply Hvs; exact Hs|].
        split; [|exact E]. rewrite Es'. apply leaf_not_node.
        rewrite Forall_forall in Hxs. apply Hxs. exact Ex.
      * right. exists (snd u). split; [apply Hvs; exact Hs|exact E].
    + eapply Hbad; [| |exact B].
      * intros x Hx. apply Hvs. apply I4. exact Hx.
      * exact Hint.
Qed.

Lemma verify_sound_lemma (H : bytes -> bytes) (Hlen : hash32 H)
    (xs : list bytes) (t : list (list bytes)) (r : bytes)
    (claims nodes : list (N * bytes)) (proof : list bytes) :
  from_array H xs = Some t -> root t = Ok r ->
  Forall leaf_data xs -> Forall (fun e => leaf_data (snd e)) claims ->
  NoDup (map fst claims) -> Forall (fun h => length h = 32) proof ->
  Permutation nodes (map (fun e => (fst e, H (snd e))) claims) -> sorted_by_position nodes ->
  verify H r (map (fun e => (fst e, H (snd e))) claims) proof = Some (Ok tt) ->
  let S := tree_strings H xs ++ map snd claims ++ climb_strings H 65 nodes proof in
  (forall p d, In (p, d) claims -> nth_error xs (N.to_nat p) = Some d) \/
  collision_in H S S \/ zero_preimage_in H S.
Proof.
  intros A1 A2 A3 A4 A5 A6 A7 A8 A9 S.
  destruct (verify_sound_height H Hlen xs t r claims nodes proof A1 A2 A3 A4 A5 A6 A7 A8 A9) as [[C _]|C]; [left; exact C|right; exact C].
Qed.

(** ** Completeness *)

Definition sib (p : N) : N := if N.even p then (p + 1)%N else (p - 1)%N.
Definition sib_hash (L : list bytes) (p : N) : bytes :=
  match at_pos L (sib p) with Some h => h | None => zero32 end.

Fixpoint needed (L : list bytes) (ps : list N) : list bytes :=
  match ps with
  | [] => []
  | p :: rest =>
      match rest with
      | q :: rest' => if (q =? sib p)%N then needed L rest' else sib_hash L p :: needed L rest
      | [] => [sib_hash L p]
      end
  end.

Fixpoint next_pos (ps : list N) : list N :=
  match ps with
  | [] => []
  | p :: rest =>
      match rest with
      | q :: rest' => if (q =? sib p)%N then (p / 2)%N :: next_pos rest' else (p / 2)%N :: next_pos rest
      | [] => [(p / 2)%N]
      end
  end.

Lemma needed_cons2 L p q r :
  needed L (p :: q :: r) = if (q =? sib p)%N then needed L r else sib_hash L p :: needed L (q :: r).
Proof. reflexivity. Qed.
Lemma next_pos_cons2 p q r :
  next_pos (p :: q :: r) =
    if (q =? sib p)%N then (p / 2)%N :: next_pos r else (p / 2)%N :: next_pos (q :: r).
Proof. reflexivity. Qed.

Lemma partial_up_prove H tree l L items hints :
  tree <> [] -> nth_error tree (N.to_nat l) = Some L ->
  partial_up H tree hints l false items =
    Ok (map (fun p => (p, zero32)) (next_pos (map fst items)),
        hints ++ needed L (map fst items)).
Proof.
  intros Hne Hl.
  assert (Hget : forall hs i, siblings_get tree hs l i =
     Ok (match at_pos L i with Some h => h | None => zero32 end,
         hs ++ [match at_pos L i with Some h => h | None => zero32 end])).
  { intros hs i. unfold siblings_get. destruct tree as [|x tree]; [contradiction|].
    assert (N.to_nat l < length (x :: tree))%nat by (apply nth_error_Some; congruence).
    destruct (N.leb_spec (N.of_nat (length (x :: tree))) l); [lia|]. rewrite Hl. reflexivity. }
  revert hints; induction items as [|[p h]|[p h] [q s] items IH1 IH2] using list_ind2; intros hints.
  - cbn. rewrite app_nil_r. reflexivity.
  - cbn [partial_up]. rewrite Hget. cbn. rewrite lxor1. reflexivity.
  - rewrite partial_up_cons2, lxor1. cbn [map fst]. rewrite needed_cons2, next_pos_cons2.
    fold (sib p). destruct (q =? sib p)%N.
    + rewrite IH1. reflexivity.
    + rewrite Hget. cbn [bind]. rewrite IH2. cbn [bind map]. cbn [map fst].
      rewrite <- app_assoc. reflexivity.
Qed.

Definition matches (L : list bytes) (n : N * bytes) : Prop := at_pos L (fst n) = Some (snd n).

(** The string for the parent of a known node. *)
Lemma parent_string L p h :
  at_pos L p = Some h ->
  at_pos (pair_strings L) (p / 2) =
    Some (if N.even p then node_string h (sib_hash L p) else node_string (sib_hash L p) h).
Proof.
  intros E. unfold at_pos, sib_hash, sib in *. destruct (N.even p) eqn:Ep.
  - apply even_spec2 in Ep as [k ->]. replace (2 * k / 2)%N with k by lia.
    replace (N.to_nat (2 * k)) with (2 * N.to_nat k) in E by lia.
    rewrite (pair_strings_nth_some _ _ _ E). unfold at_pos.
    replace (N.to_nat (2 * k + 1)) with (2 * N.to_nat k + 1) by lia. reflexivity.
  - apply odd_spec2 in Ep as [k ->]. replace ((2 * k + 1) / 2)%N with k by lia.
    replace (N.to_nat (2 * k + 1)) with (2 * N.to_nat k + 1) in E by lia.
    unfold at_pos. replace (N.to_nat (2 * k + 1 - 1)) with (2 * N.to_nat k) by lia.
    destruct (nth_error L (2 * N.to_nat k)) as [a|] eqn:Ea.
    + rewrite (pair_strings_nth_some _ _ _ Ea), E. reflexivity.
    + exfalso. apply nth_error_None in Ea.
      assert (2 * N.to_nat k + 1 < length L)%nat by (apply nth_error_Some; congruence). lia.
Qed.

Lemma sib_hash_matches L p q s : matches L (q, s) -> q = sib p -> sib_hash L p = s.
Proof. unfold matches, sib_hash. cbn. intros E <-. rewrite E. reflexivity. Qed.

Lemma climb_complete L nodes rest :
  Forall (matches L) nodes ->
  exists up, climb nodes (needed L (map fst nodes) ++ rest) = Some (up, rest) /\
    map fst up = next_pos (map fst nodes) /\ Forall (matches (pair_strings L)) up.
Proof.
  intros Hm. induction nodes as [|[p h]|[p h] [q s] nodes IH1 IH2] using list_ind2.
  - exists []. repeat split; constructor.
  - cbn. eexists; split; [reflexivity|]. split; [reflexivity|]. constructor; [|constructor].
    apply Forall_inv in Hm. unfold matches in *. cbn [fst snd] in *. apply parent_string. exact Hm.
  - pose proof (Forall_inv Hm) as M1. pose proof (Forall_inv_tail Hm) as Hm'.
    pose proof (Forall_inv Hm') as M2. pose proof (Forall_inv_tail Hm') as Hm''.
    rewrite climb_cons2. cbn [map fst]. rewrite needed_cons2, next_pos_cons2. fold (sib p).
    destruct (q =? sib p)%N eqn:Eq.
    + destruct (IH1 Hm'') as (up & E & E1 & E2). rewrite E. eexists; split; [reflexivity|].
      cbn [map fst]. split; [rewrite E1; reflexivity|]. constructor; [|exact E2].
      apply N.eqb_eq in Eq. unfold matches. cbn [fst snd].
      rewrite (parent_string L p h M1), (sib_hash_matches L p q s M2 Eq). reflexivity.
    + cbn [app]. destruct (IH2 Hm') as (up & E & E1 & E2).
      change (map fst ((q, s) :: nodes)) with (q :: map fst nodes) in *.
      rewrite E. eexists; split; [reflexivity|].
      cbn [map fst]. split; [rewrite E1; reflexivity|]. constructor; [|exact E2].
      unfold matches. cbn [fst snd]. apply (parent_string L p h M1).
Qed.

(** Strictly increasing positions stay strictly increasing. *)
Lemma sib_half p : (sib p / 2 = p / 2)%N.
Proof.
  unfold sib. destruct (N.even p) eqn:Ep.
  - apply even_spec2 in Ep as [k ->]. lia.
  - apply odd_spec2 in Ep as [k ->]. lia.
Qed.

Lemma half_lt p q : (p < q)%N -> q <> sib p -> (p / 2 < q / 2)%N.
Proof.
  unfold sib. intros Hlt Hne. destruct (N.even p) eqn:Ep.
  - apply even_spec2 in Ep as [k ->]. lia.
  - apply odd_spec2 in Ep as [k ->]. lia.
Qed.

Lemma next_pos_bound p ps :
  Forall (fun q => p <= q)%N ps -> Forall (fun q => p / 2 <= q)%N (next_pos ps).
Proof.
  induction ps as [|a|a b ps IH1 IH2] using list_ind2; intros Hb.
  - constructor.
  - apply Forall_inv in Hb. constructor; [|constructor]. lia.
  - rewrite next_pos_cons2. pose proof (Forall_inv Hb) as Ha. pose proof (Forall_inv_tail Hb) as Hb'.
    cbn beta in Ha.
    destruct (b =? sib a)%N; (constructor; [lia|]); [apply IH1|apply IH2; exact Hb'].
    exact (Forall_inv_tail Hb').
Qed.

Lemma next_pos_strict ps : StronglySorted N.lt ps -> StronglySorted N.lt (next_pos ps).
Proof.
  induction ps as [|a|a b ps IH1 IH2] using list_ind2; intros Hs.
  - constructor.
  - cbn. repeat constructor.
  - rewrite next_pos_cons2. apply StronglySorted_inv in Hs as [Hs Ha].
    pose proof (StronglySorted_inv Hs) as [Hs' Hb].
    destruct (b =? sib a)%N eqn:E.
    + apply N.eqb_eq in E. subst b. constructor; [apply IH1; exact Hs'|].
      assert (Hb' : Forall (fun q => sib a + 1 <= q)%N ps)
        by (eapply Forall_impl; [|exact Hb]; intros q Hq; cbn in *; lia).
      apply next_pos_bound in Hb'. eapply Forall_impl; [|exact Hb']. cbn. intros q Hq.
      pose proof (Forall_inv Ha) as Hlt.
      enough (a / 2 < (sib a + 1) / 2)%N by lia.
      unfold sib in *. destruct (N.even a) eqn:Ep.
      * apply even_spec2 in Ep as [k ->]. lia.
      * lia.
    + apply N.eqb_neq in E. constructor; [apply IH2; exact Hs|].
      pose proof (Forall_inv Ha) as Hlt. pose proof (half_lt _ _ Hlt E) as Hh.
      assert (Hb' : Forall (fun q => b <= q)%N (b :: ps)).
      { constructor; [lia|]. eapply Forall_impl; [|exact Hb]. intros q Hq; cbn in *; lia. }
      apply next_pos_bound in Hb'. eapply Forall_impl; [|exact Hb']. cbn. intros q Hq. lia.
Qed.

Lemma next_pos_nonempty ps : ps <> [] -> next_pos ps <> [].
Proof.
  destruct ps as [|a [|b ps]]; [contradiction|discriminate|].
  rewrite next_pos_cons2. destruct (b =? sib a)%N; discriminate.
Qed.

(** All siblings asked for on [n] levels. *)
Fixpoint all_hints (H : bytes -> bytes) (n : nat) (L : list bytes) (ps : list N) : list bytes :=
  match n with
  | O => []
  | S n' => needed L ps ++ all_hints H n' (layer_up H L) (next_pos ps)
  end.

Fixpoint iter_next (n : nat) (ps : list N) : list N :=
  match n with O => ps | S n' => iter_next n' (next_pos ps) end.

Lemma prove_loop_spec H tree n l pl hints L :
  (forall k, (k <= n)%nat -> nth_error tree (N.to_nat l + k) = Some (ups H k L)) ->
  exists pl', prove_loop H tree n l pl hints = Ok (pl', hints ++ all_hints H n L (map fst pl)) /\
    map fst pl' = iter_next n (map fst pl).
Proof.
  revert l pl hints L; induction n as [|n IH]; intros l pl hints L Hk.
  - cbn. exists pl. rewrite app_nil_r. auto.
  - cbn [prove_loop]. rewrite (partial_up_prove H tree l L).
    2:{ intros ->. specialize (Hk 0%nat ltac:(lia)). destruct (N.to_nat l + 0)%nat; discriminate. }
    2:{ specialize (Hk 0%nat ltac:(lia)). rewrite Nat.add_0_r in Hk. exact Hk. }
    cbn [bind].
    destruct (IH (l + 1)%N (map (fun p => (p, zero32)) (next_pos (map fst pl)))
                (hints ++ needed L (map fst pl)) (layer_up H L)) as (pl' & E1 & E2).
    { intros k Hkn. specialize (Hk (S k) ltac:(lia)). cbn [ups] in Hk.
      replace (N.to_nat (l + 1) + k)%nat with (N.to_nat l + S k)%nat by lia. exact Hk. }
    rewrite map_map in E1, E2. cbn [fst] in E1, E2. rewrite map_id in E1, E2.
    exists pl'. cbn [all_hints iter_next]. rewrite E1, <- app_assoc. auto.
Qed.

Lemma matches_map H L n : matches (pair_strings L) n -> matches (layer_up H L) (hashed H n).
Proof.
  unfold matches, at_pos, hashed. cbn. intros E. rewrite layer_up_strings, nth_error_map, E. reflexivity.
Qed.

Lemma singleton_items r items :
  items <> [] -> StronglySorted N.lt (map fst items) -> Forall (matches [r]) items ->
  items = [(0%N, r)].
Proof.
  intros Hne Hs Hm.
  assert (H0 : forall i, In i items -> i = (0%N, r)).
  { intros [p h] Hi. rewrite Forall_forall in Hm. specialize (Hm _ Hi).
    unfold matches, at_pos in Hm. cbn [fst snd] in Hm.
    destruct (N.to_nat p) as [|k] eqn:Ep; cbn in Hm; [|destruct k; discriminate].
    injection Hm as ->. f_equal. lia. }
  destruct items as [|i [|j items]]; [contradiction| |].
  - rewrite (H0 i); [reflexivity|left; reflexivity].
  - exfalso. rewrite (H0 i), (H0 j) in Hs; [|cbn; auto..].
    cbn in Hs. apply StronglySorted_inv in Hs as [_ Hs]. apply Forall_inv in Hs. lia.
Qed.

Lemma verify_loop_complete H n fuel l L r items :
  (n <= fuel)%nat -> (l + N.of_nat n <= 64)%N ->
  items <> [] -> StronglySorted N.lt (map fst items) -> Forall (matches L) items ->
  (forall k, (k < n)%nat -> (1 < length (ups H k L))%nat) -> ups H n L = [r] ->
  verify_loop H fuel l items (all_hints H n L (map fst items)) = Some (Ok [(0%N, r)]).
Proof.
  revert fuel l L items; induction n as [|n IH]; intros fuel l L items Hf Hl Hne Hs Hm Hk Hu.
  - cbn in Hu. subst L. rewrite (singleton_items r items Hne Hs Hm).
    destruct fuel; reflexivity.
  - destruct fuel as [|fuel]; [lia|]. cbn [all_hints].
    destruct (climb_complete L items (all_hints H n (layer_up H L) (next_pos (map fst items))) Hm)
      as (up & E & E1 & E2).
    remember (needed L (map fst items) ++ all_hints H n (layer_up H L) (next_pos (map fst items)))
      as hints eqn:Eh.
    cbn [verify_loop].
    assert (match hints with [] => false | _ => true end || Nat.ltb 1 (length items) = true) as ->.
    { destruct items as [|[p h] [|i2 items]]; [contradiction| |].
      - subst hints. reflexivity.
      - apply orb_true_r. }
    rewrite partial_up_verify, E. unfold MAX_HEIGHT.
    destruct (N.ltb_spec 64 (l + 1)); [lia|].
    rewrite <- E1.
    assert (Ef : map fst up = map fst (map (hashed H) up)) by (rewrite map_map; reflexivity).
    rewrite Ef. apply IH; [lia|lia| | | | |exact Hu].
    + intros E0. apply (next_pos_nonempty (map fst items)); [destruct items; [contradiction|discriminate]|].
      rewrite <- E1, Ef, E0. reflexivity.
    + rewrite <- Ef, E1. apply next_pos_strict. exact Hs.
    + apply Forall_forall. intros i Hi. apply in_map_iff in Hi as (m & <- & Hi).
      apply matches_map. rewrite Forall_forall in E2. apply E2. exact Hi.
    + intros k Hkn. apply (Hk (S k)). lia.
Qed.

(** ** Positions *)

Lemma insert_pos_perm p l : Permutation (insert_pos p l) (p :: l).
Proof.
  induction l as [|q l IH]; cbn; [reflexivity|].
  destruct (p <=? q)%N; [reflexivity|]. rewrite IH. apply perm_swap.
Qed.
Lemma sort_pos_perm l : Permutation (sort_pos l) l.
Proof. induction l as [|i l IH]; cbn; [reflexivity|]. rewrite insert_pos_perm. constructor. exact IH. Qed.
Lemma insert_pos_sorted p l : StronglySorted N.le l -> StronglySorted N.le (insert_pos p l).
Proof.
  induction 1 as [|q l Hs IH Hq]; cbn; [repeat constructor|].
  destruct (p <=? q)%N eqn:E.
  - constructor; [constructor; assumption|]. constructor; [lia|].
    eapply Forall_impl; [|exact Hq]. intros a Ha. lia.
  - constructor; [exact IH|]. eapply Permutation_Forall; [symmetry; apply insert_pos_perm|].
    constructor; [lia|exact Hq].
Qed.
Lemma sort_pos_sorted l : StronglySorted N.le (sort_pos l).
Proof. induction l as [|i l IH]; cbn; [constructor|]. apply insert_pos_sorted. exact IH. Qed.

Lemma strictN_unique a b :
  StronglySorted N.lt a -> StronglySorted N.lt b -> (forall x, In x a <-> In x b) -> a = b.
Proof.
  revert b; induction a as [|x a IH]; intros b Ha Hb Heq.
  - destruct b as [|y b]; [reflexivity|]. exfalso. apply (Heq y). left. reflexivity.
  - destruct b as [|y b]; [exfalso; apply (Heq x); left; reflexivity|].
    apply StronglySorted_inv in Ha as [Ha Hx]. apply StronglySorted_inv in Hb as [Hb Hy].
    rewrite Forall_forall in Hx, Hy.
    assert (x = y) as ->.
    { pose proof (proj1 (Heq x) (or_introl eq_refl)) as [E|H1]; [congruence|].
      pose proof (proj2 (Heq y) (or_introl eq_refl)) as [E|H2]; [congruence|].
      specialize (Hx _ H2). specialize (Hy _ H1). lia. }
    f_equal. apply IH; [assumption..|]. intros z. split; intros Hz.
    + destruct (proj1 (Heq z) (or_intror Hz)) as [->|E]; [|exact E]. specialize (Hx _ Hz). lia.
    + destruct (proj2 (Heq z) (or_intror Hz)) as [->|E]; [|exact E]. specialize (Hy _ Hz). lia.
Qed.

Lemma SSorted_app_last (a : list N) (p : N) :
  StronglySorted N.lt a -> Forall (fun q => q < p)%N a -> StronglySorted N.lt (a ++ [p]).
Proof.
  induction 1 as [|x a Hs IH Hx]; cbn; intros Hf; [repeat constructor|].
  constructor; [apply IH; exact (Forall_inv_tail Hf)|].
  apply Forall_app. split; [exact Hx|]. constructor; [exact (Forall_inv Hf)|constructor].
Qed.

Lemma collect_ok l0 pl idxs :
  Forall (fun p => N.to_nat p < length l0)%nat idxs ->
  StronglySorted N.le idxs -> StronglySorted N.lt (map fst pl) -> Forall (matches l0) pl ->
  (forall p q, In p (map fst pl) -> In q idxs -> (p <= q)%N) ->
  exists pl', collect l0 pl idxs = Ok pl' /\ StronglySorted N.lt (map fst pl') /\
    Forall (matches l0) pl' /\
    (forall p, In p (map fst pl') <-> In p (map fst pl) \/ In p idxs).
Proof.
  revert pl; induction idxs as [|pos idxs IH]; intros pl Hr Hs Hpl Hm Hle.
  - exists pl. cbn. firstorder.
  - pose proof (Forall_inv Hr) as Hpos. pose proof (Forall_inv_tail Hr) as Hr'. cbn beta in Hpos.
    apply StronglySorted_inv in Hs as [Hs Hp]. rewrite Forall_forall in Hp.
    cbn [collect]. destruct (N.leb_spec (N.of_nat (length l0)) pos); [lia|].
    assert (Hlast : forall x, pl <> [] -> In x (map fst pl) -> (x <= fst (last pl (0%N, [])))%N).
    { intros x Hne Hx. destruct (exists_last Hne) as (pl0 & y & ->). rewrite last_last.
      rewrite map_app in Hx, Hpl. apply in_app_iff in Hx as [Hx|[<-|[]]]; [|cbn; lia].
      clear - Hx Hpl. induction (map fst pl0) as [|z l IHl]; [contradiction|].
      cbn in Hpl. apply StronglySorted_inv in Hpl as [Hs Hf]. destruct Hx as [->|Hx]; [|auto].
      rewrite Forall_forall in Hf. specialize (Hf (fst y)). cbn in Hf.
      assert (x < fst y)%N; [|lia]. apply Hf. apply in_app_iff. right. left. reflexivity. }
    destruct (match pl with [] => false | _ => (fst (last pl (0%N, [])) =? pos)%N end) eqn:Ed.
    + assert (In pos (map fst pl)) as Hin.
      { destruct pl as [|i pl]; [discriminate|]. apply N.eqb_eq in Ed. rewrite <- Ed.
        apply in_map. assert (i :: pl <> []) as Hne by discriminate.
        destruct (exists_last Hne) as (pl0 & y & ->). rewrite last_last. apply in_app_iff. right. left. reflexivity. }
      destruct (IH pl Hr' Hs Hpl Hm) as (pl' & E1 & E2 & E3 & E4).
      { intros p q Hp' Hq. apply Hle; [exact Hp'|right; exact Hq]. }
      exists pl'. split; [exact E1|]. split; [exact E2|]. split; [exact E3|].
      intros p. rewrite E4. cbn. split; [tauto|]. intros [|[<-|]]; auto.
    + destruct (nth_error l0 (N.to_nat pos)) as [h|] eqn:En.
      2:{ apply nth_error_None in En. lia. }
      assert (Hlt : forall x, In x (map fst pl) -> (x < pos)%N).
      { intros x Hx. pose proof (Hle x pos Hx (or_introl eq_refl)) as Hxle.
        assert (x <> pos); [|lia]. intros ->.
        destruct pl as [|i pl]; [contradiction|].
        apply N.eqb_neq in Ed. apply Ed.
        specialize (Hlast pos ltac:(discriminate) Hx).
        assert (In (fst (last (i :: pl) (0%N, []))) (map fst (i :: pl))) as Hl.
        { apply in_map. assert (i :: pl <> []) as Hne by discriminate.
          destruct (exists_last Hne) as (pl0 & y & ->). rewrite last_last. apply in_app_iff. right. left. reflexivity. }
        pose proof (Hle _ pos Hl (or_introl eq_refl)) as Hmax. lia. }
      destruct (IH (pl ++ [(pos, h)]) Hr' Hs) as (pl' & E1 & E2 & E3 & E4).
      { rewrite map_app. cbn. apply SSorted_app_last; [exact Hpl|]. apply Forall_forall. exact Hlt. }
      { apply Forall_app. split; [exact Hm|]. constructor; [exact En|constructor]. }
      { intros p q Hp' Hq. rewrite map_app in Hp'. apply in_app_iff in Hp' as [Hp'|[<-|[]]].
        - apply Hle; [exact Hp'|right; exact Hq].
        - cbn. apply Hp. exact Hq. }
      exists pl'. split; [exact E1|]. split; [exact E2|]. split; [exact E3|].
      intros p. rewrite E4, map_app, in_app_iff. cbn. tauto.
Qed.

Lemma collect_err l0 pl idxs p :
  In p idxs -> (length l0 <= N.to_nat p)%nat -> collect l0 pl idxs = Err tt.
Proof.
  revert pl; induction idxs as [|q idxs IH]; intros pl Hin Hp; [contradiction|].
  cbn [collect]. destruct (N.leb_spec (N.of_nat (length l0)) q); [reflexivity|].
  destruct Hin as [->|Hin]; [lia|].
  match goal with |- context [if ?c then _ else _] => destruct c end; [apply IH; assumption|].
  destruct (nth_error l0 (N.to_nat q)) eqn:E; [apply IH; assumption|].
  apply nth_error_None in E. lia.
Qed.

Lemma ups_length_bound H m L :
  (N.of_nat (length L) <= 2 ^ N.of_nat m)%N -> (length (ups H m L) <= 1)%nat.
Proof.
  revert L; induction m as [|m IH]; intros L Hb; cbn [ups].
  - cbn in Hb. lia.
  - apply IH. rewrite length_layer_up.
    replace (N.of_nat (S m)) with (N.succ (N.of_nat m)) in Hb by lia.
    rewrite N.pow_succ_r' in Hb. pose proof (div2_le (length L)). lia.
Qed.

Lemma height_le_64 H xs t :
  from_array H xs = Some t -> (N.of_nat (length xs) <= 2 ^ 64)%N -> (length t - 1 <= 64)%nat.
Proof.
  intros E Hb. apply levels_from_spec in E as (_ & _ & H2 & _).
  destruct (Nat.le_gt_cases (length t - 1) 64) as [|Hgt]; [assumption|].
  specialize (H2 64%nat ltac:(lia)).
  pose proof (ups_length_bound H 64 (map H xs)) as Hu. rewrite map_length in Hu.
  specialize (Hu Hb). lia.
Qed.

Lemma levels_head H xs t : from_array H xs = Some t -> exists t', t = map H xs :: t'.
Proof.
  intros E. apply levels_from_spec in E as (Hne & H1 & _ & _).
  destruct t as [|l0 t']; [contradiction|]. exists t'.
  specialize (H1 0%nat ltac:(cbn; lia)). cbn in H1. congruence.
Qed.

(** What [prove] computes for in-range positions. *)
Lemma prove_ok H xs t idxs :
  from_array H xs = Some t -> idxs <> [] ->
  Forall (fun p => N.to_nat p < length xs)%nat idxs ->
  exists ps, StronglySorted N.lt ps /\ (forall p, In p ps <-> In p idxs) /\
    prove H t idxs = Ok (all_hints H (length t - 1) (map H xs) ps).
Proof.
  intros Ht Hne Hr.
  destruct (levels_head H xs t Ht) as [t' Et].
  destruct (collect_ok (map H xs) [] (sort_pos idxs)) as (pl & E1 & E2 & E3 & E4).
  { apply Forall_forall. intros p Hp. rewrite map_length. rewrite Forall_forall in Hr. apply Hr.
    eapply Permutation_in; [apply sort_pos_perm|exact Hp]. }
  { apply sort_pos_sorted. }
  { constructor. }
  { constructor. }
  { intros p q []. }
  assert (Hset : forall p, In p (map fst pl) <-> In p idxs).
  { intros p. rewrite E4. cbn. split.
    - intros [[]|Hp]. eapply Permutation_in; [apply sort_pos_perm|exact Hp].
    - intros Hp. right. eapply Permutation_in; [symmetry; apply sort_pos_perm|exact Hp]. }
  exists (map fst pl). split; [exact E2|]. split; [exact Hset|].
  pose proof (levels_from_spec _ _ _ _ Ht) as (_ & H1 & H2 & H3).
  destruct (prove_loop_spec H t (length t - 1) 0 pl [] (map H xs)) as (pl' & P1 & P2).
  { intros k Hk. replace (N.to_nat 0 + k)%nat with k by lia. apply H1.
    rewrite Et in *. cbn in *. lia. }
  unfold prove. destruct idxs as [|i idxs]; [contradiction|].
  rewrite Et at 1. rewrite E1. cbn [bind]. rewrite P1. cbn [bind app].
  assert (length pl' = 1)%nat as ->; [|reflexivity].
  rewrite <- (map_length fst), P2.
  assert (Hpl0 : pl <> []).
  { intros ->. apply (Hset i). left. reflexivity. }
  (* positions stay in range of a one-element layer *)
  assert (Hgen : forall n L items, items <> [] -> StronglySorted N.lt (map fst items) ->
     Forall (matches L) items -> length (ups H n L) = 1%nat -> length (iter_next n (map fst items)) = 1%nat).
  { clear. induction n as [|n IH]; intros L items Hne Hs Hm Hu.
    - cbn in *. destruct L as [|r [|r' L]]; try discriminate.
      rewrite (singleton_items r items Hne Hs Hm). reflexivity.
    - cbn [iter_next ups] in *.
      destruct (climb_complete L items [] Hm) as (up & _ & F1 & F2).
      rewrite <- F1.
      replace (map fst up) with (map fst (map (hashed H) up)) by (rewrite map_map; reflexivity).
      apply (IH (layer_up H L)); [| | |exact Hu].
      + intros E0. apply (next_pos_nonempty (map fst items)); [destruct items; [contradiction|discriminate]|].
        rewrite <- F1. destruct up; [reflexivity|discriminate].
      + rewrite map_map. change (fun x => fst (hashed H x)) with (@fst N bytes). rewrite F1. apply next_pos_strict. exact Hs.
      + apply Forall_forall. intros i Hi. apply in_map_iff in Hi as (m & <- & Hi).
        apply matches_map. rewrite Forall_forall in F2. apply F2. exact Hi. }
  apply (Hgen _ (map H xs)); [exact Hpl0|exact E2|exact E3|].
  pose proof (ups_nonempty H (length t - 1) (map H xs)) as Hn.
  destruct (ups H (length t - 1) (map H xs)) as [|r [|r' rs]] eqn:Eu.
  - exfalso. apply Hn; [|reflexivity]. destruct xs; [|discriminate].
    rewrite Forall_forall in Hr. specialize (Hr i (or_introl eq_refl)). cbn in Hr. lia.
  - reflexivity.
  - cbn in H3. lia.
Qed.

Lemma prove_err_lemma H xs t idxs p :
  from_array H xs = Some t -> In p idxs -> (N.of_nat (length xs) <= p)%N ->
  prove H t idxs = Err tt.
Proof.
  intros Ht Hin Hp. destruct (levels_head H xs t Ht) as [t' ->].
  unfold prove. destruct idxs as [|i idxs]; [contradiction|].
  rewrite (collect_err (map H xs) [] (sort_pos (i :: idxs)) p).
  - reflexivity.
  - eapply Permutation_in; [symmetry; apply sort_pos_perm|exact Hin].
  - rewrite map_length. lia.
Qed.

Lemma in_range_dec xs idxs :
  Forall (fun p => N.to_nat p < length xs)%nat idxs \/
  exists p, In p idxs /\ (N.of_nat (length (xs : list bytes)) <= p)%N.
Proof.
  induction idxs as [|p idxs [IH|(q & Hq & Hl)]].
  - left. constructor.
  - destruct (N.leb_spec (N.of_nat (length xs)) p).
    + right. exists p. split; [left; reflexivity|assumption].
    + left. constructor; [lia|exact IH].
  - right. exists q. split; [right; exact Hq|exact Hl].
Qed.

Lemma prove_same_set_lemma H xs t idxs idxs' :
  from_array H xs = Some t -> (forall p, In p idxs <-> In p idxs') ->
  prove H t idxs = prove H t idxs'.
Proof.
  intros Ht Heq.
  destruct idxs as [|i idxs].
  { destruct idxs' as [|j idxs']; [reflexivity|]. exfalso. apply (Heq j). left. reflexivity. }
  destruct idxs' as [|j idxs'].
  { exfalso. apply (Heq i). left. reflexivity. }
  destruct (in_range_dec xs (i :: idxs)) as [Hr|(p & Hp & Hl)].
  - destruct (prove_ok H xs t (i :: idxs) Ht) as (ps & A1 & A2 & A3); [discriminate|exact Hr|].
    destruct (prove_ok H xs t (j :: idxs') Ht) as (ps' & B1 & B2 & B3); [discriminate| |].
    { apply Forall_forall. intros p Hp. rewrite Forall_forall in Hr. apply Hr. apply Heq. exact Hp. }
    rewrite A3, B3. do 2 f_equal. apply strictN_unique; [assumption..|].
    intros p. rewrite A2, B2. apply Heq.
  - rewrite (prove_err_lemma H xs t _ p Ht Hp Hl).
    rewrite (prove_err_lemma H xs t _ p Ht (proj1 (Heq p) Hp) Hl). reflexivity.
Qed.

Lemma StronglySorted_fst l : StronglySorted slt l -> StronglySorted N.lt (map fst l).
Proof.
  induction 1 as [|a l Hs IH Ha]; cbn; constructor; [exact IH|].
  apply Forall_forall. intros p Hp. apply in_map_iff in Hp as (b & <- & Hb).
  rewrite Forall_forall in Ha. apply Ha. exact Hb.
Qed.

Lemma complete_lemma H xs t r idxs elems :
  from_array H xs = Some t -> root t = Ok r ->
  (N.of_nat (length xs) <= 2 ^ 64)%N ->
  Forall (fun p => p < N.of_nat (length xs))%N idxs ->
  NoDup (map fst elems) ->
  (forall p, In p (map fst elems) <-> In p idxs) ->
  (forall p h, In (p, h) elems -> exists x, nth_error xs (N.to_nat p) = Some x /\ h = H x) ->
  exists proof, prove H t idxs = Ok proof /\ verify H r elems proof = Some (Ok tt).
Proof.
  intros Ht Hr Hb Hin Hnd Hset Hval.
  destruct idxs as [|i idxs].
  { exists []. split; [reflexivity|]. destruct elems as [|[p h] elems]; [reflexivity|].
    exfalso. apply (Hset p). left. reflexivity. }
  destruct (prove_ok H xs t (i :: idxs) Ht) as (ps & A1 & A2 & A3); [discriminate| |].
  { eapply Forall_impl; [|exact Hin]. cbn. intros p Hp. lia. }
  eexists; split; [exact A3|].
  assert (Hxs : xs <> []).
  { intros ->. apply Forall_inv in Hin. cbn in Hin. lia. }
  destruct (root_nonempty H xs t Ht Hxs) as (r' & Hr' & Hu).
  assert (r' = r) as -> by congruence.
  set (items := sort_items elems).
  assert (Hstrict : StronglySorted N.lt (map fst items))
    by (apply StronglySorted_fst, sort_items_strict; exact Hnd).
  assert (Hps : ps = map fst items).
  { apply strictN_unique; [exact A1|exact Hstrict|]. intros p. rewrite A2, <- Hset.
    split; intros Hp; (eapply Permutation_in; [|exact Hp]); apply Permutation_map;
      [symmetry|]; apply sort_items_perm. }
  assert (Hm : Forall (matches (map H xs)) items).
  { apply Forall_forall. intros [p h] Hi.
    assert (In (p, h) elems) as Hi' by (eapply Permutation_in; [apply sort_items_perm|exact Hi]).
    destruct (Hval p h Hi') as (x & Ex & ->).
    unfold matches, at_pos. cbn. rewrite nth_error_map, Ex. reflexivity. }
  assert (Hne : items <> []).
  { intros E. rewrite E in Hps. cbn in Hps. subst ps. apply (A2 i). left. reflexivity. }
  pose proof (levels_from_spec _ _ _ _ Ht) as (_ & _ & H2 & _).
  pose proof (height_le_64 H xs t Ht Hb) as Hh.
  unfold verify. destruct elems as [|e elems]; [exfalso; apply Hne; reflexivity|].
  fold items. rewrite Hps.
  rewrite (verify_loop_complete H (length t - 1) 65 0 (map H xs) r items).
  - cbn. rewrite bytes_eqb_refl. reflexivity.
  - lia.
  - lia.
  - exact Hne.
  - exact Hstrict.
  - exact Hm.
  - intros k Hk. apply H2. lia.
  - exact Hu.
Qed.

(** ** Only the proof of the prover is accepted *)

Section Unique.
  Variable H : bytes -> bytes.
  Hypothesis Hlen : hash32 H.

  Lemma sib_hash_len L p : Forall len32 L -> len32 (sib_hash L p).
  Proof.
    intros HL. unfold sib_hash, at_pos. destruct (nth_error L _) as [h|] eqn:E; [|reflexivity].
    rewrite Forall_forall in HL. apply HL. eapply nth_error_In. exact E.
  Qed.

  Lemma sibling_match L p h s :
    Forall len32 L -> len32 h -> len32 s -> matches L (p, h) ->
    at_pos (map H (pair_strings L)) (p / 2) = Some (H (if N.even p then node_string h s else node_string s h)) ->
    s = sib_hash L p \/
    collision_in H [if N.even p then node_string h s else node_string s h] (pair_strings L).
  Proof.
    intros HL Hh Hs M E. unfold at_pos in E. rewrite nth_error_map in E.
    pose proof (parent_string L p h M) as P. unfold at_pos in P. rewrite P in E. cbn [option_map] in E. injection E as E.
    pose proof (sib_hash_len L p HL) as Hl.
    destruct (bytes_eq_dec (if N.even p then node_string h s else node_string s h)
                (if N.even p then node_string h (sib_hash L p) else node_string (sib_hash L p) h)) as [Eq|Hne].
    - left. destruct (N.even p); apply node_string_inj in Eq as [E1 E2]; assumption || congruence.
    - right. eexists. eexists. split; [left; reflexivity|]. split; [eapply nth_error_In; exact P|]. split; [exact Hne|congruence].
  Qed.

  Lemma climb_unique L nodes proof up lft :
    Forall len32 L -> Forall (matches L) nodes -> Forall len32 proof ->
    climb nodes proof = Some (up, lft) ->
    Forall (fun n => at_pos (map H (pair_strings L)) (fst n) = Some (H (snd n))) up ->
    (proof = needed L (map fst nodes) ++ lft /\ map fst up = next_pos (map fst nodes)) \/
    collision_in H (map snd up) (pair_strings L).
  Proof.
    intros HL. revert proof up lft.
    assert (Hmat : forall n, matches L n -> len32 (snd n)).
    { intros n M. unfold matches, at_pos in M. rewrite Forall_forall in HL. apply HL. eapply nth_error_In. exact M. }
    induction nodes as [|[p h]|[p h] [q s] nodes IH1 IH2] using list_ind2;
      intros proof up lft Hm Hp E HF.
    - cbn in E. injection E as <- <-. left. split; reflexivity.
    - cbn in E. destruct proof as [|s proof]; [discriminate|]. injection E as <- <-.
      apply Forall_inv in HF. cbn [fst snd] in HF. apply Forall_inv in Hm. apply Forall_inv in Hp.
      destruct (sibling_match L p h s HL (Hmat _ Hm) Hp Hm HF) as [->|C]; [left; split; reflexivity|right; exact C].
    - pose proof (Forall_inv Hm) as Mh. pose proof (Forall_inv_tail Hm) as Hm'.
      rewrite climb_cons2 in E. cbn [map fst]. rewrite needed_cons2, next_pos_cons2. fold (sib p) in E.
      destruct (q =? sib p)%N eqn:Eq.
      + destruct (climb nodes proof) as [[up' lft']|] eqn:Ec; [|discriminate].
        injection E as <- <-. pose proof (Forall_inv_tail HF) as HF2.
        destruct (IH1 _ _ _ (Forall_inv_tail Hm') Hp Ec HF2) as [[E1 E2]|C].
        * left. split; [exact E1|]. cbn [map fst]. rewrite E2. reflexivity.
        * right. eapply collision_in_mono; [| |exact C]; [|auto]. cbn. auto.
      + destruct proof as [|s' proof]; [discriminate|].
        destruct (climb ((q, s) :: nodes) proof) as [[up' lft']|] eqn:Ec; [|discriminate].
        injection E as <- <-. pose proof (Forall_inv HF) as HF1. pose proof (Forall_inv_tail HF) as HF2. cbn [fst snd] in HF1.
        destruct (IH2 _ _ _ Hm' (Forall_inv_tail Hp) Ec HF2) as [[E1 E2]|C].
        2:{ right. eapply collision_in_mono; [| |exact C]; [|auto]. cbn. auto. }
        destruct (sibling_match L p h s' HL (Hmat _ Mh) (Forall_inv Hp) Mh HF1) as [->|C].
        * left. cbn [map fst] in *. split; [cbn [app]; f_equal; exact E1|]. rewrite E2. reflexivity.
        * right. eapply collision_in_mono; [| |exact C]; [|auto]. intros x [<-|[]]. cbn. auto.
  Qed.

  Lemma climbs_unique k nodes proof r L :
    Forall len32 L -> Forall (matches L) nodes -> Forall len32 proof ->
    climbs H k nodes proof [(0%N, r)] -> ups H k L = [r] ->
    proof = all_hints H k L (map fst nodes) \/
    bad H (climb_strings H k nodes proof) (strings_upto H k L).
  Proof.
    intros HL Hm Hp Hc. remember [(0%N, r)] as fin eqn:Ef. revert L HL Hm Hp Ef.
    induction Hc as [n|k nodes proof up lft fin Ec Hc IH]; intros L HL Hm Hp Ef Eu; subst.
    - left. reflexivity.
    - cbn [ups] in Eu. rewrite layer_up_strings in Eu.
      assert (Hl' : Forall len32 lft) by (eapply climb_lens; eassumption).
      assert (Hs : Forall (fun n => len32 (snd n)) (map (hashed H) up)).
      { apply Forall_forall. intros n Hin. apply in_map_iff in Hin as (m & <- & _). apply Hlen. }
      assert (Hin1 : forall x, In x (climb_strings H k (map (hashed H) up) lft) -> In x (climb_strings H (S k) nodes proof)).
      { intros x Hx. cbn [climb_strings]. rewrite Ec. apply in_app_iff. right. exact Hx. }
      assert (Hin2 : forall x, In x (map snd up) -> In x (climb_strings H (S k) nodes proof)).
      { intros x Hx. cbn [climb_strings]. rewrite Ec. apply in_app_iff. left. exact Hx. }
      assert (Hin3 : forall x, In x (strings_upto H k (map H (pair_strings L))) -> In x (strings_upto H (S k) L)).
      { intros x Hx. cbn [strings_upto]. apply in_app_iff. right. exact Hx. }
      destruct (climbs_sound H Hlen k _ lft r _ (Forall_len32_map H Hlen _) Hs Hl' Hc Eu) as [M|B].
      2:{ right. eapply bad_mono; [exact Hin1|exact Hin3|exact B]. }
      assert (Forall (fun n => at_pos (map H (pair_strings L)) (fst n) = Some (H (snd n))) up \/
              zero_preimage_in H (map snd up)) as [M'|Z].
      { clear - M. induction up as [|[p s] up IHup]; [left; constructor|].
        cbn [map hashed] in M. pose proof (Forall_inv M) as M1. pose proof (Forall_inv_tail M) as M2.
        destruct (IHup M2) as [IH|Z].
        - destruct M1 as [M1|M1]; cbn in M1.
          + left. constructor; assumption.
          + right. exists s. split; [left; reflexivity|exact M1].
        - right. eapply zero_preimage_mono; [|exact Z]. cbn. auto. }
      2:{ right. right. eapply zero_preimage_mono; [|exact Z]. intros x Hx. apply in_app_iff. left. apply Hin2. exact Hx. }
      destruct (climb_unique L nodes proof up lft HL Hm Hp Ec M') as [[E1 E2]|C].
      2:{ right. left. eapply collision_in_mono; [exact Hin2| |exact C]. intros x Hx. cbn [strings_upto]. apply in_app_iff. left. exact Hx. }
      destruct (IH (map H (pair_strings L)) (Forall_len32_map H Hlen _)) as [E3|B].
      + apply Forall_forall. intros n Hin. apply in_map_iff in Hin as (m & <- & Hin). rewrite Forall_forall in M'. exact (M' m Hin).
      + exact Hl'.
      + reflexivity.
      + exact Eu.
      + left. rewrite E1. cbn [all_hints]. f_equal. rewrite E3, layer_up_strings. f_equal. rewrite <- E2, map_map. reflexivity.
      + right. eapply bad_mono; [exact Hin1|exact Hin3|exact B].
  Qed.
End Unique.

Lemma verify_unique_lemma (H : bytes -> bytes) (Hlen : hash32 H)
    (xs : list bytes) (t : list (list bytes)) (r : bytes)
    (claims nodes : list (N * bytes)) (proof : list bytes) :
  from_array H xs = Some t -> root t = Ok r ->
  Forall leaf_data xs -> Forall (fun e => leaf_data (snd e)) claims ->
  NoDup (map fst claims) -> Forall (fun h => length h = 32) proof ->
  Permutation nodes (map (fun e => (fst e, H (snd e))) claims) -> sorted_by_position nodes ->
  verify H r (map (fun e => (fst e, H (snd e))) claims) proof = Some (Ok tt) ->
  let S := tree_strings H xs ++ map snd claims ++ climb_strings H 65 nodes proof in
  prove H t (map fst claims) = Ok proof \/
  collision_in H S S \/ zero_preimage_in H S.
Proof.
  intros Ht Hr Hxs Hcl Hnd Hpf Hperm Hsort Hv S.
  destruct (verify_sound_height H Hlen xs t r claims nodes proof Ht Hr Hxs Hcl Hnd Hpf Hperm Hsort Hv) as [[Hok Hc]|C]; [|right; exact C].
  assert (claims = [] \/ claims <> []) as [->|Hne] by (destruct claims; [left; reflexivity|right; discriminate]).
  { left. cbn in Hv. destruct proof; [reflexivity|discriminate]. }
  destruct (Hc Hne) as [Hh Hcl']. clear Hc. rename Hcl' into Hc.
  assert (Hxne : xs <> []).
  { intros ->. destruct claims as [|[p d] claims]; [congruence|]. specialize (Hok p d (or_introl eq_refl)). destruct (N.to_nat p); discriminate. }
  destruct (root_nonempty H xs t Ht Hxne) as (r' & Hr' & Hu).
  assert (r' = r) as -> by congruence.
  assert (Hm : Forall (matches (map H xs)) nodes).
  { apply Forall_forall. intros n Hin. eapply Permutation_in in Hin; [|exact Hperm]. apply in_map_iff in Hin as ([p d] & <- & Hin).
    unfold matches, at_pos. cbn [fst snd]. rewrite nth_error_map, (Hok p d Hin). reflexivity. }
  pose proof (levels_from_spec _ _ _ _ Ht) as (Hnt & _ & H2 & _).
  destruct (climbs_unique H Hlen _ nodes proof r (map H xs) (Forall_len32_map H Hlen _) Hm Hpf Hc Hu) as [E|B].
  - left. destruct (prove_ok H xs t (map fst claims) Ht) as (ps & A1 & A2 & A3).
    + destruct claims; [congruence|discriminate].
    + apply Forall_forall. intros p Hp. apply in_map_iff in Hp as ([p' d] & <- & Hp). cbn [fst]. apply nth_error_Some. rewrite (Hok _ _ Hp). discriminate.
    + rewrite A3, E. do 2 f_equal. apply strictN_unique; [exact A1|apply StronglySorted_fst, sorted_by_position_strict; exact Hsort|].
      intros p. rewrite A2. assert (Pm : Permutation (map fst nodes) (map fst claims)).
      { rewrite Hperm, map_map. cbn [fst]. reflexivity. }
      split; intros Hp; (eapply Permutation_in; [|exact Hp]); [symmetry|]; exact Pm.
  - right.
    assert (H1 : forall x, In x (climb_strings H (length t - 1) nodes proof) -> In x S).
    { intros x Hx. unfold S. apply in_app_iff. right. apply in_app_iff. right. eapply climbs_strings_mono; [exact Hc|exact Hh|exact Hx]. }
    assert (H3 : forall x, In x (strings_upto H (length t - 1) (map H xs)) -> In x S).
    { intros x Hx. unfold S, tree_strings. apply in_app_iff. left. apply in_app_iff. right.
      eapply strings_upto_interior; [| |exact Hx]; [rewrite map_length; lia|]. intros j Hj. apply H2. lia. }
    destruct B as [C|Z]; [left; exact (collision_in_mono _ _ _ _ _ H1 H3 C)|right].
    eapply zero_preimage_mono; [|exact Z]. intros x Hx. apply in_app_iff in Hx as [|]; auto.
Qed.

(** ** Verification always answers *)

Lemma verify_loop_total H fuel l items hints :
  (l <= 64)%N -> (65 <= l + N.of_nat fuel)%N -> items <> [] ->
  exists o, verify_loop H fuel l items hints = Some o /\
    (o = Err tt \/ exists i pl, o = Ok (i :: pl)).
Proof.
  revert l items hints; induction fuel as [|fuel IH]; intros l items hints Hl Hf Hne; [lia|].
  cbn [verify_loop].
  destruct (match hints with [] => false | _ => true end || Nat.ltb 1 (length items)).
  2:{ destruct items as [|i items]; [contradiction|]. eauto 8. }
  rewrite partial_up_verify. destruct (climb items hints) as [[up lft]|] eqn:Ec; [|eauto].
  unfold MAX_HEIGHT. destruct (N.ltb_spec 64 (l + 1)); [eauto|].
  apply IH; [lia|lia|].
  destruct items as [|i items]; [contradiction|]. apply climb_nonempty in Ec.
  destruct up; [contradiction|discriminate].
Qed.

Lemma sort_items_nonempty l : l <> [] -> sort_items l <> [].
Proof.
  intros Hne E. apply Hne. pose proof (sort_items_perm l) as P. rewrite E in P.
  apply Permutation_nil in P. exact P.
Qed.

Lemma verify_total_lemma H r elems proof :
  verify H r elems proof = Some (Ok tt) \/ verify H r elems proof = Some (Err tt).
Proof.
  unfold verify. destruct elems as [|e elems]; [destruct proof; auto|].
  destruct (verify_loop_total H 65 0 (sort_items (e :: elems)) proof) as (o & -> & [->|(i & pl & ->)]).
  - lia.
  - lia.
  - apply sort_items_nonempty. discriminate.
  - auto.
  - destruct i as [pos h]. destruct (negb (pos =? 0)%N || negb (bytes_eqb h r)); auto.
Qed.

Lemma prove_total_lemma H xs t idxs :
  from_array H xs = Some t -> prove H t idxs <> Panic.
Proof.
  intros Ht. destruct idxs as [|i idxs]; [discriminate|].
  destruct (in_range_dec xs (i :: idxs)) as [Hr|(p & Hp & Hl)].
  - destruct (prove_ok H xs t (i :: idxs) Ht) as (ps & _ & _ & E); [discriminate|exact Hr|].
    rewrite E. discriminate.
  - rewrite (prove_err_lemma H xs t _ p Ht Hp Hl). discriminate.
Qed.

(** ** The root commits to the array *)

Lemma map_inj_or_collision (H : bytes -> bytes) a b :
  map H a = map H b -> a = b \/ collision_in H a b.
Proof.
  revert b; induction a as [|x a IH]; intros [|y b] E; cbn in E; try discriminate; [auto|].
  injection E as E1 E2. destruct (bytes_eq_dec x y) as [->|Hne].
  - destruct (IH b E2) as [->|C]; [auto|]. right.
    eapply collision_in_mono; [| |exact C]; cbn; auto.
  - right. exists x, y. cbn. auto.
Qed.

Lemma cons_inj {A} (x y : A) l l' : x :: l = y :: l' -> x = y /\ l = l'.
Proof. intros E. injection E. auto. Qed.

Lemma pair_strings_inj L L' :
  Forall len32 L -> Forall len32 L' -> pair_strings L = pair_strings L' ->
  L = L' \/ (length L <> length L' /\ (In zero32 L \/ In zero32 L')).
Proof.
  revert L'; induction L as [|a|a b L IH _] using list_ind2; intros L' HL HL' E.
  - destruct L' as [|c [|d L']]; cbn in E; try discriminate. auto.
  - destruct L' as [|c [|d L']]; cbn in E; try discriminate.
    + apply cons_inj in E as [E _]. apply node_string_inj in E as [-> _];
        [auto|exact (Forall_inv HL)|exact (Forall_inv HL')].
    + apply cons_inj in E as [E E']. apply node_string_inj in E as [-> ->];
        [|exact (Forall_inv HL)|exact (Forall_inv HL')].
      right. split; [cbn; lia|]. right. cbn. auto.
  - pose proof (Forall_inv HL) as Ha. pose proof (Forall_inv_tail (Forall_inv_tail HL)) as HL2.
    destruct L' as [|c [|d L']]; cbn in E; try discriminate.
    + apply cons_inj in E as [E E']. apply node_string_inj in E as [-> ->];
        [|exact Ha|exact (Forall_inv HL')].
      right. split; [cbn; lia|]. left. cbn. auto.
    + apply cons_inj in E as [E E']. apply node_string_inj in E as [-> ->];
        [|exact Ha|exact (Forall_inv HL')].
      destruct (IH L' HL2 (Forall_inv_tail (Forall_inv_tail HL')) E') as [->|[Hn Hz]]; [auto|].
      right. split; [cbn; lia|]. destruct Hz as [Hz|Hz]; [left|right]; right; right; exact Hz.
Qed.

Lemma ups_inj H (Hlen : hash32 H) n L L' :
  Forall len32 L -> Forall len32 L' -> ups H n L = ups H n L' ->
  L = L' \/ collision_in H (strings_upto H n L) (strings_upto H n L') \/
  (length L <> length L' /\
   (In zero32 L \/ In zero32 L' \/ zero_preimage_in H (strings_upto H n L ++ strings_upto H n L'))).
Proof.
  revert L L'; induction n as [|n IH]; intros L L' HL HL' E; [auto|].
  cbn [ups] in E. rewrite !layer_up_strings in E.
  destruct (IH _ _ (Forall_len32_map H Hlen _) (Forall_len32_map H Hlen _) E) as [E1|[C|[Hn Hz]]].
  - apply map_inj_or_collision in E1 as [E1|C].
    + apply pair_strings_inj in E1 as [E1|[Hn Hz]]; [auto| |assumption..].
      right. right. split; [exact Hn|]. tauto.
    + right. left. eapply collision_in_mono; [| |exact C]; intros x Hx; cbn [strings_upto];
        apply in_app_iff; auto.
  - right. left. eapply collision_in_mono; [| |exact C]; intros x Hx; cbn [strings_upto];
      apply in_app_iff; auto.
  - right. right. split.
    { intros El. apply Hn. rewrite !map_length, !length_pair_strings. congruence. }
    right. right.
    destruct Hz as [Hz|[Hz|Hz]].
    + apply in_map_iff in Hz as (s & Es & Hs). exists s. split; [|exact Es].
      cbn [strings_upto]. rewrite !in_app_iff. auto.
    + apply in_map_iff in Hz as (s & Es & Hs). exists s. split; [|exact Es].
      cbn [strings_upto]. rewrite !in_app_iff. auto.
    + eapply zero_preimage_mono; [|exact Hz]. intros x Hx. cbn [strings_upto].
      rewrite !in_app_iff in *. tauto.
Qed.

Lemma length_ups H n L L' : length L = length L' -> length (ups H n L) = length (ups H n L').
Proof.
  revert L L'; induction n as [|n IH]; intros L L' E; [exact E|]. cbn. apply IH.
  rewrite !length_layer_up. congruence.
Qed.

Lemma height_of_length H xs ys t u :
  from_array H xs = Some t -> from_array H ys = Some u -> length xs = length ys ->
  length t = length u.
Proof.
  intros Ht Hu El. apply levels_from_spec in Ht as (Nt & _ & T2 & T3).
  apply levels_from_spec in Hu as (Nu & _ & U2 & U3).
  assert (Em : length (map H xs) = length (map H ys)) by (rewrite !map_length; exact El).
  assert (0 < length t)%nat by (destruct t; [contradiction|cbn; lia]).
  assert (0 < length u)%nat by (destruct u; [contradiction|cbn; lia]).
  destruct (Nat.lt_trichotomy (length t) (length u)) as [Hlt|[E|Hlt]]; [|exact E|].
  - specialize (U2 (length t - 1)%nat ltac:(lia)).
    rewrite (length_ups H (length t - 1) _ _ Em) in T3. lia.
  - specialize (T2 (length u - 1)%nat ltac:(lia)).
    rewrite <- (length_ups H (length u - 1) _ _ Em) in U3. lia.
Qed.

Lemma tree_strings_upto H xs t j :
  from_array H xs = Some t -> (j <= length t - 1)%nat ->
  forall x, In x (strings_upto H j (map H xs)) -> In x (tree_strings H xs).
Proof.
  intros Ht Hj x Hx. unfold tree_strings. apply in_app_iff. right.
  apply levels_from_spec in Ht as (_ & _ & H2 & _).
  eapply strings_upto_interior; [| |exact Hx].
  - rewrite map_length. lia.
  - intros k Hk. apply H2. lia.
Qed.

Lemma tree_strings_elem H xs x : In x xs -> In x (tree_strings H xs).
Proof. intros Hx. unfold tree_strings. apply in_app_iff. auto. Qed.

Lemma binding_same_length_lemma H (Hlen : hash32 H) xs ys t u r :
  from_array H xs = Some t -> from_array H ys = Some u ->
  root t = Ok r -> root u = Ok r -> length xs = length ys ->
  xs = ys \/ collision_in H (tree_strings H xs) (tree_strings H ys).
Proof.
  intros Ht Hu Rt Ru El.
  destruct xs as [|x xs0]; [destruct ys; [auto|discriminate]|].
  destruct ys as [|y ys0]; [discriminate|].
  remember (x :: xs0) as xs eqn:Exs. remember (y :: ys0) as ys eqn:Eys.
  destruct (root_nonempty H xs t Ht) as (r1 & R1 & U1); [subst; discriminate|].
  destruct (root_nonempty H ys u Hu) as (r2 & R2 & U2); [subst; discriminate|].
  pose proof (height_of_length H xs ys t u Ht Hu El) as Eh.
  assert (E : ups H (length t - 1) (map H xs) = ups H (length t - 1) (map H ys)).
  { rewrite U1. rewrite Eh, U2. congruence. }
  apply ups_inj in E as [E|[C|[Hn _]]]; [| | |exact Hlen|apply Forall_len32_map; exact Hlen..].
  - apply map_inj_or_collision in E as [E|C]; [auto|]. right.
    eapply collision_in_mono; [| |exact C]; apply tree_strings_elem.
  - right. eapply collision_in_mono; [| |exact C].
    + eapply tree_strings_upto; [exact Ht|lia].
    + eapply tree_strings_upto; [exact Hu|lia].
  - exfalso. apply Hn. rewrite !map_length. exact El.
Qed.

Lemma node_of_pair_strings L s : In s (pair_strings L) -> exists l r, s = node_string l r.
Proof.
  induction L as [|u|u v L IHL _] using list_ind2; cbn; [intros []| |].
  - intros [<-|[]]. eauto.
  - intros [<-|Hx]; [eauto|apply IHL; exact Hx].
Qed.

Lemma binding_lemma_le H (Hlen : hash32 H) xs ys t u r :
  from_array H xs = Some t -> from_array H ys = Some u ->
  root t = Ok r -> root u = Ok r ->
  Forall leaf_data xs -> Forall leaf_data ys ->
  xs <> [] -> ys <> [] -> (length t <= length u)%nat ->
  xs = ys \/ collision_in H (tree_strings H xs) (tree_strings H ys) \/
  zero_preimage_in H (tree_strings H xs ++ tree_strings H ys).
Proof.
  intros Ht Hu Rt Ru Lx Ly Nx Ny Hle.
  destruct (root_nonempty H xs t Ht Nx) as (r1 & R1 & U1).
  destruct (root_nonempty H ys u Hu Ny) as (r2 & R2 & U2).
  assert (0 < length t)%nat as Hpos.
  { apply levels_from_spec in Ht as (Nt & _). destruct t; [contradiction|cbn; lia]. }
  set (d := (length u - length t)%nat).
  assert (E : ups H (length t - 1) (map H xs) = ups H (length t - 1) (ups H d (map H ys))).
  { rewrite <- ups_add. replace (d + (length t - 1))%nat with (length u - 1)%nat by (unfold d; lia).
    rewrite U1, U2. congruence. }
  assert (HL' : Forall len32 (ups H d (map H ys))).
  { destruct d as [|j]; [apply Forall_len32_map; exact Hlen|].
    destruct (ups_succ_map H j (map H ys)) as (M & -> & _). apply Forall_len32_map; exact Hlen. }
  assert (S1 : forall x, In x (strings_upto H (length t - 1) (map H xs)) -> In x (tree_strings H xs))
    by (eapply tree_strings_upto; [exact Ht|lia]).
  assert (S2 : forall x, In x (strings_upto H (length t - 1) (ups H d (map H ys))) -> In x (tree_strings H ys)).
  { intros x Hx. eapply (tree_strings_upto H ys u (length u - 1)); [exact Hu|lia|].
    replace (length u - 1)%nat with (d + (length t - 1))%nat by (unfold d; lia).
    apply strings_upto_app. exact Hx. }
  assert (S3 : forall j s, d = S j -> In s (pair_strings (ups H j (map H ys))) -> In s (tree_strings H ys)).
  { intros j s Ej Hs. eapply (tree_strings_upto H ys u (length u - 1)); [exact Hu|lia|].
    eapply ups_S_in; [exact Hs|]. unfold d in Ej. lia. }
  apply ups_inj in E as [E|[C|[_ Hz]]]; [| | |exact Hlen|apply Forall_len32_map; exact Hlen|exact HL'].
  - destruct d as [|j] eqn:Ed.
    + cbn [ups] in E. apply map_inj_or_collision in E as [E|C]; [auto|]. right. left.
      eapply collision_in_mono; [| |exact C]; apply tree_strings_elem.
    + right. left. rewrite ups_S, layer_up_strings in E.
      destruct xs as [|x xs]; [contradiction|].
      destruct (pair_strings (ups H j (map H ys))) as [|s ss] eqn:Es; [discriminate|].
      cbn in E. injection E as E _.
      exists x, s. split; [apply tree_strings_elem; left; reflexivity|].
      split; [eapply S3; [reflexivity|rewrite Es; left; reflexivity]|].
      split; [|exact E].
      destruct (node_of_pair_strings (ups H j (map H ys)) s) as (a & b & ->);
        [rewrite Es; left; reflexivity|].
      apply leaf_not_node. exact (Forall_inv Lx).
  - right. left. eapply collision_in_mono; [exact S1|exact S2|exact C].
  - right. right. destruct Hz as [Hz|[Hz|Hz]].
    + apply in_map_iff in Hz as (s & Es & Hs). exists s. split; [|exact Es].
      apply in_app_iff. left. apply tree_strings_elem. exact Hs.
    + destruct d as [|j] eqn:Ed.
      * cbn [ups] in Hz. apply in_map_iff in Hz as (s & Es & Hs). exists s. split; [|exact Es].
        apply in_app_iff. right. apply tree_strings_elem. exact Hs.
      * rewrite ups_S, layer_up_strings in Hz. apply in_map_iff in Hz as (s & Es & Hs).
        exists s. split; [|exact Es]. apply in_app_iff. right. eapply S3; [reflexivity|exact Hs].
    + eapply zero_preimage_mono; [|exact Hz]. intros x Hx. rewrite in_app_iff in *.
      destruct Hx; auto.
Qed.

Lemma nonempty_zero_root H xs t :
  from_array H xs = Some t -> root t = Ok zero32 -> xs <> [] ->
  zero_preimage_in H (tree_strings H xs).
Proof.
  intros Ht R Nx. destruct (root_nonempty H xs t Ht Nx) as (r1 & R1 & U1).
  assert (r1 = zero32) as -> by congruence.
  destruct (length t - 1)%nat as [|j] eqn:Ej.
  - cbn in U1. destruct xs as [|x [|x' xs]]; try discriminate. cbn in U1. injection U1 as U1.
    exists x. split; [apply tree_strings_elem; left; reflexivity|exact U1].
  - rewrite ups_S, layer_up_strings in U1.
    destruct (pair_strings (ups H j (map H xs))) as [|s [|s' ss]] eqn:Es; try discriminate.
    cbn in U1. injection U1 as U1. exists s. split; [|exact U1].
    eapply (tree_strings_upto H xs t (S j)); [exact Ht|lia|].
    eapply ups_S_in; [rewrite Es; left; reflexivity|lia].
Qed.

Lemma binding_lemma H (Hlen : hash32 H) xs ys t u r :
  from_array H xs = Some t -> from_array H ys = Some u ->
  root t = Ok r -> root u = Ok r ->
  Forall leaf_data xs -> Forall leaf_data ys ->
  xs = ys \/ collision_in H (tree_strings H xs) (tree_strings H ys) \/
  zero_preimage_in H (tree_strings H xs ++ tree_strings H ys).
Proof.
  intros Ht Hu Rt Ru Lx Ly.
  assert (Dx : xs = [] \/ xs <> []) by (destruct xs; [left; reflexivity|right; discriminate]).
  assert (Dy : ys = [] \/ ys <> []) by (destruct ys; [left; reflexivity|right; discriminate]).
  destruct Dx as [->|Nx], Dy as [->|Ny].
  - auto.
  - right. right. pose proof (root_empty H t Ht) as R0.
    assert (r = zero32) as -> by congruence.
    eapply zero_preimage_mono; [|eapply nonempty_zero_root; eassumption].
    intros x Hx. apply in_app_iff. auto.
  - right. right. pose proof (root_empty H u Hu) as R0.
    assert (r = zero32) as -> by congruence.
    eapply zero_preimage_mono; [|eapply nonempty_zero_root; [exact Ht|exact Rt|exact Nx]].
    intros x Hx. apply in_app_iff. auto.
  - destruct (Nat.le_ge_cases (length t) (length u)) as [Hle|Hle].
    + eapply binding_lemma_le; eassumption.
    + destruct (binding_lemma_le H Hlen ys xs u t r Hu Ht Ru Rt Ly Lx Ny Nx Hle) as [E|[C|Z]].
      * auto.
      * right. left. destruct C as (x & y & Hx & Hy & Hn & E). exists y, x. auto.
      * right. right. eapply zero_preimage_mono; [|exact Z]. intros x Hx. rewrite in_app_iff in *. tauto.
Qed.

Lemma complete_full_lemma H xs idxs elems :
  (N.of_nat (length xs) <= 2 ^ 64)%N ->
  Forall (fun p => p < N.of_nat (length xs))%N idxs ->
  NoDup (map fst elems) ->
  (forall p, In p (map fst elems) <-> In p idxs) ->
  (forall p h, In (p, h) elems -> exists x, nth_error xs (N.to_nat p) = Some x /\ h = H x) ->
  exists t r proof,
    from_array H xs = Some t /\ root t = Ok r /\
    prove H t idxs = Ok proof /\ verify H r elems proof = Some (Ok tt).
Proof.
  intros Hb Hin Hnd Hset Hval.
  destruct (from_array_some H xs) as [t Ht].
  assert (exists r, root t = Ok r) as [r Hr].
  { destruct xs as [|x xs'] eqn:Ex; [exists zero32; exact (root_empty H t Ht)|].
    destruct (root_nonempty H (x :: xs') t Ht) as (r & Hr & _); [discriminate|eauto]. }
  destruct (complete_lemma H xs t r idxs elems Ht Hr Hb Hin Hnd Hset Hval) as (proof & A & B).
  exists t, r, proof. auto.
Qed.

(** An array of two elements and the array whose single element is the string hashed
    for their parent have the same root, for every hash function. *)
Lemma no_separation_lemma H a b :
  exists t u r, from_array H [a; b] = Some t /\ from_array H [node_string (H a) (H b)] = Some u /\
    root t = Ok r /\ root u = Ok r.
Proof. do 3 eexists. repeat split. Qed.
