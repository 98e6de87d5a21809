(** The root hash of a set of keys determines the set, up to collisions. *)
From Verif Require Import Base BaseFacts TrieModel TrieSpec TrieCodecProofs TrieProofs TrieRefine.

(** ** Entries of the hashed string can be told apart *)

(** [f b] is empty or an entry for byte [b]. *)
Definition entry_like (f : byte -> bytes) : Prop :=
  forall b, f b = [] \/ exists g h, f b = g :: b8 (N.of_nat (length h)) :: b :: h /\ (length h < 256)%nat.

Lemma flat_first f l : entry_like f ->
  flat_map f l = [] \/ exists g x b r, In b l /\ flat_map f l = g :: x :: b :: r.
Proof.
  intros Hf. induction l as [|b l IH]; [left; reflexivity|]. cbn [flat_map].
  destruct (Hf b) as [E|(g & h & E & _)]; rewrite E.
  - cbn. destruct IH as [IH|(g & x & b' & r & Hin & IH)]; [left; exact IH|].
    right. exists g, x, b', r. split; [right; exact Hin|exact IH].
  - right. cbn. do 4 eexists. split; [left; reflexivity|reflexivity].
Qed.

Lemma flat_inj f f' l : entry_like f -> entry_like f' -> NoDup l ->
  flat_map f l = flat_map f' l -> forall b, In b l -> f b = f' b.
Proof.
  intros Hf Hf'. induction l as [|c l IH]; intros Hn E b Hb; [destruct Hb|].
  inversion Hn as [|? ? Hni Hn']; subst. cbn [flat_map] in E.
  assert (Hc : f c = f' c /\ flat_map f l = flat_map f' l).
  { destruct (Hf c) as [E1|(g & h & E1 & L1)], (Hf' c) as [E2|(g' & h' & E2 & L2)];
      rewrite E1, E2 in *; cbn [app] in E.
    - auto.
    - exfalso. destruct (flat_first f l Hf) as [E3|(g & x & b' & r & Hin & E3)];
        rewrite E3 in E; [discriminate|].
      injection E as _ _ Eb _. subst. contradiction.
    - exfalso. destruct (flat_first f' l Hf') as [E3|(g' & x & b' & r & Hin & E3)];
        rewrite E3 in E; [discriminate|].
      injection E as _ _ Eb _. subst. contradiction.
    - injection E as Eg El E. apply b8_inj in El; [|lia|lia].
      apply app_inj_length in E as [-> E]; [|lia]. subst g'. auto. }
  destruct Hb as [<-|Hb]; [apply Hc|]. apply IH; [exact Hn'|apply Hc|exact Hb].
Qed.

Lemma all_bytes_all b : In b all_bytes.
Proof.
  unfold all_bytes. apply in_map_iff. exists (N.to_nat (Byte.to_N b)). split.
  - rewrite N2Nat.id. apply b8_to_N.
  - apply in_seq. pose proof (to_N_lt b). lia.
Qed.

Lemma all_bytes_nodup : NoDup all_bytes.
Proof.
  unfold all_bytes. assert (Hg : forall l, (forall i, In i l -> (i < 256)%nat) -> NoDup l ->
    NoDup (map (fun i => b8 (N.of_nat i)) l)).
  { induction l as [|i l IH]; intros Hl Hn; cbn; [constructor|].
    inversion Hn as [|? ? Hni Hn']; subst. constructor.
    - intros Hi. apply in_map_iff in Hi as (j & Ej & Hj). apply b8_inj in Ej.
      + apply Nat2N.inj in Ej. subst. contradiction.
      + specialize (Hl j (or_intror Hj)). lia.
      + specialize (Hl i (or_introl eq_refl)). lia.
    - apply IH; [|exact Hn']. intros j Hj. apply Hl. right. exact Hj. }
  apply Hg; [|apply seq_NoDup]. intros i Hi. apply in_seq in Hi. lia.
Qed.

(** ** Labels determine sets *)

Lemma label_strings_inner H n path S : length S <> 1%nat ->
  label_strings H (Datatypes.S n) path S =
  label_string H n path S :: flat_map (fun b =>
     match tails b S with [] => [] | T => label_strings H n (path ++ [b]) T end) all_bytes.
Proof. destruct S as [|a [|b S]]; cbn [length]; intros Hl; [reflexivity|lia|reflexivity]. Qed.

Lemma set_label_kind H n path S : NoDup S -> Forall (fun k => (length k <= n)%nat) S -> S <> [] ->
  (exists s, S = [s] /\ set_label H n path S = (true, s)) \/
  (exists n', n = Datatypes.S n' /\ length S <> 1%nat /\
     set_label H n path S = (false, H (label_string H n' path S))).
Proof.
  intros Hn Hl Hne. destruct S as [|a [|b S]]; [contradiction| |].
  - left. exists a. split; [reflexivity|]. destruct n; reflexivity.
  - right. destruct n as [|n].
    + exfalso. inversion Hl as [|? ? La Hl']; subst. inversion Hl' as [|? ? Lb _]; subst.
      inversion Hn as [|? ? Hni _]; subst. apply Hni. left.
      destruct a, b; cbn in *; try lia; reflexivity.
    + exists n. split; [reflexivity|]. split; [discriminate|]. apply set_label_inner. discriminate.
Qed.

Lemma tails_length n b S : Forall (fun k => (length k <= Datatypes.S n)%nat) S ->
  Forall (fun k => (length k <= n)%nat) (tails b S).
Proof.
  intros Hl. apply Forall_forall. intros k Hk. apply in_tails in Hk.
  rewrite Forall_forall in Hl. specialize (Hl _ Hk). cbn in Hl. lia.
Qed.

Lemma label_length H (Hlen : hash32 H) n path S : NoDup S -> Forall (fun k => (length k <= n)%nat) S ->
  S <> [] -> (n < 256)%nat -> (length (snd (set_label H n path S)) < 256)%nat.
Proof.
  intros Hn Hl Hne Hb. destruct (set_label_kind H n path S Hn Hl Hne) as
    [(s & -> & ->)|(n' & -> & _ & ->)]; cbn [snd].
  - apply Forall_inv in Hl. lia.
  - rewrite Hlen. lia.
Qed.

Lemma entry_like_label H (Hlen : hash32 H) n path S :
  NoDup S -> Forall (fun k => (length k <= Datatypes.S n)%nat) S -> (n < 256)%nat ->
  entry_like (fun b =>
    match tails b S with
    | [] => []
    | T => let '(leaf, h) := set_label H n (path ++ [b]) T in
           (if leaf then x00 else x01) :: b8 (N.of_nat (length h)) :: b :: h
    end).
Proof.
  intros Hn Hl Hb b. pose proof (nodup_tails b S Hn) as Hnt. pose proof (tails_length n b S Hl) as Hlt.
  destruct (tails b S) as [|a T]; [left; reflexivity|]. right.
  assert (Hne : a :: T <> []) by discriminate.
  pose proof (label_length H Hlen n (path ++ [b]) (a :: T) Hnt Hlt Hne Hb) as Hll.
  destruct (set_label H n (path ++ [b]) (a :: T)) as [leaf h]. cbn [snd] in Hll.
  do 2 eexists. split; [reflexivity|exact Hll].
Qed.

Lemma tails_free b S : prefix_free S -> prefix_free (tails b S).
Proof.
  intros F x y Hx Hy C. apply in_tails in Hx. apply in_tails in Hy.
  assert (E : b :: x = b :: y) by (apply F; [exact Hx|exact Hy|apply comparable_cons; auto]). congruence.
Qed.

Lemma no_empty S : prefix_free S -> NoDup S -> length S <> 1%nat -> ~ In [] S.
Proof.
  intros F Hn Hl Hin. assert (A : forall x, In x S -> x = []) by (intros x Hx; symmetry; apply F; [exact Hin|exact Hx|apply nil_comparable]).
  destruct S as [|x [|y S]]; [destruct Hin|apply Hl; reflexivity|]. inversion Hn as [|? ? Hni _]; subst. apply Hni. left.
  rewrite (A x), (A y); [reflexivity|right; left; reflexivity|left; reflexivity].
Qed.

Lemma label_binds H (Hlen : hash32 H) : forall n path S S',
  NoDup S -> NoDup S' -> prefix_free S -> prefix_free S' ->
  Forall (fun k => (length k <= n)%nat) S -> Forall (fun k => (length k <= n)%nat) S' ->
  S <> [] -> S' <> [] -> (n <= 256)%nat ->
  set_label H n path S = set_label H n path S' ->
  (forall k, In k S <-> In k S') \/
  collision_in H (label_strings H n path S) (label_strings H n path S').
Proof.
  induction n as [|n IH]; intros path S S' Hn Hn' Hp Hp' Hl Hl' Hne Hne' Hb E.
  - destruct (set_label_kind H _ path S Hn Hl Hne) as [(s & -> & Es)|(n' & E0 & _)]; [|discriminate].
    destruct (set_label_kind H _ path S' Hn' Hl' Hne') as [(s' & -> & Es')|(n' & E0 & _)]; [|discriminate].
    rewrite Es, Es' in E. injection E as ->. left. reflexivity.
  - destruct (set_label_kind H _ path S Hn Hl Hne) as [(s & -> & Es)|(n0 & E0 & L & Es)];
      destruct (set_label_kind H _ path S' Hn' Hl' Hne') as [(s' & -> & Es')|(n1 & E1 & L' & Es')].
    + rewrite Es, Es' in E. injection E as ->. left. reflexivity.
    + rewrite Es, Es' in E. discriminate.
    + rewrite Es, Es' in E. discriminate.
    + injection E0 as <-. injection E1 as <-. rewrite Es, Es' in E. injection E as E.
      rewrite !label_strings_inner by assumption.
      destruct (bytes_eq_dec (label_string H n path S) (label_string H n path S')) as [Eq|Hneq].
      2:{ right. do 2 eexists. split; [left; reflexivity|]. split; [left; reflexivity|]. auto. }
      unfold label_string in Eq. injection Eq as Eq. apply app_inv_head in Eq.
      pose proof (flat_inj _ _ _ (entry_like_label H Hlen n path S Hn Hl ltac:(lia))
                     (entry_like_label H Hlen n path S' Hn' Hl' ltac:(lia)) all_bytes_nodup Eq) as Hall.
      cbv beta in Hall.
      assert (Hsub : forall l, (forall b, In b l -> In b all_bytes) ->
        (forall b, In b l -> forall k, In k (tails b S) <-> In k (tails b S')) \/
        collision_in H (flat_map (fun b => match tails b S with [] => [] | T => label_strings H n (path ++ [b]) T end) all_bytes)
                       (flat_map (fun b => match tails b S' with [] => [] | T => label_strings H n (path ++ [b]) T end) all_bytes)).
      { induction l as [|b l IHl]; intros Hin; [left; intros b []|].
        destruct IHl as [IHl|C]; [intros x Hx; apply Hin; right; exact Hx| |right; exact C].
        specialize (Hall b (Hin b (or_introl eq_refl))).
        pose proof (nodup_tails b S Hn) as T1. pose proof (nodup_tails b S' Hn') as T2.
        pose proof (tails_free b S Hp) as T5. pose proof (tails_free b S' Hp') as T6.
        pose proof (tails_length n b S Hl) as T3. pose proof (tails_length n b S' Hl') as T4.
        destruct (tails b S) as [|a T] eqn:ET, (tails b S') as [|a' T'] eqn:ET'.
        - left. intros x [<-|Hx]; [rewrite ET, ET'; reflexivity|apply IHl; exact Hx].
        - destruct (set_label H n (path ++ [b]) (a' :: T')). discriminate.
        - destruct (set_label H n (path ++ [b]) (a :: T)). discriminate.
        - destruct (IH (path ++ [b]) (a :: T) (a' :: T')) as [Hs|C];
            try assumption; try discriminate; try lia.
          + destruct (set_label H n (path ++ [b]) (a :: T)) as [f h].
            destruct (set_label H n (path ++ [b]) (a' :: T')) as [f' h'].
            injection Hall as Hf _ Hh. subst h'. f_equal. destruct f, f'; congruence.
          + left. intros x [<-|Hx]; [rewrite ET, ET'; exact Hs|apply IHl; exact Hx].
          + right. eapply collision_in_mono; [| |exact C]; intros x Hx; apply in_flat_map;
              exists b; (split; [apply all_bytes_all|]).
            * rewrite ET. exact Hx.
            * rewrite ET'. exact Hx. }
      destruct (Hsub all_bytes (fun b Hb => Hb)) as [Hs|C].
      * left. intros k. destruct k as [|b k].
        -- split; intros Hk.
           ++ exfalso. exact (no_empty S Hp Hn L Hk).
           ++ exfalso. exact (no_empty S' Hp' Hn' L' Hk).
        -- rewrite <- !in_tails. apply Hs. apply all_bytes_all.
      * right. eapply collision_in_mono; [| |exact C]; intros x Hx; right; exact Hx.
Qed.

Lemma root_binds_any H (Hlen : hash32 H) n S S' :
  NoDup S -> NoDup S' -> prefix_free S -> prefix_free S' ->
  Forall (fun k => (length k <= n)%nat) S -> Forall (fun k => (length k <= n)%nat) S' -> (n <= 256)%nat ->
  set_root H n S = set_root H n S' ->
  (forall k, In k S <-> In k S') \/
  collision_in H (root_strings H n S) (root_strings H n S') \/
  zero_preimage_in H (root_strings H n S ++ root_strings H n S').
Proof.
  intros Hn Hn' Hp Hp' Hl Hl' Hb E.
  destruct S as [|a S0] eqn:ES, S' as [|a' S0'] eqn:ES'.
  - left. reflexivity.
  - right. right. rewrite <- ES' in *. unfold set_root, root_strings in *.
    destruct S' as [|x T]; [discriminate|]. destruct (set_label H n [] (x :: T)) as [leaf h].
    exists ((if leaf then x00 else x01) :: h). split; [left; reflexivity|]. symmetry. exact E.
  - right. right. rewrite <- ES in *. unfold set_root, root_strings in *.
    destruct S as [|x T]; [discriminate|]. destruct (set_label H n [] (x :: T)) as [leaf h].
    exists ((if leaf then x00 else x01) :: h). split; [left; reflexivity|]. exact E.
  - unfold set_root, root_strings in *.
    pose proof (label_binds H Hlen n [] (a :: S0) (a' :: S0') Hn Hn' Hp Hp' Hl Hl'
                  ltac:(discriminate) ltac:(discriminate) Hb) as B.
    destruct (set_label H n [] (a :: S0)) as [f h]. destruct (set_label H n [] (a' :: S0')) as [f' h'].
    destruct (bytes_eq_dec ((if f then x00 else x01) :: h) ((if f' then x00 else x01) :: h')) as [Eq|Hneq].
    + injection Eq as Ef Eh. subst h'.
      destruct B as [B|C]; [f_equal; destruct f, f'; congruence|left; exact B|].
      right. left. eapply collision_in_mono; [| |exact C]; intros x Hx; right; exact Hx.
    + right. left. do 2 eexists. split; [left; reflexivity|]. split; [left; reflexivity|]. auto.
Qed.

Lemma same_length_free n S : Forall (fun k => length k = n) S -> prefix_free S /\ Forall (fun k => (length k <= n)%nat) S.
Proof.
  intros Hl. split; [|eapply Forall_impl; [|exact Hl]; cbn; intros; lia].
  rewrite Forall_forall in Hl. intros a b Ha Hb. apply comparable_same_length. rewrite (Hl _ Ha), (Hl _ Hb). reflexivity.
Qed.
Lemma root_binds H (Hlen : hash32 H) n S S' :
  NoDup S -> NoDup S' ->
  Forall (fun k => length k = n) S -> Forall (fun k => length k = n) S' -> (n <= 256)%nat ->
  set_root H n S = set_root H n S' ->
  (forall k, In k S <-> In k S') \/
  collision_in H (root_strings H n S) (root_strings H n S') \/
  zero_preimage_in H (root_strings H n S ++ root_strings H n S').
Proof.
  intros Hn Hn' Hl Hl'. destruct (same_length_free n S Hl), (same_length_free n S' Hl'). apply root_binds_any; assumption.
Qed.

Lemma members_length n ops : Forall (key_length n) ops ->
  Forall (fun k => length k = n) (members ops).
Proof.
  unfold members. assert (Hg : forall S, Forall (fun k => length k = n) S -> Forall (key_length n) ops ->
    Forall (fun k => length k = n) (fold_left members_step ops S)).
  { induction ops as [|o ops IH]; intros S HS Hk; [exact HS|]. cbn. apply IH; [|exact (Forall_inv_tail Hk)].
    apply Forall_inv in Hk. destruct o as [k|k|]; cbn in *.
    - destruct (is_member k S); [exact HS|]. constructor; assumption.
    - apply Forall_forall. intros x Hx. apply in_remove_key in Hx as [Hx _].
      rewrite Forall_forall in HS. apply HS. exact Hx.
    - exact HS. }
  intros Hk. apply Hg; [constructor|exact Hk].
Qed.

(** ** Statements over histories *)

Lemma set_behaviour_lemma H (Hlen : hash32 H) m n ops :
  Forall (key_length n) ops -> small_history n ops ->
  exists t, run H m ops new_trie = Ok (expected H n [] ops, t).
Proof. intros Hk Hs. destruct (history H Hlen m n ops Hk Hs) as (t & E & _). exists t. exact E. Qed.

Lemma root_set_lemma H (Hlen : hash32 H) m m' n ops ops' xs xs' t t' :
  Forall (key_length n) ops -> small_history n ops ->
  Forall (key_length n) ops' -> small_history n ops' ->
  (forall k, In k (members ops) <-> In k (members ops')) ->
  run H m ops new_trie = Ok (xs, t) -> run H m' ops' new_trie = Ok (xs', t') ->
  exists h t1 t1', root_hash H t = Ok (h, t1) /\ root_hash H t' = Ok (h, t1') /\
    (members ops = [] -> h = zero32).
Proof.
  intros Hk Hs Hk' Hs' Hm E E'.
  destruct (history H Hlen m n ops Hk Hs) as (t0 & E0 & R0). assert (t0 = t) as -> by congruence.
  destruct (history H Hlen m' n ops' Hk' Hs') as (t0' & E0' & R0'). assert (t0' = t') as -> by congruence.
  destruct (root_hash_spec H Hlen n _ _ R0 (members_nodup ops)) as (t1 & E1 & _).
  destruct (root_hash_spec H Hlen n _ _ R0' (members_nodup ops')) as (t1' & E1' & _).
  exists (set_root H n (members ops)), t1, t1'. split; [exact E1|]. split.
  - rewrite E1'. f_equal. f_equal. symmetry.
    apply set_root_ext; [apply members_nodup|apply members_nodup|exact Hm].
  - intros ->. reflexivity.
Qed.

Lemma root_commits_lemma H (Hlen : hash32 H) m m' n ops ops' xs xs' t t' h t1 t1' :
  (n <= 256)%nat ->
  Forall (key_length n) ops -> small_history n ops ->
  Forall (key_length n) ops' -> small_history n ops' ->
  run H m ops new_trie = Ok (xs, t) -> run H m' ops' new_trie = Ok (xs', t') ->
  root_hash H t = Ok (h, t1) -> root_hash H t' = Ok (h, t1') ->
  let S := root_strings H n (members ops) in
  let S' := root_strings H n (members ops') in
  (forall k, In k (members ops) <-> In k (members ops')) \/
  collision_in H S S' \/ zero_preimage_in H (S ++ S').
Proof.
  intros Hb Hk Hs Hk' Hs' E E' R R' S S'.
  destruct (history H Hlen m n ops Hk Hs) as (t0 & E0 & R0). assert (t0 = t) as -> by congruence.
  destruct (history H Hlen m' n ops' Hk' Hs') as (t0' & E0' & R0'). assert (t0' = t') as -> by congruence.
  destruct (root_hash_spec H Hlen n _ _ R0 (members_nodup ops)) as (t2 & E1 & _).
  destruct (root_hash_spec H Hlen n _ _ R0' (members_nodup ops')) as (t2' & E1' & _).
  apply root_binds; try assumption; try apply members_nodup; try apply members_length; try assumption.
  congruence.
Qed.

Lemma delete_other_length_lemma H (Hlen : hash32 H) m n ops xs t k :
  Forall (key_length n) ops -> small_history n ops ->
  run H m ops new_trie = Ok (xs, t) -> members ops <> [] -> length k <> n ->
  delete k t = Err ElementLengthMismatch.
Proof.
  intros Hk Hs E Hne Hl.
  destruct (history H Hlen m n ops Hk Hs) as (t0 & E0 & R0). assert (t0 = t) as -> by congruence.
  destruct R0 as [R0 _]. unfold stands in R0. unfold delete. destruct (root t) as [r|].
  - destruct R0 as (pt & _ & _ & _ & _ & _ & ->).
    destruct (N.eqb_spec (N.of_nat (length k)) (N.of_nat n)) as [Eq|_]; [lia|]. reflexivity.
  - destruct R0 as [E1 _]. contradiction.
Qed.

Lemma run_app H m a b : forall t,
  run H m (a ++ b) t = (let? (xs, t) := run H m a t in
                        let? (ys, t) := run H m b t in Ok (xs ++ ys, t))%outcome.
Proof.
  induction a as [|o a IH]; intros t; cbn [app run].
  - cbn [bind]. destruct (run H m b t) as [[ys t']| |]; reflexivity.
  - destruct (step H m o t) as [[x t1]| |]; cbn [bind]; [|reflexivity|reflexivity].
    rewrite IH. destruct (run H m a t1) as [[xs t2]| |]; cbn [bind]; [|reflexivity|reflexivity].
    destruct (run H m b t2) as [[ys t3]| |]; reflexivity.
Qed.

Lemma no_failure_lemma H (Hlen : hash32 H) m n ops o :
  Forall (key_length n) (ops ++ [o]) -> small_history n (ops ++ [o]) ->
  exists xs t, run H m ops new_trie = Ok (xs, t) /\ exists r t', step H m o t = Ok (r, t').
Proof.
  intros Hk Hs. destruct (history H Hlen m n _ Hk Hs) as (t' & E & _).
  rewrite run_app in E. destruct (run H m ops new_trie) as [[xs t]| |]; try discriminate.
  cbn [bind] in E. exists xs, t. split; [reflexivity|]. cbn [run] in E.
  destruct (step H m o t) as [[r t1]| |]; try discriminate. eauto.
Qed.

Lemma round_trip_lemma dirty0 h cs :
  u64 (N.of_nat (length h)) ->
  (forall l, cs = Some l -> length l = 256 /\ (forall i id, nth_error l i = Some (Some id) -> u64 id)) ->
  deserialize (serialize (mkNode dirty0 h cs)) = Some (mkNode false h cs).
Proof.
  intros Hh Hc. apply (deserialize_serialize (mkNode dirty0 h cs)). split; [exact Hh|].
  cbn [children]. destruct cs as [l|]; [|exact I]. destruct (Hc l eq_refl) as [Hl Hi].
  split; [exact Hl|]. apply Forall_forall. intros [id|] Ho; [|exact I].
  apply In_nth_error in Ho as [i Ho]. exact (Hi i id Ho).
Qed.

Lemma add_twice_ok (k k' : bytes) :
  length k <> length k' ->
  match add Debug k new_trie with
  | Ok (true, t) => match add Debug k' t with Ok (true, _) => true | _ => false end
  | _ => false
  end = true ->
  exists (k k' : bytes) t t',
    length k <> length k' /\ add Debug k new_trie = Ok (true, t) /\ add Debug k' t = Ok (true, t').
Proof.
  intros Hl E. exists k, k'. destruct (add Debug k new_trie) as [[[] t]| |]; try discriminate.
  destruct (add Debug k' t) as [[[] t']| |] eqn:E2; try discriminate. eauto 6.
Qed.

Lemma add_twice_panic (k k' : bytes) :
  length k <> length k' ->
  match add Debug k new_trie with
  | Ok (true, t) => match add Debug k' t with Panic => true | _ => false end
  | _ => false
  end = true ->
  exists (k k' : bytes) t,
    length k <> length k' /\ add Debug k new_trie = Ok (true, t) /\ add Debug k' t = Panic.
Proof.
  intros Hl E. exists k, k'. destruct (add Debug k new_trie) as [[[] t]| |]; try discriminate.
  destruct (add Debug k' t) as [[[] t']| |] eqn:E2; try discriminate. eauto 6.
Qed.

Lemma add_other_length_accepted_lemma :
  exists (k k' : bytes) t t',
    length k <> length k' /\ add Debug k new_trie = Ok (true, t) /\ add Debug k' t = Ok (true, t').
Proof.
  apply (add_twice_ok [x01; x02] [x03]); [discriminate|]. vm_compute. reflexivity.
Qed.

Lemma add_prefix_panics_lemma :
  exists (k k' : bytes) t,
    length k <> length k' /\ add Debug k new_trie = Ok (true, t) /\ add Debug k' t = Panic.
Proof.
  apply (add_twice_panic [x01; x02] [x01]); [discriminate|]. vm_compute. reflexivity.
Qed.
