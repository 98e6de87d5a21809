From Verif Require Import Base BaseFacts MsgpackProofs DomainProofs KeyfileProofs ExtrasModel ExtrasSpec AccountModel.
From Verif Require TxModel MultisigModel.
From Coq Require Import Permutation.
Local Open Scope N_scope.

Lemma pow8 : 256 ^ N.of_nat 8 = two64. Proof. reflexivity. Qed.
Lemma be8_inj a b : u64 a -> u64 b -> be 8 a = be 8 b -> a = b.
Proof. unfold u64. intros Ha Hb. apply be_inj; rewrite pow8; assumption. Qed.

(** ** Application addresses *)
Lemma app_rep_inj a b : u64 a -> u64 b -> app_rep a = app_rep b -> a = b.
Proof. intros Ha Hb E. apply domains_lemma in E. apply be8_inj; tauto. Qed.
Lemma app_address_inj H a b : u64 a -> u64 b -> app_address H a = app_address H b -> a = b \/ collision_in H [app_rep a] [app_rep b].
Proof.
  intros Ha Hb E. destruct (N.eq_dec a b) as [->|N]; [left; reflexivity|right].
  exists (app_rep a), (app_rep b). repeat split; [left; reflexivity|left; reflexivity| |exact E].
  intros E'. apply N. apply app_rep_inj; assumption.
Qed.
Lemma app_address_apart H a i d : i <> APP_INDEX -> app_address H a = H (hash_rep i d) -> collision_in H [app_rep a] [hash_rep i d].
Proof.
  intros Hi E. exists (app_rep a), (hash_rep i d). repeat split; [left; reflexivity|left; reflexivity| |exact E].
  intros E'. apply domains_lemma in E'. destruct E' as [E' _]. congruence.
Qed.

(** ** Storage *)
Lemma mem_load_remove id k s : mem_load k (mem_remove id s) = if id =? k then None else mem_load k s.
Proof.
  unfold mem_load, mem_remove. induction s as [|[i c] s IH]; cbn [filter find fst]; [destruct (id =? k); reflexivity|].
  destruct (N.eqb_spec i id) as [->|Hn]; cbn [negb].
  - rewrite IH. destruct (N.eqb_spec id k); reflexivity.
  - cbn [find fst]. destruct (N.eqb_spec i k) as [->|Hk].
    + destruct (N.eqb_spec id k); [congruence|reflexivity].
    + exact IH.
Qed.
Lemma mem_load_store id c k s : mem_load k (mem_store id c s) = if id =? k then match c with [] => None | _ => Some c end else mem_load k s.
Proof.
  unfold mem_store. destruct c as [|b c]; [apply mem_load_remove|].
  unfold mem_insert, mem_load at 1. cbn [find fst]. destruct (N.eqb_spec id k) as [->|Hk]; [reflexivity|].
  change (mem_load k (mem_remove id s) = mem_load k s). rewrite mem_load_remove. destruct (N.eqb_spec id k); [congruence|reflexivity].
Qed.
Lemma sled_load_store id c k s : u64 id -> u64 k ->
  sled_load k (sled_store id c s) = if id =? k then match c with [] => None | _ => Some c end else sled_load k s.
Proof.
  intros Hid Hk.
  assert (R : sled_load k (sled_remove (be 8 id) s) = if id =? k then None else sled_load k s).
  { unfold sled_load, sled_remove. induction s as [|[i d] s IH]; cbn [filter find fst]; [destruct (id =? k); reflexivity|].
    destruct (bytes_eqb_reflect i (be 8 id)) as [->|Hn]; cbn [negb].
    - rewrite IH. destruct (N.eqb_spec id k) as [->|N]; [reflexivity|].
      destruct (bytes_eqb_reflect (be 8 id) (be 8 k)) as [E|_]; [apply be8_inj in E; [congruence|assumption..]|reflexivity].
    - cbn [find fst]. destruct (bytes_eqb_reflect i (be 8 k)) as [->|Hi].
      + destruct (N.eqb_spec id k) as [->|_]; [congruence|reflexivity].
      + exact IH. }
  unfold sled_store. destruct c as [|b c]; [exact R|].
  unfold sled_insert, sled_load at 1. cbn [find fst]. destruct (N.eqb_spec id k) as [->|N].
  - rewrite bytes_eqb_refl. reflexivity.
  - destruct (bytes_eqb_reflect (be 8 id) (be 8 k)) as [E|_]; [apply be8_inj in E; [congruence|assumption..]|exact R].
Qed.

Lemma last_stored_app id cs cs' b : last_stored id (cs ++ cs') b = last_stored id cs' (last_stored id cs b).
Proof. revert b. induction cs as [|[i c|i] cs IH]; intros b; cbn [app last_stored]; [reflexivity|apply IH|apply IH]. Qed.

Lemma mem_loads cs : forall past s, (forall id, mem_load id s = last_stored id past None) -> snd (mem_run s cs) = expected_loads past cs.
Proof.
  induction cs as [|[i c|i] cs IH]; intros past s Hs; cbn [mem_run expected_loads].
  - reflexivity.
  - apply IH. intros id. rewrite last_stored_app. cbn [last_stored]. rewrite mem_load_store, Hs. reflexivity.
  - specialize (IH (past ++ [Load i]) s). destruct (mem_run s cs) as [s' os]. cbn [snd] in *. rewrite Hs, IH; [reflexivity|].
    intros id. rewrite last_stored_app. cbn [last_stored]. apply Hs.
Qed.
Lemma sled_loads cs : Forall (fun c => u64 (call_id c)) cs ->
  forall past s, (forall id, u64 id -> sled_load id s = last_stored id past None) -> snd (sled_run s cs) = expected_loads past cs.
Proof.
  induction cs as [|[i c|i] cs IH]; intros Hu past s Hs; cbn [sled_run expected_loads]; [reflexivity|..];
    apply Forall_cons_iff in Hu; destruct Hu as [Hi Hu]; cbn [call_id] in Hi.
  - apply IH; [exact Hu|]. intros id Hid. rewrite last_stored_app. cbn [last_stored]. rewrite sled_load_store, Hs by assumption. reflexivity.
  - specialize (IH Hu (past ++ [Load i]) s). destruct (sled_run s cs) as [s' os]. cbn [snd] in *. rewrite Hs, IH; [reflexivity| |assumption].
    intros id Hid. rewrite last_stored_app. cbn [last_stored]. apply Hs, Hid.
Qed.
Lemma mem_loads_lemma cs : snd (mem_run [] cs) = expected_loads [] cs.
Proof. apply mem_loads. reflexivity. Qed.
Lemma sled_loads_lemma cs : Forall (fun c => u64 (call_id c)) cs -> snd (sled_run [] cs) = expected_loads [] cs.
Proof. intros Hu. apply sled_loads; [exact Hu|reflexivity]. Qed.

(** Size. *)
Lemma mem_remove_fst id s x : In x (map fst (mem_remove id s)) -> In x (map fst s) /\ x <> id.
Proof.
  unfold mem_remove. rewrite !in_map_iff. intros (e & <- & He). apply filter_In in He. destruct He as [He Hn].
  split; [exists e; split; [reflexivity|exact He]|]. destruct (N.eqb_spec (fst e) id); [discriminate|assumption].
Qed.
Lemma mem_remove_nodup id s : NoDup (map fst s) -> NoDup (map fst (mem_remove id s)).
Proof.
  induction s as [|e s IH]; cbn [mem_remove filter map]; [constructor|]. intros Hd. inversion_clear Hd.
  destruct (negb (fst e =? id)); [|apply IH; assumption]. cbn [map]. constructor; [|apply IH; assumption].
  intros Hin. apply mem_remove_fst in Hin. tauto.
Qed.
Lemma mem_state cs : forall past s, NoDup (map fst s) -> (forall id, mem_load id s = last_stored id past None) ->
  NoDup (map fst (fst (mem_run s cs))) /\ forall id, mem_load id (fst (mem_run s cs)) = last_stored id (past ++ cs) None.
Proof.
  induction cs as [|[i c|i] cs IH]; intros past s Hd Hs; cbn [mem_run].
  - rewrite app_nil_r. split; assumption.
  - replace (past ++ Store i c :: cs) with ((past ++ [Store i c]) ++ cs) by (rewrite <- app_assoc; reflexivity).
    apply IH.
    + unfold mem_store. destruct c; [apply mem_remove_nodup, Hd|]. cbn [mem_insert map fst]. constructor; [|apply mem_remove_nodup, Hd].
      intros Hin. apply mem_remove_fst in Hin. tauto.
    + intros id. rewrite last_stored_app. cbn [last_stored]. rewrite mem_load_store, Hs. reflexivity.
  - replace (past ++ Load i :: cs) with ((past ++ [Load i]) ++ cs) by (rewrite <- app_assoc; reflexivity).
    specialize (IH (past ++ [Load i]) s Hd). destruct (mem_run s cs) as [s' os]. cbn [fst] in *. apply IH.
    intros id. rewrite last_stored_app. cbn [last_stored]. apply Hs.
Qed.
Lemma mem_load_in s id : mem_load id s <> None <-> In id (map fst s).
Proof.
  unfold mem_load. induction s as [|[i c] s IH]; cbn [find map In fst]; [cbn; tauto|].
  destruct (N.eqb_spec i id) as [->|N]; cbn [option_map]; [split; [left; reflexivity|intros _; discriminate]|].
  rewrite IH. split; [tauto|]. intros [E|E]; [contradiction|exact E].
Qed.
Definition sum_len (f : N -> option bytes) (ids : list N) : N :=
  fold_right (fun id n => N.of_nat (length (match f id with Some c => c | None => [] end)) + n) 0 ids.
Lemma sum_len_perm f a b : Permutation a b -> sum_len f a = sum_len f b.
Proof.
  unfold sum_len. induction 1 as [|x l l' _ IH|x y l|l l' l'' _ IH1 _ IH2]; cbn [fold_right].
  - reflexivity.
  - rewrite IH. reflexivity.
  - rewrite !N.add_assoc. f_equal. apply N.add_comm.
  - congruence.
Qed.
Lemma sum_len_ext f g a : (forall x, In x a -> f x = g x) -> sum_len f a = sum_len g a.
Proof.
  induction a as [|x a IH]; intros E; [reflexivity|]. unfold sum_len in *. cbn [fold_right].
  rewrite IH by (intros y Hy; apply E; right; exact Hy). rewrite E by (left; reflexivity). reflexivity.
Qed.
Lemma mem_size_sum s : NoDup (map fst s) -> mem_size s = sum_len (fun id => mem_load id s) (map fst s).
Proof.
  induction s as [|[i c] s IH]; intros Hd; [reflexivity|]. cbn [map fst] in Hd. inversion_clear Hd as [|? ? Hn Hd'].
  unfold sum_len. cbn [mem_size map fold_right fst snd]. f_equal.
  - unfold mem_load. cbn [find fst]. rewrite N.eqb_refl. reflexivity.
  - transitivity (sum_len (fun id => mem_load id s) (map fst s)); [apply IH, Hd'|].
    apply sum_len_ext. intros x Hx. unfold mem_load. cbn [find fst]. destruct (N.eqb_spec i x) as [->|_]; [contradiction|reflexivity].
Qed.
Lemma mem_size_lemma cs ids : live_ids cs ids -> mem_size (fst (mem_run [] cs)) = stored_bytes cs ids.
Proof.
  intros [Hd Hl]. destruct (mem_state cs [] [] (NoDup_nil _) (fun _ => eq_refl)) as [Hn Hs]. cbn [app] in Hs.
  set (s := fst (mem_run [] cs)) in *. rewrite (mem_size_sum s Hn).
  rewrite (sum_len_ext _ (fun id => last_stored id cs None)) by (intros; apply Hs).
  change (sum_len (fun id => last_stored id cs None) (map fst s) = sum_len (fun id => last_stored id cs None) ids).
  apply sum_len_perm, NoDup_Permutation; [exact Hn|exact Hd|]. intros x. rewrite <- mem_load_in, Hs, Hl. tauto.
Qed.
Lemma live_exists cs : exists ids, live_ids cs ids.
Proof.
  destruct (mem_state cs [] [] (NoDup_nil _) (fun _ => eq_refl)) as [Hn Hs]. cbn [app] in Hs.
  exists (map fst (fst (mem_run [] cs))). split; [exact Hn|]. intros id. rewrite <- mem_load_in, Hs. tauto.
Qed.

(** ** Identities *)
Lemma identity_feed_inj a b : real_identity a -> real_identity b -> (identity_eqb a b = true <-> identity_feed a = identity_feed b).
Proof.
  intros (Ha1 & Ha2 & Ha3 & Ha4 & Ha5) (Hb1 & Hb2 & Hb3 & Hb4 & Hb5). destruct a as [a1 a2 a3 a4 a5], b as [b1 b2 b3 b4 b5]. cbn [id_address id_first id_last id_vote id_selection] in *.
  unfold identity_eqb, identity_feed, feed_bytes, feed_u64. cbn [id_address id_first id_last id_vote id_selection app].
  rewrite !andb_true_iff, !N.eqb_eq, !bytes_eqb_spec. split.
  - intros ((((-> & ->) & ->) & ->) & ->). reflexivity.
  - intros E. remember (be 8) as f. injection E as _ -> E1 E2 _ -> _ ->. subst f. repeat split; apply be8_inj; assumption.
Qed.

(** ** Text of state values *)
Lemma hex_char_inj a b : a < 16 -> b < 16 -> hex_char a = hex_char b -> a = b.
Proof.
  intros Ha Hb. assert (G : forall n, n < 16 -> In n (map N.of_nat (seq 0 16))).
  { intros n Hn. apply in_map_iff. exists (N.to_nat n). rewrite N2Nat.id. split; [reflexivity|]. apply in_seq. lia. }
  apply G in Ha, Hb. cbn in Ha, Hb.
  repeat (destruct Ha as [<-|Ha]; [repeat (destruct Hb as [<-|Hb]; [vm_compute; congruence|]); contradiction|]). contradiction.
Qed.
Lemma hex_inj a b : hex_lower a = hex_lower b -> a = b.
Proof.
  revert b. induction a as [|x a IH]; intros [|y b]; cbn [hex_lower flat_map app]; try discriminate; [reflexivity|].
  intros E. injection E as E1 E2 E3. apply IH in E3. subst b. f_equal.
  pose proof (Byte.to_N_bounded x). pose proof (Byte.to_N_bounded y).
  apply hex_char_inj in E1; [|lia..]. apply hex_char_inj in E2; [|lia..].
  assert (E : Byte.to_N x = Byte.to_N y) by lia. apply (f_equal Byte.of_N) in E. rewrite !Byte.of_to_N in E. congruence.
Qed.
Lemma teal_bytes_text a b : teal_text (new_bytes a) = teal_text (new_bytes b) -> a = b.
Proof. apply hex_inj. Qed.
Lemma teal_uint_text a b : u64 a -> u64 b -> teal_text (new_uint a) = teal_text (new_uint b) -> a = b.
Proof. apply dec_inj. Qed.

(** ** Logic signatures *)
Lemma ls_len_lemma l : ls_len l = N.of_nat (length (supplied l)).
Proof.
  unfold ls_len, supplied. rewrite app_length, Nat2N.inj_add. generalize (N.of_nat (length (TxModel.logic l))) as n.
  induction (TxModel.args l) as [|x r IH]; intros n; cbn [fold_left concat]; [cbn; lia|].
  rewrite IH, app_length. lia.
Qed.
Lemma ls_empty_lemma l : ls_len l = 0 -> ls_is_empty l = true.
Proof. rewrite ls_len_lemma. unfold supplied, ls_is_empty. destruct (TxModel.logic l); [reflexivity|]. cbn. lia. Qed.
Lemma ls_empty_iff l : TxModel.args l = [] -> (ls_is_empty l = true <-> ls_len l = 0).
Proof.
  intros E. rewrite ls_len_lemma. unfold supplied, ls_is_empty. rewrite E. cbn [concat]. rewrite app_nil_r.
  destruct (TxModel.logic l); cbn; split; (reflexivity || discriminate || lia).
Qed.
Lemma app_multisig_apart H a d : app_address H a = H (MULTISIG_ADDRESS_PREFIX ++ d) -> collision_in H [app_rep a] [MULTISIG_ADDRESS_PREFIX ++ d].
Proof.
  intros E. exists (app_rep a), (MULTISIG_ADDRESS_PREFIX ++ d). repeat split; [left; reflexivity|left; reflexivity| |exact E].
  apply multisig_domain_lemma.
Qed.
