(** Proofs about encoded lengths. *)
From Coq Require Import Permutation.
From Verif Require Import Base MsgpackModel TxModel TxCodecSpec TxCodecProofs FormSpec FormProofs LengthModel.

Definition pair_size (e : value * value) : nat := length (encode (fst e)) + length (encode (snd e)).
Lemma map_size l : length (encode (VMap l)) = length (write_header (HMap (N.of_nat (length l)))) + list_sum (map pair_size l).
Proof.
  cbn [encode]. rewrite app_length. f_equal. induction l as [|[k x] l IH]; [reflexivity|].
  cbn [map concat list_sum fold_right]. rewrite !app_length, IH. reflexivity.
Qed.
Lemma arr_size l : length (encode (VArr l)) = length (write_header (HArr (N.of_nat (length l)))) + list_sum (map (fun v => length (encode v)) l).
Proof.
  cbn [encode]. rewrite app_length. f_equal. induction l as [|x l IH]; [reflexivity|].
  cbn [map concat list_sum fold_right]. rewrite app_length, IH. reflexivity.
Qed.
Lemma sum_perm l l' : Permutation l l' -> list_sum l = list_sum l'.
Proof. unfold list_sum. induction 1; cbn [fold_right]; lia. Qed.
Lemma map_same_size l l' : Permutation l l' -> length (encode (VMap l)) = length (encode (VMap l')).
Proof. intros P. rewrite !map_size, (Permutation_length P). f_equal. apply sum_perm, Permutation_map, P. Qed.
Lemma state_delta_size (g g' : state_delta) : same_map g g' -> length (encode (state_delta_value g)) = length (encode (state_delta_value g')).
Proof. intros P. apply map_same_size, Permutation_map, P. Qed.
Lemma locals_size (l l' : list (N * state_delta)) : same_maps l l' ->
  length (encode (VMap (map (fun e => (VNum (fst e), state_delta_value (snd e))) l))) =
  length (encode (VMap (map (fun e => (VNum (fst e), state_delta_value (snd e))) l'))).
Proof.
  intros (m & P & F). etransitivity; [apply map_same_size, Permutation_map, P|]. clear P l.
  rewrite !map_size, !map_length.
  assert (E : length m = length l') by (induction F; cbn; congruence). f_equal; [do 3 f_equal; apply f_equal; exact E|]. clear E.
  induction F as [|[k x] [k' x'] m l' [Ek Ex] _ IH]; [reflexivity|]. cbn [map list_sum fold_right] in *. cbn in Ek, Ex. subst k'.
  change (fold_right Nat.add 0) with list_sum in *. rewrite IH. f_equal. unfold pair_size. cbn [fst snd]. rewrite (state_delta_size x x' Ex). reflexivity.
Qed.
Lemma empty_perm {A} (l l' : list A) : Permutation l l' -> is_empty l = is_empty l'.
Proof. intros P. apply Permutation_length in P. destruct l, l'; cbn in *; try discriminate; reflexivity. Qed.
Lemma empty_maps (l l' : list (N * state_delta)) : same_maps l l' -> is_empty l = is_empty l'.
Proof.
  intros (m & P & F). rewrite (empty_perm l m P). destruct F; reflexivity.
Qed.
Lemma empty_txs i i' : same_txs i i' -> is_empty i = is_empty i'.
Proof. destruct 1; reflexivity. Qed.
Lemma default_same a a' : same_ad a a' -> ad_is_default a = ad_is_default a'.
Proof.
  destruct 1 as [a b c d e x y ed ed' E]. destruct E as [g g' l l' o i i' Hg Hl Hi]. cbn.
  rewrite (empty_perm (g : list (bytes * value_delta)) g' Hg), (empty_maps l l' Hl), (empty_txs i i' Hi). reflexivity.
Qed.
Definition inner_value (s : signed_tx * apply_data) : value := VArr (signed_tx_value (fst s) :: element (ad_is_default (snd s)) (ad_value (snd s))).
Lemma inner_size s a a' : same_ad a a' -> length (encode (ad_value a)) = length (encode (ad_value a')) ->
  length (encode (inner_value (s, a))) = length (encode (inner_value (s, a'))).
Proof.
  intros S E. unfold inner_value. cbn [fst snd]. rewrite <- (default_same a a' S). unfold element.
  destruct (ad_is_default a); [reflexivity|]. rewrite !arr_size. cbn [length map]. f_equal. cbn. lia.
Qed.
Lemma txs_length i i' : same_txs i i' -> length i = length i'.
Proof. induction 1; cbn; congruence. Qed.
Lemma ad_size a a' : same_ad a a' -> length (encode (ad_value a)) = length (encode (ad_value a')).
Proof.
  intros S. induction S using same_ad_ind' with
   (P0 := fun e e' _ => length (encode (eval_delta_value e)) = length (encode (eval_delta_value e')))
   (P1 := fun i i' _ => list_sum (map (fun v => length (encode v)) (map inner_value i)) = list_sum (map (fun v => length (encode v)) (map inner_value i'))).
  - cbn [ad_value]. rewrite !arr_size. cbn [length map list_sum fold_right]. rewrite IHS. reflexivity.
  - cbn [eval_delta_value]. change (fun s : signed_tx * apply_data => VArr (signed_tx_value (fst s) :: element (ad_is_default (snd s)) (ad_value (snd s)))) with inner_value.
    rewrite (arr_size [_; _; _; _]), (arr_size [state_delta_value g'; _; _; _]). cbn [map list_sum fold_right].
    rewrite (state_delta_size g g' s), (locals_size l l' s0), (arr_size (map inner_value i)), (arr_size (map inner_value i')), !map_length.
    fold (list_sum (map (fun v => length (encode v)) (map inner_value i))) in *. rewrite (txs_length i i' s1). unfold list_sum in *. rewrite IHS. reflexivity.
  - reflexivity.
  - unfold list_sum in *. cbn [map fold_right]. rewrite IHS0, (inner_size s a a' S IHS). reflexivity.
Qed.
Lemma stib_size s s' : same_stib s s' -> stib_encoded_length s = stib_encoded_length s'.
Proof.
  destruct s as [[t a] i h], s' as [[t' a'] i' h']. unfold same_stib, stib_encoded_length, stib_value. cbn [stib_tx fst snd has_genesis_id has_genesis_hash].
  intros (-> & S & -> & ->). rewrite (arr_size (_ :: _)), (arr_size (stad_value (t', a') :: _)). cbn [length map list_sum fold_right].
  f_equal. f_equal. exact (inner_size t' a a' S (ad_size a a' S)).
Qed.

(** ** What is read *)
Lemma needs_all v p : wf v -> (exists r, encode v = p ++ r /\ r <> []) -> decode p = None.
Proof.
  intros W (r & E & N). destruct (decode p) as [v'|] eqn:D; [|reflexivity]. exfalso.
  apply decode_form in D as (b & rest & F & ->). pose proof (encode_form v W) as F'.
  destruct (form_unambiguous v v' (encode v) b [] (rest ++ r) F' F) as (_ & _ & X).
  { rewrite app_nil_r, E, app_assoc. reflexivity. }
  destruct rest, r; cbn in X; congruence.
Qed.
Lemma length_needed v s : wf v ->
  decode (firstn (length (encode v)) (encode v ++ s)) = Some v /\
  forall n, (n < length (encode v))%nat -> decode (firstn n (encode v ++ s)) = None.
Proof.
  intros W. split.
  - rewrite firstn_app, Nat.sub_diag, firstn_O, app_nil_r, firstn_all. apply decode_form. exists (encode v), []. rewrite app_nil_r. split; [apply encode_form; exact W|reflexivity].
  - intros n L. rewrite firstn_app. replace (n - length (encode v))%nat with 0%nat by lia. rewrite firstn_O, app_nil_r.
    apply (needs_all v _ W). exists (skipn n (encode v)). split; [symmetry; apply firstn_skipn|].
    intros E. apply (f_equal (@length byte)) in E. rewrite skipn_length in E. cbn in E. lia.
Qed.
Lemma signed_length s rest : wf (signed_tx_value s) ->
  decode (firstn (signed_encoded_length s) (encode (signed_tx_value s) ++ rest)) = Some (signed_tx_value s) /\
  forall n, (n < signed_encoded_length s)%nat -> decode (firstn n (encode (signed_tx_value s) ++ rest)) = None.
Proof. exact (length_needed (signed_tx_value s) rest). Qed.
Lemma stib_length s rest : wf (stib_value s) ->
  decode (firstn (stib_encoded_length s) (encode (stib_value s) ++ rest)) = Some (stib_value s) /\
  forall n, (n < stib_encoded_length s)%nat -> decode (firstn n (encode (stib_value s) ++ rest)) = None.
Proof. exact (length_needed (stib_value s) rest). Qed.
