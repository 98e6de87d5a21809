(** C106-C110: proofs. *)
From Verif Require Import Base BaseFacts Digits AddressModel ConsensusModel ViewsModel ViewsSpec CommitteeModel CommitteeSpec.
Local Open Scope N_scope.

(** ** C106 *)
Lemma trim_le h : trim_to_u64 h = le_num (firstn 8 h).
Proof. unfold trim_to_u64, le_num. induction (firstn 8 h) as [|b s IH]; [reflexivity|]. cbn [fold_right map le_val]. rewrite IH. reflexivity. Qed.
Lemma trim_lemma h : length h = 32%nat -> trim_to_u64 h < 2 ^ 64 /\ le_bytes 8 (trim_to_u64 h) = firstn 8 h.
Proof.
  intros L. assert (L8 : length (firstn 8 h) = 8%nat) by (rewrite firstn_length; lia). rewrite trim_le. split.
  - pose proof (le_num_lt (firstn 8 h)) as B. rewrite L8 in B. exact B.
  - rewrite <- L8 at 1. apply le_bytes_num.
Qed.

(** ** C107 *)
Lemma length_concat_in {A} (x : list A) l : In x l -> (length x <= length (concat l))%nat.
Proof. induction l as [|y l IH]; intros []; cbn [concat]; rewrite app_length; [subst; lia|]. specialize (IH H). lia. Qed.
Lemma encode_in_array x l : In x l -> (length (encode x) <= length (encode (VArr l)))%nat.
Proof. intros I. cbn [encode]. rewrite app_length. pose proof (length_concat_in (encode x) (map encode l) (in_map encode l x I)). lia. Qed.
Lemma encode_in_map k x l : In (k, x) l -> (length (encode x) <= length (encode (VMap l)))%nat.
Proof.
  intros I. cbn [encode]. rewrite app_length. pose proof (length_concat_in _ _ (in_map (fun '(k, x) => encode k ++ encode x) l (k, x) I)) as L.
  cbv beta iota in L. rewrite app_length in L. lia.
Qed.
Lemma write_header_nonempty h : (1 <= length (write_header h))%nat.
Proof.
  destruct h; unfold write_header, write_sint, write_uint;
    repeat (match goal with |- context [if ?b then _ else _] => destruct b | |- context [match ?x with _ => _ end] => destruct x end); cbn [length app]; lia.
Qed.
Lemma encode_bytes_length s : (length s <= length (encode (VBytes s)))%nat.
Proof.
  unfold VBytes. cbn [encode]. rewrite app_length. enough (length s <= length (concat (map encode (map (fun b => VInt (Z.of_N (Byte.to_N b))) s))))%nat by lia.
  induction s as [|b s IH]; [cbn; lia|]. cbn [map concat length encode]. rewrite app_length. pose proof (write_header_nonempty (HInt (Z.of_N (Byte.to_N b)))). lia.
Qed.
Lemma size_of_note sig t : N.of_nat (length (note (tx_head t))) <= signed_size sig t.
Proof.
  unfold signed_size. destruct (note (tx_head t)) as [|b s] eqn:E; [cbn; lia|]. rewrite <- E.
  assert (A : In (tx_value t) (match signed_tx_value (plainly_signed sig t) with VArr l => l | _ => [] end)).
  { unfold signed_tx_value, plainly_signed. cbn [stx_sig stx_msig stx_lsig stx_tx]. rewrite !in_app_iff. right. right. right. left. left. reflexivity. }
  assert (B : In (VStr (str "note"), VBytes (note (tx_head t))) (match tx_value t with VMap l => l | _ => [] end)).
  { unfold tx_value, header_entries. rewrite !in_app_iff. left. do 4 right. left. unfold entry. rewrite E. left. reflexivity. }
  pose proof (encode_bytes_length (note (tx_head t))) as L1. unfold tx_value in B. apply encode_in_map in B.
  unfold signed_tx_value in A |- *. apply encode_in_array in A. unfold tx_value in A |- *. lia.
Qed.
Lemma underestimate sig t : 200 < N.of_nat (length (note (tx_head t))) -> estimate_encoded_size t < signed_size sig t.
Proof. intros L. pose proof (size_of_note sig t). unfold estimate_encoded_size. lia. Qed.

(** ** C108 *)
Lemma receiver_relevant t a spec : get_receiver_address t = Some a -> match_address t a spec = true.
Proof.
  unfold get_receiver_address, match_address, relevant_addrs. intros E. apply existsb_exists. exists a. split; [|apply bytes_eqb_spec; reflexivity].
  apply in_or_app. right. destruct (fields t); try discriminate; injection E as ->; left; reflexivity.
Qed.
Lemma amount_has_receiver t : tx_amount t <> 0 -> exists a, get_receiver_address t = Some a.
Proof. unfold tx_amount, get_receiver_address. destruct (fields t); intros E; try (exfalso; apply E; reflexivity). eauto. Qed.

(** ** C109 *)
Lemma version_text_inj v w : version_text v = version_text w -> v = w.
Proof.
  intros E. assert (T : bytes_eqb (version_text v) (version_text w) = true) by (apply bytes_eqb_spec; exact E). clear E.
  destruct v, w; first [reflexivity | vm_compute in T; discriminate].
Qed.

(** ** C110 *)
Lemma output_hash_with_iter H c i j : output_hash H (with_iter c i) j = output_hash H c j.
Proof. unfold output_hash, with_iter. cbn [domain_separation_enabled hashable vrf_out]. destruct (domain_separation_enabled c), (hashable c); reflexivity. Qed.
Lemma loop_same H k : forall c d i l, domain_separation_enabled c = domain_separation_enabled d -> (forall j, output_hash H c j = output_hash H d j) ->
  snd (lowest_loop H c i k l) = snd (lowest_loop H d i k l).
Proof.
  induction k as [|k IH]; intros c d i l D O; [reflexivity|]. cbn [lowest_loop]. rewrite O. destruct (output_hash H d i); [|reflexivity].
  apply IH.
  - rewrite D. destruct (domain_separation_enabled d) eqn:E; [unfold with_iter; cbn [domain_separation_enabled]; congruence|congruence].
  - intros j. rewrite D. destruct (domain_separation_enabled d); rewrite ?output_hash_with_iter; apply O.
Qed.
Lemma equal_ties H c d : cred_eqb c d = true -> weight c = weight d -> same_kind c d -> complete c -> complete d ->
  snd (lowest_output H c) = snd (lowest_output H d).
Proof.
  intros E W [D S] Kc Kd. apply bytes_eqb_spec in E. unfold lowest_output. rewrite W. apply loop_same; [exact D|].
  intros j. unfold output_hash. rewrite <- D. destruct (domain_separation_enabled c).
  - destruct (S eq_refl) as (h & h' & -> & -> & M). unfold hashable_rep. cbn [member iter]. rewrite M. reflexivity.
  - rewrite E. reflexivity.
Qed.
Lemma equal_ties_lt H c d : cred_eqb c d = true -> weight c = weight d -> same_kind c d -> complete c -> complete d ->
  snd (lt H c d) <> Some true /\ snd (lt H d c) <> Some true.
Proof.
  intros E W K Kc Kd. pose proof (equal_ties H c d E W K Kc Kd) as T. unfold lt.
  destruct (lowest_output H c) as [c' [a|]], (lowest_output H d) as [d' [b|]]; cbn [snd] in *; try (split; discriminate).
  injection T as ->. rewrite N.ltb_irrefl. split; discriminate.
Qed.

(** ** C111 *)
Lemma walk_le found : forall k i, walk found i k <= i + N.of_nat k.
Proof. induction k as [|k IH]; intros i; cbn [walk]; [lia|]. destruct (found i); [lia|]. specialize (IH (i + 1)). lia. Qed.
Lemma only_online cdf C H proto self mem c : verify cdf C H proto self mem = Ok c ->
  BasicsModel.acc_status (mem_data mem) = BasicsModel.Online /\ 0 < weight c <= BasicsModel.micro_algos (mem_data mem).
Proof.
  unfold verify. destruct (VrfModel.verify_bytes _ _ _ _) as [out|e|]; try discriminate. cbv zeta. unfold BasicsModel.voting_stake.
  destruct (BasicsModel.acc_status (mem_data mem)).
  - destruct (_ <? _); [discriminate|]. destruct (_ || _ || _); [discriminate|]. rewrite N.eqb_refl. cbn. discriminate.
  - destruct (_ <? BasicsModel.micro_algos (mem_data mem)); [discriminate|]. destruct (_ || _ || _); [discriminate|].
    destruct (N.eqb_spec (BasicsModel.micro_algos (mem_data mem)) 0) as [Z|Z]; [cbn; discriminate|].
    destruct (select _ _ _ _ _) as [w|] eqn:S; [|discriminate]. destruct (N.eqb_spec w 0) as [Ew|Ew]; [discriminate|].
    intros E. injection E as <-. cbn [weight]. split; [reflexivity|]. split; [lia|]. unfold select, sortition_binomial_cdf_walk in S.
    destruct (_ || _ || _); [discriminate|]. injection S as <-. etransitivity; [apply walk_le|]. lia.
  - destruct (_ <? _); [discriminate|]. destruct (_ || _ || _); [discriminate|]. rewrite N.eqb_refl. cbn. discriminate.
Qed.

(** ** C112 *)
Lemma dilution_lemma proto a : (BasicsModel.vote_key_dilution a <> 0 -> BasicsModel.key_dilution proto a = BasicsModel.vote_key_dilution a) /\
  (BasicsModel.vote_key_dilution a = 0 -> BasicsModel.key_dilution proto a = default_key_dilution proto).
Proof. unfold BasicsModel.key_dilution. destruct (N.eqb_spec (BasicsModel.vote_key_dilution a) 0); split; intros; congruence. Qed.
Lemma built_in_dilution : forallb (fun e => negb (default_key_dilution (snd e) =? 0)) built_in = true.
Proof. vm_compute. reflexivity. Qed.
Lemma lookup_in {A} v (l : list (version * A)) p : lookup v l = Some p -> exists w, In (w, p) l.
Proof.
  induction l as [|[w q] l IH]; [discriminate|]. cbn [lookup]. destruct (version_eqb v w).
  - intros E. injection E as ->. exists w. left. reflexivity.
  - intros E. destruct (IH E) as [u I]. exists u. right. exact I.
Qed.
Lemma every_round_has_a_key v proto a round : lookup v built_in = Some proto ->
  exists batch offset, BasicsModel.ots_id round (BasicsModel.key_dilution proto a) = Some (batch, offset) /\ offset < BasicsModel.key_dilution proto a.
Proof.
  intros L. destruct (lookup_in _ _ _ L) as [w I]. pose proof built_in_dilution as B. rewrite forallb_forall in B. specialize (B _ I). cbn [snd] in B.
  apply Bool.negb_true_iff, N.eqb_neq in B. assert (K : BasicsModel.key_dilution proto a <> 0).
  { destruct (dilution_lemma proto a) as [D1 D2]. destruct (N.eq_dec (BasicsModel.vote_key_dilution a) 0) as [E|E]; [rewrite (D2 E); exact B|rewrite (D1 E); exact E]. }
  unfold BasicsModel.ots_id, div64, rem64. destruct (N.eqb_spec (BasicsModel.key_dilution proto a) 0); [contradiction|].
  do 2 eexists. split; [reflexivity|]. apply N.mod_lt. exact K.
Qed.
