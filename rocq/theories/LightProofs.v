(** Proofs for C149. *)
From Coq Require Import Permutation.
From Verif Require Import Base BlockModel BlockSpec BlockProps BlockBind TxModel TxCodecSpec TxSpec IdsModel IdsSpec IdsProofs ChainSpec ChainProofs MerkleArraySpec.
From Verif Require MerkleArrayModel.
Local Open Scope N_scope.

Lemma light_sound table H m g hs g' bs i h p claims nodes proof : hash32 H ->
  round g = round g' -> upgrade g = upgrade g' -> linked table H m g hs -> linked table H m g' (map head bs) ->
  Forall BlockSpec.header_fits (g :: hs) -> Forall BlockSpec.header_fits (g' :: map head bs) ->
  round g + N.of_nat (length hs) < 2 ^ 64 -> N.of_nat (length bs) < 2 ^ 64 ->
  header_hash H (last hs g) = header_hash H (last (map head bs) g') ->
  Forall (block_fits table) bs -> Forall (fun b => contents_match_header table H b = Some true) bs ->
  nth_error hs i = Some h -> params_of table h = Some p -> payset_commit p = Merkle ->
  Forall (fun c => tx_fits (fst (snd c)) /\ stib_fits (snd (snd c))) claims -> NoDup (map fst claims) ->
  Forall (fun x => length x = 32%nat) proof -> Permutation nodes (map (claim_item H) claims) -> sorted_by_position nodes ->
  MerkleArrayModel.verify H (tx_root h) (map (claim_item H) claims) proof = Some (Ok tt) ->
  (exists b, nth_error bs i = Some b /\ head b = h /\ round h = round g + N.of_nat i + 1 /\
     let S := commit_strings table H b ++ flat_map (claim_strings H) claims ++ climb_strings H 65 nodes proof in
     (forall q t s, In (q, (t, s)) claims -> contains table b q t s) \/ collision_in H S S \/ zero_preimage_in H S) \/
  collision_in H (map header_rep (g :: hs)) (map header_rep (g' :: map head bs)).
Proof.
  intros HH Er Eu L L' F F' N1 N2 E BF CM Ei Ep Em Fc ND Fp P S V.
  destruct (chain_lemma table H m g g' hs (map head bs) Er Eu L L' F F' ltac:(lia) ltac:(rewrite map_length; lia) E) as [[_ ->]|C]; [left|right; exact C].
  rewrite nth_error_map in Ei. destruct (nth_error bs i) as [b|] eqn:Eb; [|discriminate]. assert (head b = h) as Eh by (cbn [option_map] in Ei; congruence).
  exists b. split; [reflexivity|]. split; [exact Eh|]. split.
  - refine (rounds_lemma table H m g (map head bs) i h L N1 _). rewrite nth_error_map, Eb. cbn [option_map]. congruence.
  - pose proof (nth_error_In _ _ Eb) as In1. rewrite Forall_forall in BF, CM. specialize (BF b In1). specialize (CM b In1). cbv beta in CM. subst h.
    exact (inclusion_sound table H b p claims nodes proof HH BF Ep Em CM Fc ND Fp P S V).
Qed.
