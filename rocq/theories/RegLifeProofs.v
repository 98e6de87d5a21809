(** The registration of a participation with the real primitives is well formed with acceptable choices: proofs. *)
From Verif Require Import Base BaseFacts Toy ConsensusModel Scheme AddressModel TxModel TxSpec OtsModel AccountModel AccountSpec CurveModel LifetimeSpec LifetimeProofs RegSpec RegProofs.
From Verif Require VrfModel.
Local Open Scope N_scope.

Definition coherent_params : params := match lookup V30 built_in with Some p => p | None => v7_base end.
Lemma coherent_registers H m spec p fee first last lease : part_last p <> 0 ->
  check_fields H m spec coherent_params (generate_registration_transaction p fee first last lease) = Ok tt -> registers p.
Proof.
  intros L. unfold generate_registration_transaction, check_fields. cbn [fields tx_head nonparticipation].
  change (enable_keyreg_coherency_check coherent_params) with true. cbv iota.
  destruct (check_coherency m _ _) as [[]| |] eqn:E; cbn [bind]; try discriminate. intros _. revert E. unfold check_coherency.
  cbn [vote_first vote_last vote_pk selection_pk kr_key_dilution last_valid].
  destruct (N.ltb_spec (part_last p) (part_first p)) as [A|A]; [discriminate|].
  destruct (N.eqb_spec (part_dilution p) 0) as [D|D].
  - destruct (negb _); [discriminate|]. destruct (N.eqb_spec (part_last p) 0) as [Z|Z]; [contradiction|]. cbn [negb]. rewrite orb_true_r. discriminate.
  - destruct (bytes_eqb (verifier (voting p)) default_key) eqn:V; [cbn [negb andb]; rewrite andb_false_r; cbn; discriminate|].
    destruct (bytes_eqb (VrfModel.public_key (vrf p)) zero32) eqn:Q; [cbn [negb andb]; cbn; discriminate|].
    intros _. split; [exact A|]. split; [exact L|]. split; [exact D|]. split; [apply bytes_eqb_neq; exact V|apply bytes_eqb_neq; exact Q].
Qed.

Lemma life_registers md proto st par first last dilution master rng vrf_seed cs p st1 p' st2 :
  interval_ok first last dilution -> length par = 32%nat -> length master = 32%nat -> length vrf_seed = 32%nat -> (forall i, length (rng i) = 32%nat) ->
  deletions_ok dilution cs -> last <> 0 ->
  fill_db ed25519_strict md st par first last dilution master rng (VrfModel.from_seed edwards25519 vrf_seed) None = (st1, Ok p) ->
  age ed25519_strict md proto cs p st1 = Some (p', st2) -> registers p' /\ parent p' = par /\ part_first p' = first /\ part_last p' = last.
Proof.
  intros I Lp Lm Lv Lr D NZ F A.
  destruct (lifetime md proto st par first last dilution master rng vrf_seed cs I Lp Lm Lv Lr D) as (q & s1 & q' & s2 & k & F' & A' & _ & T & V1 & V2 & _).
  rewrite F in F'. injection F' as <- <-. rewrite A in A'. injection A' as <- <-.
  assert (Hf : first <= (2 ^ 64 - 2) + 1).
  { destruct I as (I1 & I2 & _). unfold u64, max64, two64 in I2. change (2 ^ 64) with 18446744073709551616 in *. lia. }
  destruct (T 0 0 (2 ^ 64 - 2) zero32) as (_ & S & K & C).
  specialize (C toy_hash Debug coherent_params (mkSpecial zero32 zero32) NZ Hf (eq_refl : 2 ^ 64 - 2 + 1 < two64)).
  cbn in K. injection K as K. subst k. cbn in V1, V2, S.
  split; [|split; [exact S|split; [exact V1|exact V2]]].
  apply (coherent_registers toy_hash Debug (mkSpecial zero32 zero32) p' 0 0 (2 ^ 64 - 2) zero32); [rewrite V2; exact NZ|exact C].
Qed.
Lemma life_well_formed md proto st par first last dilution master rng vrf_seed cs p st1 p' st2 fee fv lv lease hash H m spec proto' :
  interval_ok first last dilution -> length par = 32%nat -> length master = 32%nat -> length vrf_seed = 32%nat -> (forall i, length (rng i) = 32%nat) ->
  deletions_ok dilution cs -> last <> 0 ->
  fill_db ed25519_strict md st par first last dilution master rng (VrfModel.from_seed edwards25519 vrf_seed) None = (st1, Ok p) ->
  age ed25519_strict md proto cs p st1 = Some (p', st2) -> limits_fit proto' -> lv < 2 ^ 64 - 1 ->
  is_well_formed H m spec proto' (naming hash (generate_registration_transaction p' fee fv lv lease)) = Ok tt <->
  (enable_fee_pooling proto' = true \/ min_tx_fee proto' < fee) /\ fv <= lv <= fv + max_tx_life proto' /\
  (enable_keyreg_coherency_check proto' = true -> first <= lv + 1) /\
  par <> rewards_pool spec /\ par <> zero32 /\ (lease <> zero32 -> support_transaction_leases proto' = true).
Proof.
  intros I Lp Lm Lv Lr D NZ F A Lf Ll.
  destruct (life_registers md proto st par first last dilution master rng vrf_seed cs p st1 p' st2 I Lp Lm Lv Lr D NZ F A) as (R & P & F1 & _).
  rewrite (reg_well_formed p' fee fv lv lease hash H m spec proto' R Lf Ll). unfold acceptable. rewrite P, F1. reflexivity.
Qed.
