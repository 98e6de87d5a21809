(** C144: the registration as a whole. *)
From Verif Require Import Base ConsensusModel Scheme TxModel TxSpec OtsModel AccountModel AccountSpec CurveModel Curve25519Spec LifetimeSpec LifetimeProps RegSpec RegLifeProofs.
From Verif Require VrfModel TxProps.
Local Open Scope N_scope.

(** C144.  After generation and any deletions the registration is well formed exactly with acceptable choices: enough fee, a window
    of allowed length that ends no earlier than right before the keys start, an account that is neither special nor
    missing, and a lease only where there are leases; whatever genesis hash is put into it. *)
Theorem c144_well_formed md proto st par first last dilution master rng vrf_seed cs p st1 p' st2 fee fv lv lease hash H m spec proto' :
  interval_ok first last dilution -> length par = 32%nat -> length master = 32%nat -> length vrf_seed = 32%nat -> (forall i, length (rng i) = 32%nat) ->
  deletions_ok dilution cs -> last <> 0 ->
  fill_db ed25519_strict md st par first last dilution master rng (VrfModel.from_seed edwards25519 vrf_seed) None = (st1, Ok p) ->
  age ed25519_strict md proto cs p st1 = Some (p', st2) -> limits_fit proto' -> lv < 2 ^ 64 - 1 ->
  is_well_formed H m spec proto' (naming hash (generate_registration_transaction p' fee fv lv lease)) = Ok tt <->
  (enable_fee_pooling proto' = true \/ min_tx_fee proto' < fee) /\ fv <= lv <= fv + max_tx_life proto' /\
  (enable_keyreg_coherency_check proto' = true -> first <= lv + 1) /\
  par <> rewards_pool spec /\ par <> zero32 /\ (lease <> zero32 -> support_transaction_leases proto' = true).
Proof. exact (life_well_formed md proto st par first last dilution master rng vrf_seed cs p st1 p' st2 fee fv lv lease hash H m spec proto'). Qed.
Print Assumptions c144_well_formed.

(** Keys for two rounds, after the first of which the old ones are deleted; a registration for protocol V30. *)
Example c144_registered : exists p st1 p' st2,
  fill_db ed25519_strict Debug empty_store TxProps.alice 1000 1001 2 (ex_seed x01) (fun _ => ex_seed x02) (VrfModel.from_seed edwards25519 (ex_seed x03)) None = (st1, Ok p) /\
  age ed25519_strict Debug coherent_params [(1001, fun _ => ex_seed x05)] p st1 = Some (p', st2) /\
  is_well_formed Toy.toy_hash Debug TxProps.ex_spec coherent_params (generate_registration_transaction p' 2000 990 1004 zero32) = Ok tt /\
  is_well_formed Toy.toy_hash Debug TxProps.ex_spec coherent_params (generate_registration_transaction p' 2000 900 998 zero32) <> Ok tt.
Proof.
  destruct (c144_lifetime Debug coherent_params empty_store TxProps.alice 1000 1001 2 (ex_seed x01) (fun _ => ex_seed x02) (ex_seed x03) [(1001, fun _ => ex_seed x05)]
    c144_interval eq_refl eq_refl eq_refl (fun _ => eq_refl) c144_case) as (p & st1 & p' & st2 & k & F & A & _).
  exists p, st1, p', st2. split; [exact F|]. split; [exact A|].
  pose proof (fun fee fv lv => c144_well_formed Debug coherent_params empty_store TxProps.alice 1000 1001 2 (ex_seed x01) (fun _ => ex_seed x02) (ex_seed x03) [(1001, fun _ => ex_seed x05)]
    p st1 p' st2 fee fv lv zero32 zero32 Toy.toy_hash Debug TxProps.ex_spec coherent_params c144_interval eq_refl eq_refl eq_refl (fun _ => eq_refl) c144_case
    ltac:(discriminate) F A (TxProps.c42_limits V30 coherent_params eq_refl)) as W.
  split.
  - apply (W 2000 990 1004); [reflexivity|]. split; [left; reflexivity|]. split; [split; vm_compute; discriminate|]. split; [intros _; vm_compute; discriminate|].
    split; [vm_compute; discriminate|]. split; [vm_compute; discriminate|]. intros B. exfalso. apply B. reflexivity.
  - intros B. apply (W 2000 900 998) in B; [|reflexivity]. destruct B as (_ & _ & B & _). specialize (B eq_refl). vm_compute in B. apply B. reflexivity.
Qed.
