(** A participation from its generation to its last round, with the primitives the code uses. *)
From Verif Require Import Base BaseFacts Digits Scheme MsgpackModel ConsensusModel BasicsModel OtsModel OtsSpec OtsProofs AccountModel AccountSpec AccountProofs ManagerProofs.
From Verif Require Import CurveModel Curve25519Spec Points25519Proofs Real25519Proofs Scheme25519Proofs Curve25519Proofs VrfRealProofs LifetimeSpec.
From Verif Require TxModel VrfModel CommitteeModel CommitteeSpec.
Local Open Scope N_scope.
Opaque ed_check ed_strict ed_public ed_sign edwards_compress edwards_decompress edwards_add edwards_neg edwards_mul elligator_25519 base_point.

Lemma identity_point : on_curve default_key = true.
Proof. vm_compute. reflexivity. Qed.
Lemma key_length seed : length (ed_public seed) = 32%nat.
Proof. rewrite public_point. apply acompress_length. Qed.
Lemma real_sizes : scheme_sizes ed25519_strict on_curve.
Proof.
  split; [|split; [|exact identity_point]].
  - intros s _. cbn [public ed25519_strict]. split; [apply key_length|]. unfold on_curve. destruct (real_key s) as (_ & Q & D & _). rewrite D. reflexivity.
  - exact sign_length.
Qed.
Lemma vrf_key_eq seed : VrfModel.public_key (VrfModel.from_seed edwards25519 seed) = ed_public seed.
Proof. reflexivity. Qed.
Lemma null_vote id msg key : OtsModel.verify ed25519_strict null_ots id msg key = false.
Proof.
  unfold OtsModel.verify. cbn [check ed25519_strict null_ots o_sig o_pk1_sig o_pk2_sig o_pk o_pk2].
  rewrite ?null_refused, ?andb_false_r. reflexivity.
Qed.
Lemma lifetime md proto st par f l d master rng seed cs :
  interval_ok f l d -> length par = 32%nat -> length master = 32%nat -> length seed = 32%nat -> (forall i, length (rng i) = 32%nat) ->
  deletions_ok d cs ->
  exists p st1 p' st2 k,
    fill_db ed25519_strict md st par f l d master rng (VrfModel.from_seed edwards25519 seed) None = (st1, Ok p) /\
    age ed25519_strict md proto cs p st1 = Some (p', st2) /\
    restore ed25519_strict on_curve st2 = Ok p' /\
    (forall fee fv lv lease, let t := generate_registration_transaction p' fee fv lv lease in
       t = generate_registration_transaction p fee fv lv lease /\ TxModel.sender (TxModel.tx_head t) = par /\ TxModel.fields t = TxModel.Keyreg k /\
       forall H md' proto' spec, l <> 0 -> f <= lv + 1 -> lv + 1 < two64 -> TxModel.check_fields H md' spec proto' t = Ok tt) /\
    TxModel.vote_first k = f /\ TxModel.vote_last k = l /\
    (forall r, f <= r <= l ->
       (Forall (fun c => fst c <= r) cs -> forall msg fresh, exists s,
          OtsModel.sign ed25519_strict md (voting p') (round_id r (TxModel.kr_key_dilution k)) msg fresh = Some s /\
          (OtsModel.verify ed25519_strict s (round_id r (TxModel.kr_key_dilution k)) msg (TxModel.vote_pk k) = true \/ zero_nonce s)) /\
       (Exists (fun c => r < fst c) cs -> forall msg fresh, exists s,
          OtsModel.sign ed25519_strict md (voting p') (round_id r (TxModel.kr_key_dilution k)) msg fresh = Some s /\
          OtsModel.verify ed25519_strict s (round_id r (TxModel.kr_key_dilution k)) msg (TxModel.vote_pk k) = false)) /\
    (forall cdf H proto' sel mem, CommitteeModel.mem_selector mem = sel ->
       selection_id (CommitteeModel.mem_data mem) = TxModel.selection_pk k ->
       CommitteeModel.total_money mem <= 2 ^ 64 ->
       CommitteeSpec.totals_ok (BasicsModel.voting_stake (CommitteeModel.mem_data mem)) (CommitteeModel.total_money mem) (CommitteeModel.committee_size sel proto') ->
       (exists c, CommitteeModel.verify cdf edwards25519 H proto' (CommitteeModel.new_credential edwards25519 H (vrf p') sel) mem = Ok c) \/
       CommitteeModel.verify cdf edwards25519 H proto' (CommitteeModel.new_credential edwards25519 H (vrf p') sel) mem = Err CommitteeModel.ZeroWeight).
Proof.
  intros (Hfl & Hl & Hd & Hn & Hb) Lp Lm Ls Lr F.
  assert (Hu : u64 d). { unfold u64, two64. change (2 ^ 32) with 4294967296 in Hd. lia. }
  set (vk := VrfModel.from_seed edwards25519 seed).
  destruct (fill_defined ed25519_strict md st par f l d master rng vk Hl Hfl ltac:(lia) Hn) as (p & E).
  set (st1 := fst (persist ed25519_strict st p None)) in *. clearbody st1.
  assert (F1 : Forall (fun c => round_ok (fst c) d) cs) by (eapply Forall_impl; [|exact F]; cbn; tauto).
  assert (F2 : Forall (fun c => u64 (fst c) /\ forall o, length (snd c o) = 32%nat) cs) by (eapply Forall_impl; [|exact F]; unfold round_ok; cbn; tauto).
  destruct (coverage_any ed25519_strict md st par f l d master rng vk None st1 p proto cs Hl Hu Hn E F1) as (p' & st2 & A & P1 & P2 & P3 & P4 & P5 & P6 & C).
  assert (R : restore ed25519_strict on_curve st2 = Ok p').
  { apply (stored_lemma ed25519_strict on_curve real_sizes md st par f l d master rng vk st1 p proto cs p' st2); try assumption; [lia|..].
    unfold vk. rewrite vrf_key_eq. apply key_length. }
  destruct (fill_ok ed25519_strict md st par f l d master rng vk None st1 p Hl E Hn) as (s & eks & G & Ep & _).
  assert (V : verifier (voting p') = ed_public master).
  { rewrite P6, Ep. cbn [voting]. unfold generate in G. destruct (make_batches _ _ _ _ _ _); [|discriminate G]. injection G as <-. reflexivity. }
  assert (Vp : verifier (voting p) = ed_public master) by congruence.
  exists p, st1, p', st2, (TxModel.mkKeyreg (ed_public master) (VrfModel.public_key vk) f l d false).
  split; [exact E|]. split; [exact A|]. split; [exact R|]. split; [|split; [reflexivity|split; [reflexivity|split]]].
  - intros fee fv lv lease. cbv zeta. split; [|split; [|split]].
    + unfold generate_registration_transaction. rewrite Vp, V, P1, P2, P3, P4, P5, Ep. reflexivity.
    + exact P1.
    + unfold generate_registration_transaction. rewrite V, P2, P3, P4, P5. reflexivity.
    + intros H md' proto' spec Hz Hv Hw. apply (registration_lemma H p' fee fv lv lease md' proto' spec); rewrite ?P3, ?P4, ?P5, ?P2, ?V; try assumption; [lia|..].
      * apply key_properties.
      * unfold vk. rewrite vrf_key_eq. apply key_properties.
  - intros r Hr. cbn [TxModel.kr_key_dilution TxModel.vote_pk]. destruct (C r Hr) as [C1 C2]. rewrite <- P5, <- V. split.
    + intros X msg fresh. destruct (C1 X msg fresh) as (o & S & K). exists o. split; [exact S|].
      destruct K as [K|K]; [left; exact K|right; apply refuted_nonce; exact K].
    + intros X msg fresh. exists null_ots. split; [apply C2; exact X|apply null_vote].
  - intros cdf H proto' sel mem Es Ek T1 T2. rewrite P2. apply (real_credential cdf H proto' seed sel mem Es Ek T1 T2).
Qed.
