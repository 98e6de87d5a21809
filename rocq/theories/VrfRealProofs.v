(** Verifiable random functions over edwards25519: binding, byte forms, and credentials. *)
From Verif Require Import Base BaseFacts Digits VrfModel VrfSpec VrfProofs VrfBindSpec VrfBindProofs CurveModel Curve25519Spec Scheme25519Proofs Curve25519Proofs Points25519Proofs Real25519Proofs Transfer25519Proofs.
From Verif Require Import BasicsModel CommitteeModel CommitteeSpec CommitteeProofs.
Local Open Scope N_scope.
Opaque edwards_compress edwards_decompress edwards_add edwards_neg edwards_mul elligator_25519 base_point.

Lemma elligator_valid s : valid (elligator_25519 s).
Proof. apply valid_rep. exists (aelligator s). apply rep_elligator. Qed.
Lemma decoded_valid p g c s : decode edwards25519 p = Some (g, c, s) -> valid g.
Proof.
  unfold decode. intros E. destruct (decompress edwards25519 (firstn 32 p)) as [g'|] eqn:D; [|discriminate E].
  destruct (canonical _ _); [|discriminate E]. destruct (canonical _ _); [|discriminate E]. injection E as <- _ _. apply decompressed_valid in D. exact D.
Qed.
Lemma mul_valid n Q : valid Q -> valid (@smul edwards25519 n Q).
Proof. intros V. exact (proj1 (proj2 (proj2 (valid_closed Q Q (Z.of_N n) V V)))). Qed.
Lemma compressed_32 Q : valid Q -> length (edwards_compress Q) = 32%nat.
Proof. intros V. exact (proj1 (round_trip Q V)). Qed.

Lemma real_binding pk pk' p data data' o o' : length pk = 32%nat -> length pk' = 32%nat ->
  verify_bytes edwards25519 pk p data = Ok o -> verify_bytes edwards25519 pk' p data' = Ok o' ->
  (pk = pk' /\ data = data') \/
  (point_string pk data <> point_string pk' data' /\ same (point_of edwards25519 (point_string pk data)) (point_of edwards25519 (point_string pk' data'))) \/
  exists g c s U V U' V', decode edwards25519 p = Some (g, c, s) /\
    same_challenge edwards25519 c (challenge_string edwards25519 (point_of edwards25519 (point_string pk data)) g U V)
                                  (challenge_string edwards25519 (point_of edwards25519 (point_string pk' data')) g U' V').
Proof.
  intros L L' E E'. apply accepted_parts in E. apply accepted_parts in E'.
  destruct E as (y & g & c & s & _ & D & _ & A). destruct E' as (y' & g' & c' & s' & _ & D' & _ & A').
  rewrite D in D'. assert (g' = g /\ c' = c /\ s' = s) as (-> & -> & ->) by (split; [|split]; congruence).
  destruct (bytes_eqb_reflect (point_string pk data) (point_string pk' data')) as [E|E].
  - left. apply point_string_inj in E; [exact E|congruence].
  - set (P := point_of edwards25519 (point_string pk data)) in *. set (P' := point_of edwards25519 (point_string pk' data')) in *.
    assert (V : valid P) by apply elligator_valid. assert (V' : valid P') by apply elligator_valid.
    destruct (bytes_eqb_reflect (edwards_compress P) (edwards_compress P')) as [Ep|Ep].
    + right. left. split; [exact E|]. apply same_compress; assumption.
    + right. right. exists g, c, s. do 4 eexists. split; [exact D|]. split; [|split; [exact A|exact A']].
      intros Es. apply Ep. unfold challenge_string in Es. cbn [app] in Es. apply (f_equal (skipn 2)) in Es. cbn [skipn] in Es.
      apply app_inj_head in Es; [exact (proj1 Es)|]. change (length (edwards_compress P) = length (edwards_compress P')). rewrite !compressed_32; auto.
Qed.
Lemma real_output_point pk pk' p p' data data' o : verify_bytes edwards25519 pk p data = Ok o -> verify_bytes edwards25519 pk' p' data' = Ok o ->
  exists g c s g' c' s', decode edwards25519 p = Some (g, c, s) /\ decode edwards25519 p' = Some (g', c', s') /\
    (same (edwards_mul 8 g) (edwards_mul 8 g') \/
     collision_in (sha512 edwards25519) [output_string edwards25519 (edwards_mul 8 g)] [output_string edwards25519 (edwards_mul 8 g')]).
Proof.
  intros E E'. apply accepted_parts in E. apply accepted_parts in E'.
  destruct E as (y & g & c & s & _ & D & O & _). destruct E' as (y' & g' & c' & s' & _ & D' & O' & _).
  exists g, c, s, g', c', s'. split; [exact D|]. split; [exact D'|].
  change (@smul edwards25519 8 g) with (edwards_mul 8 g) in O. change (@smul edwards25519 8 g') with (edwards_mul 8 g') in O'.
  destruct (bytes_eqb_reflect (output_string edwards25519 (edwards_mul 8 g)) (output_string edwards25519 (edwards_mul 8 g'))) as [Eo|Eo].
  - left. apply same_compress; [apply (mul_valid 8), (decoded_valid _ _ _ _ D)|apply (mul_valid 8), (decoded_valid _ _ _ _ D')|].
    unfold output_string in Eo. cbn [app] in Eo. apply (f_equal (skipn 2)) in Eo. exact Eo.
  - right. exists (output_string edwards25519 (edwards_mul 8 g)), (output_string edwards25519 (edwards_mul 8 g')). repeat split; [left; reflexivity|left; reflexivity|exact Eo|congruence].
Qed.

(** Byte forms *)
Lemma real_forms proof g c s : length proof = 80%nat -> decode edwards25519 proof = Some (g, c, s) ->
  (encode_proof edwards25519 g c s = proof <->
   le_num (firstn 32 proof) mod 2 ^ 255 < 2 ^ 255 - 19 /\
   (le_num (firstn 32 proof) mod 2 ^ 255 = 1 \/ le_num (firstn 32 proof) mod 2 ^ 255 = 2 ^ 255 - 20 -> le_num (firstn 32 proof) < 2 ^ 255)).
Proof.
  intros L D. pose proof (canonical_scalars_lemma edwards25519 proof g c s L D) as S.
  assert (D' : edwards_decompress (firstn 32 proof) = Some g).
  { unfold decode in D. destruct (decompress edwards25519 (firstn 32 proof)) as [g'|] eqn:D'; [|discriminate D].
    destruct (canonical _ _); [|discriminate D]. destruct (canonical _ _); [|discriminate D]. injection D as <- _ _. exact D'. }
  assert (L32 : length (firstn 32 proof) = 32%nat) by (rewrite firstn_length; lia).
  rewrite <- (real_canonical (firstn 32 proof) g L32 D'). unfold encode_proof. rewrite <- S.
  change (compress edwards25519 g) with (edwards_compress g). split; intros E.
  - apply (f_equal (firstn 32)) in E. rewrite firstn_app, (compressed_32 g (decompressed_valid _ _ D')), Nat.sub_diag, firstn_O, app_nil_r in E.
    rewrite firstn_all2 in E by (rewrite (compressed_32 g (decompressed_valid _ _ D')); lia). exact E.
  - rewrite E. apply firstn_skipn.
Qed.

(** Credentials *)
Lemma real_credential cdf H proto seed sel mem : mem_selector mem = sel ->
  selection_id (mem_data mem) = public_key (from_seed edwards25519 seed) ->
  total_money mem <= 2 ^ 64 -> totals_ok (voting_stake (mem_data mem)) (total_money mem) (committee_size sel proto) ->
  (exists c, verify cdf edwards25519 H proto (new_credential edwards25519 H (from_seed edwards25519 seed) sel) mem = Ok c) \/
  verify cdf edwards25519 H proto (new_credential edwards25519 H (from_seed edwards25519 seed) sel) mem = Err ZeroWeight.
Proof.
  intros Es Ek Hb T. unfold new_credential. destruct (real_completeness seed (H (sel_rep sel))) as [out [_ V]].
  set (pr := prove_bytes edwards25519 (from_seed edwards25519 seed) (H (sel_rep sel))) in *.
  assert (O : output_of edwards25519 H mem pr = Ok out) by (unfold output_of; rewrite Es, Ek; exact V).
  destruct (verify cdf edwards25519 H proto pr mem) as [c|[|]|] eqn:E; [eauto| |auto|].
  - apply (verify_err cdf edwards25519 H proto pr mem Hb) in E. destruct E as [e E]. congruence.
  - apply (verify_panic cdf edwards25519 H proto pr mem Hb) in E. destruct E as [E|[_ E]]; [congruence|]. subst sel. contradiction.
Qed.
