(** Property C144: a participation from its generation to its last round, with the primitives the code uses. *)
From Verif Require Import Base Scheme MsgpackModel ConsensusModel BasicsModel OtsModel AccountModel AccountSpec CurveModel Curve25519Spec LifetimeSpec LifetimeProofs.
From Verif Require TxModel VrfModel CommitteeModel CommitteeSpec.
Local Open Scope N_scope.

(** C144.  Keys are made and stored, old keys are deleted any number of times, and the program restarts.  What is
    then read from the store makes the registration it made at the start, naming the keys [k], and the registration is
    well formed; votes for every round not yet passed verify under the registered key (unless a signature was made
    with a zero nonce), those for passed rounds do not, and the credentials are accepted under the registered key. *)
Theorem c144_lifetime :
  forall md proto st parent first last dilution master rng vrf_seed cs,
  interval_ok first last dilution -> length parent = 32%nat -> length master = 32%nat -> length vrf_seed = 32%nat -> (forall i, length (rng i) = 32%nat) ->
  deletions_ok dilution cs ->
  exists p st1 p' st2 k,
    fill_db ed25519_strict md st parent first last dilution master rng (VrfModel.from_seed edwards25519 vrf_seed) None = (st1, Ok p) /\
    age ed25519_strict md proto cs p st1 = Some (p', st2) /\
    restore ed25519_strict on_curve st2 = Ok p' /\
    (forall fee fv lv lease, let t := generate_registration_transaction p' fee fv lv lease in
       t = generate_registration_transaction p fee fv lv lease /\ TxModel.sender (TxModel.tx_head t) = parent /\ TxModel.fields t = TxModel.Keyreg k /\
       forall H md' proto' spec, last <> 0 -> first <= lv + 1 -> lv + 1 < two64 -> TxModel.check_fields H md' spec proto' t = Ok tt) /\
    TxModel.vote_first k = first /\ TxModel.vote_last k = last /\
    (forall r, first <= r <= last ->
       (Forall (fun c => fst c <= r) cs -> forall msg fresh, exists s,
          OtsModel.sign ed25519_strict md (voting p') (round_id r (TxModel.kr_key_dilution k)) msg fresh = Some s /\
          (OtsModel.verify ed25519_strict s (round_id r (TxModel.kr_key_dilution k)) msg (TxModel.vote_pk k) = true \/ zero_nonce s)) /\
       (Exists (fun c => r < fst c) cs -> forall msg fresh, exists s,
          OtsModel.sign ed25519_strict md (voting p') (round_id r (TxModel.kr_key_dilution k)) msg fresh = Some s /\
          OtsModel.verify ed25519_strict s (round_id r (TxModel.kr_key_dilution k)) msg (TxModel.vote_pk k) = false)) /\
    (forall cdf H proto' sel mem, CommitteeModel.mem_selector mem = sel ->
       selection_id (CommitteeModel.mem_data mem) = TxModel.selection_pk k ->
       CommitteeModel.total_money mem <= 2 ^ 64 ->
       CommitteeSpec.totals_ok (BasicsModel.voting_stake (CommitteeModel.mem_data mem)) (CommitteeModel.total_money mem) (CommitteeModel.committee_size sel proto') ->
       (exists c, CommitteeModel.verify cdf edwards25519 H proto' (CommitteeModel.new_credential edwards25519 H (vrf p') sel) mem = Ok c) \/
       CommitteeModel.verify cdf edwards25519 H proto' (CommitteeModel.new_credential edwards25519 H (vrf p') sel) mem = Err CommitteeModel.ZeroWeight).
Proof. exact lifetime. Qed.
Print Assumptions c144_lifetime.

(** ** A concrete case *)
(** Keys for the rounds 1000 and 1001, two per batch; those for round 1000 are deleted, and the rest is read back.
    A vote for round 1001 verifies under the key of the registration; one for round 1000 does not. *)
Definition ex_seed (b : byte) : bytes := repeat b 32.
Example c144_interval : interval_ok 1000 1001 2.
Proof. unfold interval_ok, u64. repeat split; try reflexivity; try (intros [E _]; discriminate E); intros E; discriminate E. Qed.
Example c144_case : deletions_ok 2 [(1001, fun _ => ex_seed x05)].
Proof. repeat constructor. intros [E _]. discriminate E. Qed.
Definition life : bool := Eval vm_compute in
  match fill_db ed25519_strict Debug empty_store (ex_seed x01) 1000 1001 2 (ex_seed x02) (fun _ => ex_seed x03) (VrfModel.from_seed edwards25519 (ex_seed x04)) None with
  | (st1, Ok p) =>
      match age ed25519_strict Debug v7_base [(1001, fun _ => ex_seed x05)] p st1 with
      | Some (_, st2) =>
          match restore ed25519_strict on_curve st2 with
          | Ok q =>
              match TxModel.fields (generate_registration_transaction q 1 990 1100 (repeat x00 32)) with
              | TxModel.Keyreg k =>
                  match sign ed25519_strict Debug (voting q) (mkId 500 1) (str "vote") (ex_seed x06), sign ed25519_strict Debug (voting q) (mkId 500 0) (str "vote") (ex_seed x06) with
                  | Some s, Some s' => verify ed25519_strict s (mkId 500 1) (str "vote") (TxModel.vote_pk k) && negb (verify ed25519_strict s' (mkId 500 0) (str "vote") (TxModel.vote_pk k))
                  | _, _ => false
                  end
              | _ => false
              end
          | _ => false
          end
      | None => false
      end
  | _ => false
  end.
Example c144_life : life = true.
Proof. reflexivity. Qed.
