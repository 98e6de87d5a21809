(** Properties C58 to C61: sortition and credentials. *)
From Coq Require Import SpecFloat Reals.
From Flocq Require Import Core BinarySingleNaN.
From Verif Require Import Base BaseFacts Toy MsgpackModel ConsensusModel BasicsModel CommitteeModel CommitteeSpec FloatFacts CommitteeProofs ToyCurve Ed25519.
From Verif Require VrfModel VrfSpec VrfProofs.
Local Open Scope N_scope.

(** C58.  The weight is the first number of sub-users whose cumulative probability reaches
    the ratio of hash to greatest hash, or the money if none below it does. *)
Theorem c58_quantile :
  forall (cdf : f64 -> N -> N -> f64) money total expected hash weight,
  select cdf money total expected hash = Some weight ->
  least_or money (fun i => reaches (cdf (f64_div expected (u64_as_f64 total)) money i) (ratio_to_f64 (be_val hash) (2 ^ 256 - 1))) weight.
Proof. exact quantile_lemma. Qed.
Print Assumptions c58_quantile.

(** With a cumulative distribution that does not decrease, the weight splits the sub-user
    counts: below it the ratio is not reached, from it on it is. *)
Theorem c58_threshold :
  forall (cdf : f64 -> N -> N -> f64) money total expected hash weight,
  select cdf money total expected hash = Some weight ->
  (forall i j r, i <= j -> j < money -> reaches (cdf (f64_div expected (u64_as_f64 total)) money i) r -> reaches (cdf (f64_div expected (u64_as_f64 total)) money j) r) ->
  forall i, i < money -> (weight <= i <-> reaches (cdf (f64_div expected (u64_as_f64 total)) money i) (ratio_to_f64 (be_val hash) (2 ^ 256 - 1))).
Proof. exact quantile_monotone. Qed.
Print Assumptions c58_threshold.

(** The ratio is the float next to the exact quotient, so between 0 and 1. *)
Theorem c58_ratio :
  forall hash, length hash = 32%nat ->
  exists b : bf, ratio_to_f64 (be_val hash) (2 ^ 256 - 1) = b2sf b /\ is_finite b = true /\
    b2r b = rnd (IZR (Z.of_N (be_val hash)) / IZR (Z.of_N (2 ^ 256 - 1))).
Proof. exact (fun hash L => ratio_value (be_val hash) max_output max_output_pos (output_bound hash L)). Qed.
Print Assumptions c58_ratio.

(** A greater hash never gives a smaller weight. *)
Theorem c58_monotone :
  forall (cdf : f64 -> N -> N -> f64) money total expected hash hash' weight weight',
  (forall p n k, is_f64 (cdf p n k)) -> length hash = 32%nat -> length hash' = 32%nat -> be_val hash <= be_val hash' ->
  select cdf money total expected hash = Some weight -> select cdf money total expected hash' = Some weight' -> weight <= weight'.
Proof. exact select_monotone. Qed.
Print Assumptions c58_monotone.

(** Selection is defined whenever the expected size is at most the total. *)
Theorem c58_defined :
  forall (cdf : f64 -> N -> N -> f64) money total expected hash,
  0 < total -> expected <= total -> total <= 2 ^ 64 -> exists weight, select cdf money total (u64_as_f64 expected) hash = Some weight.
Proof. exact select_defined. Qed.
Print Assumptions c58_defined.

(** C59.  When a credential is returned, and which. *)
Theorem c59_accepts_partial :
  forall cdf C H proto proof mem c, total_money mem <= 2 ^ 64 ->
  verify cdf C H proto proof mem = Ok c <->
  exists out w, output_of C H mem proof = Ok out /\
    totals_ok (voting_stake (mem_data mem)) (total_money mem) (committee_size (mem_selector mem) proto) /\
    voting_stake (mem_data mem) <> 0 /\ w <> 0 /\
    select cdf (voting_stake (mem_data mem)) (total_money mem) (u64_as_f64 (committee_size (mem_selector mem) proto)) (deciding_hash H proto out (mem_addr mem)) = Some w /\
    c = mkCredential w (deciding_hash H proto out (mem_addr mem)) (credential_domain_separation_enabled proto)
          (if credential_domain_separation_enabled proto then Some (mkHashable out (mem_addr mem) 0) else None) proof.
Proof. exact verify_ok. Qed.
Print Assumptions c59_accepts_partial.

Theorem c59_weight :
  forall cdf C H proto proof mem c, total_money mem <= 2 ^ 64 -> verify cdf C H proto proof mem = Ok c ->
  0 < weight c /\ weight c <= voting_stake (mem_data mem) /\ selected c = true /\ complete c.
Proof. exact verify_weight. Qed.
Print Assumptions c59_weight.

(** A proof refused by the VRF is refused with that error, and only then. *)
Theorem c59_refused :
  forall cdf C H proto proof mem, total_money mem <= 2 ^ 64 ->
  (verify cdf C H proto proof mem = Err VrfVerifyFailed <-> exists e, output_of C H mem proof = Err e).
Proof. exact verify_err. Qed.
Print Assumptions c59_refused.

(** The panics: impossible totals, and the VRF's own panic. *)
Theorem c59_panics_partial :
  forall cdf C H proto proof mem, total_money mem <= 2 ^ 64 ->
  verify cdf C H proto proof mem = Panic <->
  output_of C H mem proof = Panic \/
  (exists out, output_of C H mem proof = Ok out) /\ ~ totals_ok (voting_stake (mem_data mem)) (total_money mem) (committee_size (mem_selector mem) proto).
Proof. exact verify_panic. Qed.
Print Assumptions c59_panics_partial.

(** A member's own credential is accepted unless the weight is zero. *)
Theorem c59_own_credential :
  forall cdf C H proto seed sel mem, VrfSpec.curve_ok C -> mem_selector mem = sel ->
  selection_id (mem_data mem) = VrfModel.public_key (VrfModel.from_seed C seed) ->
  total_money mem <= 2 ^ 64 -> totals_ok (voting_stake (mem_data mem)) (total_money mem) (committee_size sel proto) ->
  (exists c, verify cdf C H proto (new_credential C H (VrfModel.from_seed C seed) sel) mem = Ok c) \/
  verify cdf C H proto (new_credential C H (VrfModel.from_seed C seed) sel) mem = Err ZeroWeight.
Proof. exact own_credential. Qed.
Print Assumptions c59_own_credential.

(** ** Concrete members *)
(** A distribution with one step: a quarter below three, a half from there on. *)
Definition quarter : f64 := S754_finite false 4503599627370496 (-54).
Definition half : f64 := S754_finite false 4503599627370496 (-53).
Definition ex_cdf (p : f64) (n k : N) : f64 := if k <? 3 then quarter else half.
Definition ex_selector : selector := mkSelector (str "AS" ++ repeat x05 20) (fun _ => 500).
Definition ex_vrf : VrfModel.keypair := VrfModel.from_seed toy_curve (str "b seed").
Definition ex_data (algos : N) (key : bytes) : account := mkAccount Online algos 0 0 [] key 0 0 0 [] [] [] [] [] (mkSchema 0 0) 0.
Definition ex_mem (algos : N) : membership := mkMembership (ex_data algos (VrfModel.public_key ex_vrf)) (repeat x2a 32) ex_selector 1000.
Definition ex_own : bytes := new_credential toy_curve toy_hash ex_vrf ex_selector.
Definition separated : params := set_credential_domain_separation_enabled true v7_base.
Definition weight_of (o : outcome cred_error credential) : option N := match o with Ok c => Some (weight c) | _ => None end.

(** C59 says that only impossible totals panic.  A selection key that is no point of the
    curve panics as well, whatever the totals are. *)
Theorem c59_panics_refuted :
  exists proto proof mem, length proof = 80%nat /\
  totals_ok (voting_stake (mem_data mem)) (total_money mem) (committee_size (mem_selector mem) proto) /\
  forall cdf H, verify cdf ed25519 H proto proof mem = Panic.
Proof.
  exists v7_base, ((x01 :: repeat x00 31) ++ repeat x00 48), (mkMembership (ex_data 10 (x02 :: repeat x00 31)) (repeat x2a 32) ex_selector 1000).
  split; [reflexivity|]. split; [unfold totals_ok; cbn; lia|]. intros cdf H. unfold verify.
  match goal with |- context [VrfModel.verify_bytes ?a ?b ?c ?d] => assert (E : VrfModel.verify_bytes a b c d = Panic) end; [|rewrite E; reflexivity].
  unfold VrfModel.verify_bytes.
  match goal with |- context [VrfModel.decode ?a ?b] => destruct (VrfModel.decode a b) as [[[g c] s]|] eqn:D end; [|vm_compute in D; discriminate].
  cbv zeta. match goal with |- context [VrfModel.decompress ?a ?b] => destruct (VrfModel.decompress a b) eqn:D2 end; [|reflexivity]. vm_compute in D2. discriminate.
Qed.
Print Assumptions c59_panics_refuted.

(** C60 asks for the least of the hashes with counters 1 to w.  The last counter is left
    out: credentials of weight one all rank as zero, whatever their hash. *)
Theorem c60_weight_one_refuted :
  forall H c, weight c = 1 -> snd (lowest_output H c) = Some 0.
Proof. exact (fun H c E => f_equal snd (lowest_small H c ltac:(lia))). Qed.
Print Assumptions c60_weight_one_refuted.

Definition ex_cred (w : N) : credential := mkCredential w (x8a :: repeat x33 31) false None [].
Theorem c60_counters_refuted :
  exists H c m, hash32 H /\ complete c /\ weight c = 2 /\ snd (lowest_output H c) = Some m /\ ~ minimum_of (counter_value H c) 1 (weight c) m.
Proof.
  exists (fun s => match be_val (firstn 8 (skipn 32 s)) with 2 => repeat x00 32 | _ => repeat x01 32 end), (ex_cred 2), (be_val (repeat x01 32)).
  split; [intros s; destruct (be_val _) as [|[p|[p|p|]|]]; reflexivity|]. split; [intros D; discriminate|]. split; [reflexivity|].
  split; [vm_compute; reflexivity|]. intros [_ M]. specialize (M 2 ltac:(cbn; lia)). vm_compute in M. apply M. reflexivity.
Qed.
Print Assumptions c60_counters_refuted.

(** What holds: from weight two on, the least of the hashes with counters 1 to w - 1. *)
Theorem c60_lowest_partial :
  forall H c, complete c -> 2 <= weight c ->
  exists c' m, lowest_output H c = (c', Some m) /\ minimum_of (counter_value H c) 1 (weight c - 1) m.
Proof. exact lowest_lemma. Qed.
Print Assumptions c60_lowest_partial.

(** Computing the rank again on the changed credential gives the same. *)
Theorem c60_stable :
  forall H c c' m, complete c -> lowest_output H c = (c', Some m) -> snd (lowest_output H c') = Some m.
Proof. exact lowest_stable. Qed.
Print Assumptions c60_stable.

(** The digest shown is that number in 32 bytes; it never panics. *)
Theorem c60_digest :
  forall H c, hash32 H -> complete c -> exists c' m, lowest_output H c = (c', Some m) /\ lowest_output_digest H c = (c', Some (be 32 m)).
Proof. exact digest_lemma. Qed.
Print Assumptions c60_digest.

(** Credentials are compared by that number. *)
Theorem c60_compare :
  forall H c d, complete c -> complete d ->
  exists c' d' a b, lowest_output H c = (c', Some a) /\ lowest_output H d = (d', Some b) /\ lt H c d = (c', d', Some (a <? b)).
Proof. exact lt_lemma. Qed.
Print Assumptions c60_compare.

(** C61.  With domain separation all credentials of one member have the same hash, for every
    round, seed and VRF output, with any hash function. *)
Theorem c61_output_refuted :
  forall cdf C H proto proof proof' mem mem' c c', total_money mem <= 2 ^ 64 -> total_money mem' <= 2 ^ 64 ->
  credential_domain_separation_enabled proto = true -> mem_addr mem = mem_addr mem' ->
  verify cdf C H proto proof mem = Ok c -> verify cdf C H proto proof' mem' = Ok c' -> vrf_out c = vrf_out c'.
Proof. exact separated_ignores_output. Qed.
Print Assumptions c61_output_refuted.

(** Without it, equal hashes mean equal VRF outputs and members, or a hash collision. *)
Theorem c61_output_partial :
  forall cdf C H proto proof proof' mem mem' c c', VrfSpec.curve_ok C -> total_money mem <= 2 ^ 64 -> total_money mem' <= 2 ^ 64 ->
  credential_domain_separation_enabled proto = false ->
  verify cdf C H proto proof mem = Ok c -> verify cdf C H proto proof' mem' = Ok c' -> vrf_out c = vrf_out c' ->
  exists out out', output_of C H mem proof = Ok out /\ output_of C H mem' proof' = Ok out' /\
    (out = out' /\ mem_addr mem = mem_addr mem' \/ collision_in H [out ++ mem_addr mem] [out' ++ mem_addr mem']).
Proof. exact unseparated_binds. Qed.
Print Assumptions c61_output_partial.

(** With it, equal hashes mean equal members, or a hash collision. *)
Theorem c61_members :
  forall cdf C H proto proof proof' mem mem' c c', total_money mem <= 2 ^ 64 -> total_money mem' <= 2 ^ 64 ->
  length (mem_addr mem) = 32%nat -> length (mem_addr mem') = 32%nat -> credential_domain_separation_enabled proto = true ->
  verify cdf C H proto proof mem = Ok c -> verify cdf C H proto proof' mem' = Ok c' -> vrf_out c = vrf_out c' ->
  mem_addr mem = mem_addr mem' \/
  collision_in H [str "CR" ++ encode (VArr [VBin (mem_addr mem); VNum 0])] [str "CR" ++ encode (VArr [VBin (mem_addr mem'); VNum 0])].
Proof. exact members_bind. Qed.
Print Assumptions c61_members.

(** ** Concrete cases *)
Example c58_case :
  select ex_cdf 10 1000 (u64_as_f64 500) (x30 :: repeat x00 31) = Some 0 /\
  select ex_cdf 10 1000 (u64_as_f64 500) (x50 :: repeat x00 31) = Some 3 /\
  select ex_cdf 10 1000 (u64_as_f64 500) (xf0 :: repeat x00 31) = Some 10 /\
  select ex_cdf 10 0 (u64_as_f64 0) (xf0 :: repeat x00 31) = None /\
  select ex_cdf 10 1000 (u64_as_f64 1001) (xf0 :: repeat x00 31) = None.
Proof. vm_compute. repeat split. Qed.
Example c58_case_monotone :
  (forall p n k, is_f64 (ex_cdf p n k)) /\
  (forall p n i j r, i <= j -> reaches (ex_cdf p n i) r -> reaches (ex_cdf p n j) r).
Proof.
  split; [intros p n k; unfold ex_cdf, is_f64; destruct (k <? 3); reflexivity|].
  intros p n i j r L. unfold ex_cdf. destruct (N.ltb_spec i 3), (N.ltb_spec j 3); auto; try lia.
  unfold reaches. destruct r as [s|s| |s m e]; cbv beta iota delta [SFcompare quarter half]; auto. destruct s; [auto|].
  destruct (Z.compare_spec (-54) e), (Z.compare_spec (-53) e); auto; try lia; subst; try lia; intros [E|E]; discriminate.
Qed.
Example c59_case :
  weight_of (verify ex_cdf toy_curve toy_hash v7_base ex_own (ex_mem 10)) = Some 3 /\
  weight_of (verify ex_cdf toy_curve toy_hash v7_base ex_own (ex_mem 0)) = None /\
  verify ex_cdf toy_curve toy_hash v7_base ex_own (ex_mem 1001) = Panic /\
  verify ex_cdf toy_curve toy_hash v7_base (repeat xff 80) (ex_mem 10) = Err VrfVerifyFailed.
Proof. vm_compute. repeat split. Qed.
Example c60_case :
  complete (ex_cred 5) /\ snd (lowest_output toy_hash (ex_cred 5)) <> Some 0 /\ snd (lowest_output toy_hash (ex_cred 1)) = Some 0 /\
  snd (lowest_output toy_hash (ex_cred 3)) <> snd (lowest_output toy_hash (ex_cred 2)).
Proof. split; [intros D; discriminate|]. vm_compute. repeat split; discriminate. Qed.
Definition ex_selector2 : selector := mkSelector (str "AS" ++ repeat x06 20) (fun _ => 500).
Definition ex_mem2 : membership := mkMembership (ex_data 10 (VrfModel.public_key ex_vrf)) (repeat x2a 32) ex_selector2 1000.
Definition ex_own2 : bytes := new_credential toy_curve toy_hash ex_vrf ex_selector2.
(** Two selectors give two outputs; without domain separation the hashes differ, with it they are equal. *)
Definition hash_of (o : outcome cred_error credential) : option bytes := match o with Ok c => Some (vrf_out c) | _ => None end.
Example c61_case_verify :
  ex_own <> ex_own2 /\
  hash_of (verify ex_cdf toy_curve toy_hash separated ex_own (ex_mem 10)) = hash_of (verify ex_cdf toy_curve toy_hash separated ex_own2 ex_mem2) /\
  hash_of (verify ex_cdf toy_curve toy_hash separated ex_own (ex_mem 10)) <> None /\
  hash_of (verify ex_cdf toy_curve toy_hash v7_base ex_own (ex_mem 10)) <> hash_of (verify ex_cdf toy_curve toy_hash v7_base ex_own2 ex_mem2).
Proof. vm_compute. repeat split; discriminate. Qed.
Example c61_case :
  credential_domain_separation_enabled separated = true /\
  deciding_hash toy_hash v7_base (repeat x01 64) (repeat x02 32) <> deciding_hash toy_hash v7_base (repeat x03 64) (repeat x02 32).
Proof. split; [reflexivity|]. vm_compute. discriminate. Qed.
