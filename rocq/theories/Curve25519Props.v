(** Properties C139 to C141: the curve and the signatures the code uses meet what the other theorems assume. *)
From Coq Require Import Znumtheory.
From Verif Require Import Base Digits Scheme ShaModel VrfModel CurveModel OtsSpec Curve25519Spec Scheme25519Proofs Curve25519Proofs.
From Verif Require OtsModel OtsProofs MultisigModel DomainModel MsgpackModel TxModel.

(** ** C139 *)
(** The operations keep coordinates valid, and are a group. *)
Theorem c139_group :
  forall Q1 Q2 Q3, valid Q1 -> valid Q2 -> valid Q3 ->
  (valid identity /\ valid base_point /\ valid (edwards_add Q1 Q2) /\ valid (edwards_neg Q1)) /\
  same (edwards_add Q1 Q2) (edwards_add Q2 Q1) /\
  same (edwards_add Q1 (edwards_add Q2 Q3)) (edwards_add (edwards_add Q1 Q2) Q3) /\
  same (edwards_add Q1 identity) Q1 /\ same (edwards_add Q1 (edwards_neg Q1)) identity.
Proof.
  exact (fun Q1 Q2 Q3 V1 V2 V3 =>
    match valid_closed Q1 Q2 0%Z V1 V2 with
    | conj A (conj N (conj _ (conj Z B))) => conj (conj Z (conj B (conj A N))) (group_laws Q1 Q2 Q3 V1 V2 V3)
    end).
Qed.
Print Assumptions c139_group.

(** Multiples add up, and those of the base point are identity exactly for multiples of its prime order. *)
Theorem c139_multiples :
  forall a b Q, valid Q ->
  valid (edwards_mul a Q) /\ same (edwards_mul 1 Q) Q /\
  same (edwards_mul (a + b) Q) (edwards_add (edwards_mul a Q) (edwards_mul b Q)) /\
  same (edwards_mul (8 * Z.of_N base_order_25519) Q) identity.
Proof. exact (fun a b Q V => conj (proj1 (proj2 (proj2 (valid_closed Q Q a V V)))) (multiples a b Q V)). Qed.
Print Assumptions c139_multiples.
Theorem c139_base_order :
  forall n, prime (2 ^ 252 + 27742317777372353535851937790883648493) /\
  (same (edwards_mul n base_point) identity <-> (2 ^ 252 + 27742317777372353535851937790883648493 | n)%Z).
Proof. exact base_point_order. Qed.
Print Assumptions c139_base_order.

(** Compressed points are 32 bytes that stand for the point, and for no other. *)
Theorem c139_compressed :
  forall Q, valid Q -> length (edwards_compress Q) = 32%nat /\
  (exists Q', edwards_decompress (edwards_compress Q) = Some Q' /\ valid Q' /\ same Q' Q) /\
  forall Q', valid Q' -> (edwards_compress Q = edwards_compress Q' <-> same Q Q').
Proof.
  exact (fun Q V => conj (proj1 (round_trip Q V)) (conj (proj2 (round_trip Q V))
    (fun Q' V' => conj (proj2 (same_compress Q Q' V V')) (proj1 (same_compress Q Q' V V'))))).
Qed.
Print Assumptions c139_compressed.

(** Every string read as a point is read as one of the curve.  The strings that are not the compressed form of
    the point they are read as are those whose lower 255 bits are not reduced, and those with the sign bit set
    for one of the two points with x = 0. *)
Theorem c139_strings :
  forall s Q, length s = 32%nat -> edwards_decompress s = Some Q ->
  valid Q /\
  (edwards_compress Q = s <->
   (le_num s mod 2 ^ 255 < 2 ^ 255 - 19)%N /\
   (le_num s mod 2 ^ 255 = 1 \/ le_num s mod 2 ^ 255 = 2 ^ 255 - 20 -> le_num s < 2 ^ 255)%N).
Proof. exact (fun s Q L D => conj (decompressed_valid s Q D) (real_canonical s Q L D)). Qed.
Print Assumptions c139_strings.

(** C27, C28 and the length of proofs for the curve the code uses, without any premise about it. *)
Theorem c139_honest_proof_accepted :
  forall seed data,
  let kp := from_seed edwards25519 seed in
  exists out, to_output edwards25519 (prove_bytes edwards25519 kp data) = Some out /\
    verify_bytes edwards25519 (public_key kp) (prove_bytes edwards25519 kp data) data = Ok out.
Proof. exact real_completeness. Qed.
Print Assumptions c139_honest_proof_accepted.
Theorem c139_proof_length :
  forall kp data, length (prove_bytes edwards25519 kp data) = 80%nat.
Proof. exact real_prove_length. Qed.
Print Assumptions c139_proof_length.
Theorem c139_output_unique :
  forall pk data p1 p2 o1 o2,
  verify_bytes edwards25519 pk p1 data = Ok o1 -> verify_bytes edwards25519 pk p2 data = Ok o2 ->
  o1 = o2 \/ lucky_hit pk data p1 \/ lucky_hit pk data p2.
Proof. exact real_uniqueness. Qed.
Print Assumptions c139_output_unique.

(** Strings of either kind: an unreduced one, and one with the sign bit set. *)
Definition unreduced : bytes := le_bytes 32 (2 ^ 255 - 18).
Definition signed_zero : bytes := le_bytes 32 (2 ^ 255 + 1).
Definition strings_case : bool := Eval vm_compute in
  match edwards_decompress unreduced, edwards_decompress signed_zero, edwards_decompress (x58 :: repeat x66 31) with
  | Some Q, Some Q', Some B =>
      negb (bytes_eqb (edwards_compress Q) unreduced) && negb (bytes_eqb (edwards_compress Q') signed_zero) &&
      bytes_eqb (edwards_compress B) (x58 :: repeat x66 31)
  | _, _, _ => false
  end.
Example c139_case : strings_case = true /\ valid base_point /\ same (edwards_add base_point base_point) (edwards_mul 2 base_point) /\
  ~ same base_point identity.
Proof.
  split; [reflexivity|]. split; [repeat split; vm_compute; congruence|]. split; [split; vm_compute; reflexivity|]. intros [A _]. vm_compute in A. discriminate.
Qed.

(** ** C140 *)
Opaque ed_check ed_strict ed_public ed_sign.
(** Every signature is accepted under the key of the secret that made it. *)
Theorem c140_signatures_accepted :
  forall seed msg, ed_check (ed_public seed) msg (ed_sign seed msg) = true.
Proof. exact ed25519_correct. Qed.
Print Assumptions c140_signatures_accepted.
(** One accepted answer at most for every commitment, so an accepted signature cannot be changed into another
    for the same message by changing its second half. *)
Theorem c140_not_malleable :
  forall key msg sig sig', ed_check key msg sig = true -> ed_check key msg sig' = true ->
  firstn 32 sig = firstn 32 sig' -> sig = sig'.
Proof. exact check_unique. Qed.
Print Assumptions c140_not_malleable.
(** Strict verification accepts it too, except if its nonce is zero. *)
Theorem c140_strict :
  forall seed msg, ed_strict (ed_public seed) msg (ed_sign seed msg) = true <-> ed_nonce seed msg <> 0%N.
Proof. exact strict_honest. Qed.
Print Assumptions c140_strict.
(** No secret has the default key or a key of small order. *)
Theorem c140_keys :
  forall seed, ed_public seed <> default_key /\ ed_public seed <> zero32 /\
  exists Q, edwards_decompress (ed_public seed) = Some Q /\ ~ same (edwards_mul 8 Q) identity.
Proof. exact key_properties. Qed.
Print Assumptions c140_keys.
(** The all-zero signature is never accepted by strict verification, under any key. *)
Theorem c140_null_refused :
  forall key msg, ed_strict key msg null_sig = false.
Proof. exact null_refused. Qed.
Print Assumptions c140_null_refused.
(** Evaluated: a secret whose signature meets all of the above, and the all-zero signature under the key of 32 zero
    bytes, which plain verification accepts for one message in four. *)
Definition signature_case : bool := Eval vm_compute in
  let seed := repeat x07 32 in let sig := ed_sign seed (str "m") in let key := ed_public seed in
  ed_check key (str "m") sig && ed_strict key (str "m") sig && negb (ed_nonce seed (str "m") =? 0)%N &&
  negb (ed_check key (str "n") sig) && ed_check zero32 [x09] null_sig.
Example c140_case : signature_case = true. Proof. reflexivity. Qed.

(** ** C141 *)
(** C23 and C24 with the signatures the code uses. *)
Theorem c141_one_time_signatures :
  forall md master start eks ds id msg fresh,
  (start + N.of_nat (length eks) <= two64)%N -> Forall del_ok ds -> id_ok id ->
  exists st0 st, OtsModel.generate ed25519_strict md master start eks = Some st0 /\ run ed25519_strict md ds st0 = Some st /\
    OtsModel.verifier st = OtsModel.verifier st0 /\
    (available start (N.of_nat (length eks)) ds id ->
       exists o, OtsModel.sign ed25519_strict md st id msg fresh = Some o /\
         (OtsModel.verify ed25519_strict o id msg (OtsModel.verifier st0) = true \/ zero_nonce o)) /\
    (~ available start (N.of_nat (length eks)) ds id -> OtsModel.sign ed25519_strict md st id msg fresh = Some OtsModel.null_ots).
Proof. exact real_usable. Qed.
Print Assumptions c141_one_time_signatures.
Theorem c141_deleted :
  forall md master start eks ds d id msg fresh,
  (start + N.of_nat (length eks) <= two64)%N -> Forall del_ok ds -> id_ok id ->
  In d ds -> id_lt id (cur d) ->
  exists st0 st o, OtsModel.generate ed25519_strict md master start eks = Some st0 /\ run ed25519_strict md ds st0 = Some st /\
    OtsModel.sign ed25519_strict md st id msg fresh = Some o /\ o = OtsModel.null_ots /\
    forall id' m pk, OtsModel.verify ed25519_strict o id' m pk = false.
Proof. exact (fun md master start eks ds d id msg fresh => OtsProofs.forward_lemma ed25519_strict md master start eks ds d id msg fresh null_refused). Qed.
Print Assumptions c141_deleted.

(** C18 with the hash and the signatures the code uses. *)
Theorem c141_multisig :
  forall msg t seeds addr, let keys := map ed_public seeds in
  forall pks, MultisigModel.from_pks sha512_256 1 t pks = Ok addr -> (length pks <= 255)%nat ->
  nth_error pks 0 <> Some default_key -> NoDup keys -> Forall (fun key => In key pks) keys ->
  (2 <= length seeds)%nat -> (t <= N.of_nat (length seeds))%N ->
  exists parts m, Forall2 (fun seed p => MultisigModel.sign sha512_256 ed25519 addr msg 1 t pks seed = Ok p) seeds parts /\
    MultisigModel.assemble parts = Ok m /\ MultisigModel.verify sha512_256 ed25519 m msg addr = Ok true.
Proof. exact real_multisig. Qed.
Print Assumptions c141_multisig.

(** C44 with the signatures the code uses: no secret needs to be left out. *)
Theorem c141_transactions :
  forall seed t,
  let s := TxModel.sign ed25519 seed t in
  TxModel.authorizer s = ed_public seed /\ TxModel.stx_tx s = t /\
  (TxModel.stx_auth s = zero32 <-> ed_public seed = TxModel.sender (TxModel.tx_head t)) /\
  ed_check (ed_public seed) (DomainModel.id_bytes DomainModel.TRANSACTION ++ MsgpackModel.encode (TxModel.tx_value t)) (TxModel.stx_sig s) = true /\
  TxModel.stx_msig s = None /\ TxModel.stx_lsig s = None.
Proof. exact real_transaction. Qed.
Print Assumptions c141_transactions.

(** Evaluated: keys for two batches of which one is deleted, and the transactions and multisignatures of
    MultisigVectors.v. *)
Definition ots_case : bool := Eval vm_compute in
  let eks := [repeat x01 32; repeat x02 32] in
  match OtsModel.generate ed25519_strict Debug (repeat x03 32) 5 eks with
  | Some st =>
      match OtsModel.delete_before ed25519_strict Debug st (OtsModel.mkId 6 0) 1 (fun i => b8 i :: repeat x04 31) with
      | Some st' =>
          match OtsModel.sign ed25519_strict Debug st' (OtsModel.mkId 6 0) (str "m") (repeat x05 32),
                OtsModel.sign ed25519_strict Debug st' (OtsModel.mkId 5 3) (str "m") (repeat x05 32) with
          | Some o, Some o' =>
              OtsModel.verify ed25519_strict o (OtsModel.mkId 6 0) (str "m") (OtsModel.verifier st) &&
              negb (OtsModel.verify ed25519_strict o' (OtsModel.mkId 5 3) (str "m") (OtsModel.verifier st))
          | _, _ => false
          end
      | None => false
      end
  | None => false
  end.
Example c141_case : ots_case = true. Proof. reflexivity. Qed.
