(** Lengths of digests. *)
From Verif Require Import Base BaseFacts MsgpackModel MsgpackProofs ShaModel AddressModel AddressProofs.

Lemma final_length start s : length (final start s) = 64.
Proof. unfold final. cbv zeta. rewrite !app_length, !be_length. reflexivity. Qed.
Lemma sha512_length s : length (sha512 s) = 64.
Proof. apply final_length. Qed.
Lemma sha512_256_length s : length (sha512_256 s) = 32.
Proof. unfold sha512_256. rewrite firstn_length, final_length. reflexivity. Qed.
Lemma hash_text s : length (hash_to_string (sha512_256 s)) = 52 /\ hash_from_str (hash_to_string (sha512_256 s)) = Ok (sha512_256 s).
Proof.
  pose proof (sha512_256_length s) as L. split; [|apply c35_round_trip; exact L].
  unfold hash_to_string. destruct (base32_length (sha512_256 s)) as [z [A B]]. rewrite L in B. lia.
Qed.
Lemma address_text s : length (address_to_string sha512_256 (sha512_256 s)) = 58.
Proof.
  unfold address_to_string. destruct (base32_length (sha512_256 s ++ checksum sha512_256 (sha512_256 s))) as [z [A B]].
  rewrite app_length in B. unfold checksum in *. rewrite skipn_length, !sha512_256_length in B. rewrite !sha512_256_length. lia.
Qed.
(** Padding: whole blocks, and nothing of the message lost. *)
Lemma padded_length s : length (padded s) mod 128 = 0 /\ length s + 17 <= length (padded s) < length s + 17 + 128.
Proof.
  unfold padded. rewrite !app_length, repeat_length, be_length. cbn [length].
  set (n := length s). assert (E : N.to_nat ((239 - N.of_nat n mod 128) mod 128) = (239 - n mod 128) mod 128) by lia.
  rewrite E. clear E. lia.
Qed.
Lemma padding_lemma s : exists z, z < 128 /\ padded s = s ++ [x80] ++ repeat x00 z ++ be 16 (8 * N.of_nat (length s)) /\ length (padded s) mod 128 = 0.
Proof.
  exists (N.to_nat ((239 - N.of_nat (length s) mod 128) mod 128)). split; [lia|]. split; [reflexivity|]. apply padded_length.
Qed.
Lemma padded_inj s s' : (N.of_nat (length s) < 2 ^ 125)%N -> (N.of_nat (length s') < 2 ^ 125)%N -> padded s = padded s' -> s = s'.
Proof.
  intros A B E. pose proof (f_equal (@rev byte) E) as R. unfold padded in *. rewrite !app_assoc in R.
  rewrite !rev_app_distr in R. apply app_inj_length in R as [R _]; [|rewrite !rev_length, !be_length; reflexivity].
  apply (f_equal (@rev byte)) in R. rewrite !rev_involutive in R. apply (f_equal be_val) in R.
  assert (P : (256 ^ N.of_nat 16 = 8 * 2 ^ 125)%N) by (vm_compute; reflexivity).
  rewrite !be_val_be in R by (rewrite P; lia).
  apply app_inj_length in E as [E _]; [exact E|lia].
Qed.

