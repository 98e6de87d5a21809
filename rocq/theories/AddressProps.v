(** Properties C32 to C35: text forms of addresses and hashes. *)
From Verif Require Import Base Toy AddressModel AddressSpec AddressProofs.

(** C32.  Every address has a text form of 58 characters, which parses back to it. *)
Theorem c32_round_trip :
  forall H addr, hash32 H -> length addr = 32 ->
  is_address_text H addr (address_to_string H addr) /\ length (address_to_string H addr) = 58 /\
  address_from_str H (address_to_string H addr) = Ok addr.
Proof. exact c32_lemma. Qed.
Print Assumptions c32_round_trip.

(** C33.  Nothing else is accepted. *)
Theorem c33_only_the_text_form :
  forall H text addr, hash32 H ->
  address_from_str H text = Ok addr <-> length addr = 32 /\ is_address_text H addr text.
Proof. exact c33_lemma. Qed.
Print Assumptions c33_only_the_text_form.

(** C34, full statement: [address_from_str H text <> Panic] for every text.  It is false
    whatever the hash: an address, one more byte and its checksum make it panic. *)
Theorem c34_never_panics_refuted :
  forall H, hash32 H -> forall addr : bytes, length addr = 32 ->
  exists text, address_from_str H text = Panic.
Proof. exact c34_refuted_lemma. Qed.
Print Assumptions c34_never_panics_refuted.

(** Exactly these texts make it panic. *)
Theorem c34_panics_exactly :
  forall H text, hash32 H -> address_from_str H text = Panic <->
  exists addr extra, length addr = 32 /\ is_base32 (addr ++ extra) text /\
    skipn (length (addr ++ extra) - 4) (addr ++ extra) = skipn 28 (H addr) /\ extra <> skipn 28 (H addr).
Proof. exact c34_panics_iff. Qed.
Print Assumptions c34_panics_exactly.

(** So no text of the right length, or of fewer than 52 characters, does. *)
Theorem c34_never_panics_partial :
  forall H (text : bytes), hash32 H -> length text = 58 \/ length text < 52 ->
  address_from_str H text <> Panic.
Proof. exact c34_partial_lemma. Qed.
Print Assumptions c34_never_panics_partial.

(** C35.  The same for hashes, which have no checksum. *)
Theorem c35_round_trip :
  forall h, length h = 32 -> hash_from_str (hash_to_string h) = Ok h.
Proof. exact AddressProofs.c35_round_trip. Qed.
Print Assumptions c35_round_trip.

Theorem c35_only_the_text_form :
  forall text h, hash_from_str text = Ok h <-> length h = 32 /\ is_base32 h text.
Proof. exact c35_lemma. Qed.
Print Assumptions c35_only_the_text_form.

Theorem c35_never_panics : forall text, hash_from_str text <> Panic.
Proof. exact hash_no_panic. Qed.
Print Assumptions c35_never_panics.

(** ** Concrete cases *)

(** The address of the unit test human_readable, with a hash that ends as SHA-512/256 of
    that address does. *)
Definition known_hash (x : bytes) : bytes := repeat x00 28 ++ [xd5; xcd; x24; x5d].
Definition known_text : bytes := str "J5YDZLPOHWB5O6MVRHNFGY4JXIQAYYM6NUJWPBSYBBIXH5ENQ4Z5LTJELU".
Example c32_case :
  hash32 known_hash /\
  match address_from_str known_hash known_text with
  | Ok a => bytes_eqb (address_to_string known_hash a) known_text
  | _ => false
  end = true.
Proof. split; [intros x; reflexivity|]. vm_compute. reflexivity. Qed.
(** The unit test non_canonical: one trailing bit changed. *)
Example c33_case :
  address_from_str known_hash (str "J5YDZLPOHWB5O6MVRHNFGY4JXIQAYYM6NUJWPBSYBBIXH5ENQ4Z5LTJELV") = Err InvalidBase32 /\
  address_from_str known_hash (str "J5YDZLPOHWB5O6MVRHNFGY4JXIQAYYM6NUJWPBSYBBIXH5ENQ4Z5LTJELA") = Err InvalidChecksum /\
  address_from_str known_hash (str "j5YDZLPOHWB5O6MVRHNFGY4JXIQAYYM6NUJWPBSYBBIXH5ENQ4Z5LTJELU") = Err InvalidBase32 /\
  address_from_str known_hash [] = Err WrongLength.
Proof. repeat split; vm_compute; reflexivity. Qed.
Example c34_case :
  address_from_str toy_hash (base32_encode (zero32 ++ [x00] ++ skipn 28 (toy_hash zero32))) = Panic.
Proof. vm_compute. reflexivity. Qed.
Example c35_case :
  hash_from_str (hash_to_string (toy_hash [])) = Ok (toy_hash []) /\ hash_from_str (str "AA") = Err (HWrongLength 1).
Proof. split; vm_compute; reflexivity. Qed.
