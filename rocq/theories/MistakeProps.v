(** C163. *)
From Verif Require Import Base BaseFacts Toy AddressModel AddressProofs MistakeSpec MistakeProofs.
From Verif Require Import MnemonicModel MnemonicSpec MnemonicProofs MnemonicProps.

(** Two addresses whose texts differ in one character only: it is not one of the last six, the
    addresses differ, and the last three bytes of their hashes are the same, all four of the
    checksum unless it is the character that holds bits of both. *)
Theorem c163_one_character :
  forall H i text text' addr addr', hash32 H ->
  address_from_str H text = Ok addr -> address_from_str H text' = Ok addr' ->
  i < length text -> differ_at i text text' ->
  i < 52 /\ addr <> addr' /\ skipn 29 (H addr) = skipn 29 (H addr') /\ (i < 51 -> skipn 28 (H addr) = skipn 28 (H addr')).
Proof. intros H i text text' addr addr' H32. exact (one_character H H32 i text text' addr addr'). Qed.
Print Assumptions c163_one_character.
(** However many characters are wrong, at the end only: refused. *)
Theorem c163_end_of_address :
  forall H text text' addr addr', hash32 H ->
  address_from_str H text = Ok addr -> address_from_str H text' = Ok addr' -> firstn 52 text = firstn 52 text' -> text = text'.
Proof.
  intros H text text' addr addr' H32 E E' F. pose proof (same_front H H32 _ _ _ _ E E' F) as X. subst. exact (same_address H H32 _ _ _ E E').
Qed.
Print Assumptions c163_end_of_address.
(** Or at the beginning only: the checksums of two addresses are the same. *)
Theorem c163_begin_of_address :
  forall H text text' addr addr', hash32 H ->
  address_from_str H text = Ok addr -> address_from_str H text' = Ok addr' -> skipn 51 text = skipn 51 text' ->
  skipn 28 (H addr) = skipn 28 (H addr').
Proof. intros H text text' addr addr' H32. exact (same_rest H H32 text text' addr addr'). Qed.
Print Assumptions c163_begin_of_address.
(** A mnemonic with another last word is refused. *)
Theorem c163_last_word :
  forall H t t' ws ws' key key', hash32 H ->
  text_words t ws -> text_words t' ws' -> phrase_to_key H t = Ok key -> phrase_to_key H t' = Ok key' ->
  firstn 24 ws = firstn 24 ws' -> ws = ws' /\ key = key'.
Proof. intros H t t' ws ws' key key' H32. exact (last_word H H32 t t' ws ws' key key'). Qed.
Print Assumptions c163_last_word.
(** With other words before the last, in whatever places, it never stands for the same key, and is
    accepted only if the first eleven bits of the hashes of two keys are the same. *)
Theorem c163_other_words :
  forall H t t' ws ws' key key', hash32 H ->
  text_words t ws -> text_words t' ws' -> phrase_to_key H t = Ok key -> phrase_to_key H t' = Ok key' ->
  ws <> ws' -> key <> key' /\ (nth_error ws 24 = nth_error ws' 24 -> check_bits (H key) = check_bits (H key')).
Proof. intros H t t' ws ws' key key' H32. exact (other_words H H32 t t' ws ws' key key'). Qed.
Print Assumptions c163_other_words.

(** With a hash whose last bytes are always the same one wrong character goes through, one of the
    last six never; with a hash that starts in the same way, one wrong word. *)
Definition c163_text (H : bytes -> bytes) (a : bytes) : bytes := address_to_string H a.
Definition poor_hash (m : bytes) : bytes := firstn 28 (toy_hash m) ++ repeat x07 4.
Definition poorer_hash (m : bytes) : bytes := repeat x07 4 ++ skipn 4 (toy_hash m).
Definition c163_a : bytes := repeat x01 32.
Definition c163_b : bytes := x09 :: repeat x01 31.
Example c163_case :
  differ_at 0 (c163_text poor_hash c163_a) (c163_text poor_hash c163_b) /\ 0 < length (c163_text poor_hash c163_a) /\
  address_from_str poor_hash (c163_text poor_hash c163_a) = Ok c163_a /\ address_from_str poor_hash (c163_text poor_hash c163_b) = Ok c163_b /\
  (exists e, address_from_str poor_hash (firstn 57 (c163_text poor_hash c163_a) ++ [x41]) = Err e) /\
  (exists e, address_from_str toy_hash (x41 :: skipn 1 (c163_text toy_hash c163_b)) = Err e).
Proof.
  split; [|split; [vm_compute; lia|]].
  - split; [vm_compute; reflexivity|]. intros [|j]; [vm_compute; split; [discriminate|intros [X|X]; [exfalso; apply X; reflexivity|discriminate]]|].
    split; [intros _; left; discriminate|]. intros _. vm_compute. reflexivity.
  - split; [vm_compute; reflexivity|]. split; [vm_compute; reflexivity|]. split; eexists; vm_compute; reflexivity.
Qed.
Example c163_words_case :
  exists ws ws', key_to_mnemonic poorer_hash c163_a = Some ws /\ key_to_mnemonic poorer_hash c163_b = Some ws' /\
    skipn 1 ws = skipn 1 ws' /\ ws <> ws' /\ phrase_to_key poorer_hash (spaced ws) = Ok c163_a /\ phrase_to_key poorer_hash (spaced ws') = Ok c163_b /\
    phrase_to_key poorer_hash (spaced (firstn 24 ws ++ [ascii "zoo"])) = Err WrongChecksum.
Proof.
  eexists _, _. split; [vm_compute; reflexivity|]. split; [vm_compute; reflexivity|]. split; [vm_compute; reflexivity|].
  split; [vm_compute; discriminate|]. split; [vm_compute; reflexivity|]. split; vm_compute; reflexivity.
Qed.
