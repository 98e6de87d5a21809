(** Properties C15 and C16: mnemonics. *)
From Verif Require Import Base MnemonicModel MnemonicSpec MnemonicProofs Toy.

(** C15.  Every 32-byte key has a mnemonic of 25 words of the list, which converts
    back to the key (the hash behind the checksum is arbitrary). *)
Theorem c15_mnemonic_round_trip :
  forall (H : bytes -> bytes), hash32 H ->
  forall key, length key = 32 ->
  exists ws, key_to_mnemonic H key = Some ws /\ length ws = 25 /\
    Forall (fun w => In w WORDS) ws /\ mnemonic_to_key H ws = Ok key.
Proof. exact round_trip_mnemonic. Qed.
Print Assumptions c15_mnemonic_round_trip.

Definition ex_key : bytes := map (fun i => b8 (N.of_nat (7 * i + 250))) (seq 0 32).
Definition ascii (s : String.string) : text := map Byte.to_N (str s).
Arguments ascii s%string_scope.

Example c15_case :
  exists ws, key_to_mnemonic toy_hash ex_key = Some ws /\ length ws = 25 /\
    nth_error ws 0 = Some (ascii "dismiss") /\ nth_error ws 23 = Some (ascii "absorb") /\
    mnemonic_to_key toy_hash ws = Ok ex_key.
Proof.
  eexists. split; [vm_compute; reflexivity|]. repeat split; vm_compute; reflexivity.
Qed.

(** C16.  A text is accepted for a key exactly when its words are the mnemonic of that
    key; no text makes the conversion panic.  Every text has words. *)
Theorem c16_only_produced_mnemonics :
  forall (H : bytes -> bytes), hash32 H ->
  forall (t : text) (ws : list text), text_words t ws ->
  (forall key, phrase_to_key H t = Ok key <-> length key = 32 /\ key_to_mnemonic H key = Some ws) /\
  phrase_to_key H t <> Panic.
Proof. exact exact_mnemonic. Qed.
Print Assumptions c16_only_produced_mnemonics.

Theorem c16_every_text_has_words : forall t : text, exists ws, text_words t ws.
Proof. exact text_has_words. Qed.
Print Assumptions c16_every_text_has_words.

(** The mnemonic of [ex_key] with odd spacing is accepted; with the padding bits of
    the 24th word changed, or with the last word changed, it is refused. *)
Definition ex_words : list text :=
  match key_to_mnemonic toy_hash ex_key with Some ws => ws | None => [] end.
Definition spaced (ws : list text) : text := 9%N :: flat_map (fun w => w ++ [32; 160]%N) ws.
Example c16_case :
  phrase_to_key toy_hash (spaced ex_words) = Ok ex_key /\
  phrase_to_key toy_hash (spaced (firstn 23 ex_words ++ [ascii "achieve"] ++ skipn 24 ex_words)) = Err WrongChecksum /\
  phrase_to_key toy_hash (spaced (firstn 24 ex_words ++ [ascii "zoo"])) = Err WrongChecksum /\
  phrase_to_key toy_hash (spaced (firstn 24 ex_words)) = Err (WrongMnemonicLen 24) /\
  phrase_to_key toy_hash (spaced (firstn 24 ex_words ++ [ascii "zooo"])) = Err (InvalidWordInMnemonic (ascii "zooo")).
Proof. vm_compute. repeat split. Qed.
