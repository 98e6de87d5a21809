(** Properties C128, C129 and C130: the word list file and texts. *)
From Verif Require Import Base MnemonicModel MnemonicSpec MnemonicProofs JsonModel Wordlist WordfileModel WordfileSpec WordfileProofs Toy.
Local Open Scope N_scope.

(** C128.  The program starts with a word list exactly when the file can be opened and
    2048 of its lines are texts; the words are then these lines in their order. *)
Theorem c128_loaded : forall file ws, load_mnemonic_file file = Some ws <->
  exists s ls, file = Some s /\ file_lines s ls /\ texts ls ws /\ N.of_nat (length ws) = 2048.
Proof. exact load_exact. Qed.
Print Assumptions c128_loaded.

(** Any 2048 texts written one per line are the words that are loaded. *)
Theorem c128_written : forall ls ws, Forall writable ls -> Forall2 utf8_text ws ls -> N.of_nat (length ws) = 2048 ->
  load_mnemonic_file (Some (one_per_line ls)) = Some ws.
Proof. exact load_written. Qed.
Print Assumptions c128_written.

(** The file that comes with the program gives the words of C15 and C16. *)
Definition own_file : bytes := one_per_line (map String.list_byte_of_string wordlist).
Example c128_case :
  load_mnemonic_file (Some own_file) = Some WORDS /\ N.of_nat (length own_file) = 13116 /\
  load_mnemonic_file (Some (skipn 8 own_file)) = None /\ load_mnemonic_file (Some (own_file ++ [x0a])) = None /\
  load_mnemonic_file (Some (removelast own_file)) = Some WORDS /\ load_mnemonic_file None = None.
Proof. repeat split; vm_compute; reflexivity. Qed.

(** The full statement, that the words are the lines of the file, is false: a line that
    is no text is left out without notice, and the words after it move up. *)
Definition damaged : bytes := [xff; x0a] ++ own_file.
Theorem c128_nothing_left_out_refuted : exists s ls ws,
  file_lines s ls /\ load_mnemonic_file (Some s) = Some ws /\ length ls <> length ws.
Proof.
  exists damaged, ([xff] :: map String.list_byte_of_string wordlist), WORDS. split; [|split].
  - change damaged with ([xff] ++ x0a :: own_file). constructor.
    + intros [E|[]]. discriminate.
    + constructor. intros [|k1 [|k2 k]] E; discriminate.
    + apply own_lines. apply Forall_forall. intros l Hl.
      assert (E : forallb (fun l => forallb (fun b => negb (Byte.eqb b x0a) && negb (Byte.eqb b x0d)) l) (map String.list_byte_of_string wordlist) = true)
        by (vm_compute; reflexivity).
      rewrite forallb_forall in E. specialize (E l Hl). rewrite forallb_forall in E. split.
      * intros Hi. specialize (E x0a Hi). discriminate.
      * intros k ->. assert (Hi : In x0d (k ++ [x0d])) by (apply in_or_app; right; left; reflexivity). specialize (E x0d Hi). discriminate.
  - vm_compute. reflexivity.
  - vm_compute. discriminate.
Qed.
Print Assumptions c128_nothing_left_out_refuted.

(** Missing for the full statement: files with lines that are no text.  If every line is
    one, the words are the lines, or the program does not start. *)
Theorem c128_nothing_left_out_partial : forall s ls ws,
  file_lines s ls -> (forall l, In l ls -> exists t, utf8_text t l) ->
  load_mnemonic_file (Some s) = Some ws <-> Forall2 utf8_text ws ls /\ N.of_nat (length ls) = 2048.
Proof. exact load_all. Qed.
Print Assumptions c128_nothing_left_out_partial.

(** C129.  With whatever words were loaded, every key has a mnemonic of 25 of them, no
    text makes the conversion panic, and a key that is given back has the words of the
    text as its mnemonic. *)
Theorem c129_any_words : forall file words H, load_mnemonic_file file = Some words -> hash32 H ->
  (forall key, length key = 32%nat ->
     exists m, key_to_mnemonic_in words H key = Some m /\ length m = 25%nat /\ Forall (fun w => In w words) m) /\
  (forall t m, text_words t m -> phrase_to_key_in words H t <> Panic /\
     forall key, phrase_to_key_in words H t = Ok key -> length key = 32%nat /\ key_to_mnemonic_in words H key = Some m).
Proof.
  intros file words H E Hh. apply loaded_count in E. split.
  - intros key. exact (any_words words H key E Hh).
  - intros t m. exact (any_phrase words H t m E Hh).
Qed.
Print Assumptions c129_any_words.

(** The full statement, that keys come back from their mnemonics whatever words were
    loaded, is false: nothing checks that the words are different. *)
Definition same_words : bytes := one_per_line (repeat (str "word") 2048).
Definition some_key : bytes := map (fun i => b8 (N.of_nat (7 * i + 250))) (seq 0 32).
Theorem c129_comes_back_refuted : exists file words H key m,
  load_mnemonic_file file = Some words /\ hash32 H /\ length key = 32%nat /\
  key_to_mnemonic_in words H key = Some m /\ mnemonic_to_key_in words H m <> Ok key.
Proof.
  exists (Some same_words), (repeat (map Byte.to_N (str "word")) 2048), toy_hash, some_key, (repeat (map Byte.to_N (str "word")) 25).
  split; [vm_compute; reflexivity|]. split; [exact toy_hash32|]. split; [reflexivity|]. split; [vm_compute; reflexivity|].
  vm_compute. discriminate.
Qed.
Print Assumptions c129_comes_back_refuted.

(** Missing for the full statement: files with repeated words. *)
Theorem c129_comes_back_partial : forall file words H, load_mnemonic_file file = Some words -> NoDup words -> hash32 H ->
  forall t m, text_words t m -> forall key,
  phrase_to_key_in words H t = Ok key <-> length key = 32%nat /\ key_to_mnemonic_in words H key = Some m.
Proof.
  intros file words H E D Hh t m T. exact (proj1 (exact_in words D (loaded_count file words E) H Hh t m T)).
Qed.
Print Assumptions c129_comes_back_partial.
(** Another list: the words backwards. *)
Example c129_case :
  load_mnemonic_file (Some (one_per_line (rev (map String.list_byte_of_string wordlist)))) = Some (rev WORDS) /\ NoDup (rev WORDS) /\
  exists m, key_to_mnemonic_in (rev WORDS) toy_hash some_key = Some m /\ m <> [] /\
    phrase_to_key_in (rev WORDS) toy_hash (flat_map (fun w => w ++ [32]) m) = Ok some_key /\
    phrase_to_key toy_hash (flat_map (fun w => w ++ [32]) m) <> Ok some_key.
Proof.
  split; [vm_compute; reflexivity|]. split; [apply NoDup_rev; exact words_nodup|].
  eexists. split; [vm_compute; reflexivity|]. split; [discriminate|]. split; [vm_compute; reflexivity|vm_compute; discriminate].
Qed.

(** C130.  Bytes are accepted as a text exactly when they are a sequence of characters
    in the form of RFC 3629: shortest forms, no surrogates, nothing above 0x10ffff; the
    characters are determined by the bytes. *)
Theorem c130_text : forall s, utf8 s = true <-> exists t, utf8_text t s.
Proof. exact utf8_exact. Qed.
Print Assumptions c130_text.
Theorem c130_characters : forall s t, from_utf8 s = Some t <-> utf8_text t s.
Proof. exact from_utf8_exact. Qed.
Print Assumptions c130_characters.
Example c130_case :
  from_utf8 (map b8 [65; 195; 164; 226; 130; 172; 240; 159; 166; 128]) = Some [65; 228; 8364; 129408] /\
  from_utf8 (map b8 [192; 128]) = None /\ from_utf8 (map b8 [237; 160; 128]) = None /\
  from_utf8 (map b8 [244; 144; 128; 128]) = None /\ from_utf8 (map b8 [226; 130]) = None /\ from_utf8 [xff] = None.
Proof. repeat split; vm_compute; reflexivity. Qed.
