(** Model of src/crypto/mnemonic.rs.  Texts are lists of code points. *)
From Verif Require Import Base Wordlist.
Local Open Scope N_scope.

(** [String] and [str], src/crypto/mnemonic.rs:47-114 *)
Definition text := list N.

(** src/crypto/mnemonic.rs:17-19: the words of the file that comes with the program.
    Reading the file is modelled in WordfileModel.v. *)
Definition WORDS : list text := map (fun w => map Byte.to_N (String.list_byte_of_string w)) wordlist.

(** src/crypto/mnemonic.rs:13-15 *)
Definition MNEMONIC_LEN_WORDS : nat := 25.
(** src/crypto/mnemonic.rs:13-15 *)
Definition KEY_LEN_BYTES : nat := 32.

(** src/crypto/mnemonic.rs:22-26 *)
Inductive mnemonic_error :=
| WrongMnemonicLen (len : nat)
| InvalidWordInMnemonic (w : text)
| WrongChecksum.

(** State of the two conversion loops: output (in order), buffer, bits in the buffer.
    The buffer is a [u32]: [<<] keeps the low 32 bits. src/crypto/mnemonic.rs:145-148,170-173 *)
Definition conv_state := (list N * N * N)%type.
(** [<<] on [u32], src/crypto/mnemonic.rs:150,175 *)
Definition shl32 (x k : N) : N := (N.shiftl x k) mod 2 ^ 32.

(** src/crypto/mnemonic.rs:149-157, one round of the loop *)
Definition base11_round (st : conv_state) (x : N) : conv_state :=
  let '(out, buf, bits) := st in
  let buf := N.lor buf (shl32 x bits) in
  let bits := bits + 8 in
  if 11 <=? bits then (out ++ [N.land buf 2047], N.shiftr buf 11, bits - 11)
  else (out, buf, bits).

(** src/crypto/mnemonic.rs:144-164 *)
Definition to_base11 (data : bytes) : list N :=
  let '(out, buf, bits) := fold_left base11_round (map Byte.to_N data) ([], 0, 0) in
  if bits =? 0 then out else out ++ [N.land buf 2047].

(** src/crypto/mnemonic.rs:177-181, the inner loop (at most two rounds: 11 + 7 bits) *)
Definition base8_emit (st : conv_state) : conv_state :=
  let '(out, buf, bits) := st in
  if 8 <=? bits then (out ++ [buf mod 256], N.shiftr buf 8, bits - 8) else st.

(** src/crypto/mnemonic.rs:174-182, one round; before it fewer than 8 bits are in the
    buffer, so that the inner loop ends after two rounds *)
Definition base8_round (st : conv_state) (x : N) : conv_state :=
  let '(out, buf, bits) := st in
  base8_emit (base8_emit (out, N.lor buf (shl32 x bits), bits + 11)).

(** src/crypto/mnemonic.rs:169-189 *)
Definition to_base8 (data : list N) : bytes :=
  let '(out, buf, bits) := fold_left base8_round data ([], 0, 0) in
  map b8 (if bits =? 0 then out else out ++ [buf mod 256]).

(** src/crypto/mnemonic.rs:137-140; [None] is a panic (digest shorter than two bytes) *)
Definition checksum (H : bytes -> bytes) (data : bytes) : option N :=
  let h := H data in
  if (length h <? 2)%nat then None else nth_error (to_base11 (firstn 2 h)) 0.

Section Words.
(** src/crypto/mnemonic.rs:17-19: the words that were loaded when the program started *)
Variable words : list text.

(** [WORDS[i]], panics out of range; src/crypto/mnemonic.rs:47-56 *)
Definition word_at (i : N) : option text := nth_error words (N.to_nat i).
(** the words for numbers, src/crypto/mnemonic.rs:47-56 *)
Fixpoint words_at (is : list N) : option (list text) :=
  match is with
  | [] => Some []
  | i :: r => match word_at i, words_at r with Some w, Some ws => Some (w :: ws) | _, _ => None end
  end.

(** src/crypto/mnemonic.rs:47-56; the key is a 32-byte array *)
Definition key_to_mnemonic_in (H : bytes -> bytes) (key : bytes) : option (list text) :=
  match words_at (to_base11 key), checksum H key with
  | Some ws, Some chk => match word_at chk with Some w => Some (ws ++ [w]) | None => None end
  | _, _ => None
  end.

(** Equality of texts, and [iter().position(|w| w == word)]; src/crypto/mnemonic.rs:78-86 *)
Fixpoint text_eqb (a b : text) : bool :=
  match a, b with
  | [], [] => true
  | x :: a', y :: b' => (x =? y) && text_eqb a' b'
  | _, _ => false
  end.
(** src/crypto/mnemonic.rs:78-86 *)
Fixpoint position (w : text) (l : list text) (i : N) : option N :=
  match l with
  | [] => None
  | x :: r => if text_eqb x w then Some i else position w r (i + 1)
  end.

(** src/crypto/mnemonic.rs:78-86 *)
Fixpoint lookup_words (ws : list text) : outcome mnemonic_error (list N) :=
  match ws with
  | [] => Ok []
  | w :: r =>
      match position w words 0 with
      | None => Err (InvalidWordInMnemonic w)
      | Some p => (let? ps := lookup_words r in Ok (p :: ps))%outcome
      end
  end.

(** src/crypto/mnemonic.rs:73-114 *)
Definition mnemonic_to_key_in (H : bytes -> bytes) (mnemonic : list text)
  : outcome mnemonic_error bytes :=
  if negb (length mnemonic =? MNEMONIC_LEN_WORDS)%nat then Err (WrongMnemonicLen (length mnemonic))
  else
    (let? base11 := lookup_words mnemonic in
     let bs := to_base8 (firstn (length base11 - 1) base11) in
     if negb (length bs =? KEY_LEN_BYTES + 1)%nat then Panic
     else match nth_error bs KEY_LEN_BYTES with
          | None => Panic
          | Some b =>
              if negb (Byte.eqb b x00) then Err WrongChecksum
              else
                let key := firstn (length bs - 1) bs in
                if negb (length key =? KEY_LEN_BYTES)%nat then Panic
                else match checksum H key, nth_error base11 (length base11 - 1) with
                     | Some c, Some c' => if c =? c' then Ok key else Err WrongChecksum
                     | _, _ => Panic
                     end
          end)%outcome.

(** [char::is_whitespace] (Unicode White_Space), used by [split_whitespace]; std, for src/crypto/mnemonic.rs:59-66 *)
Definition is_space (c : N) : bool :=
  ((9 <=? c) && (c <=? 13)) || (c =? 32) || (c =? 133) || (c =? 160) || (c =? 5760) ||
  ((8192 <=? c) && (c <=? 8202)) || (c =? 8232) || (c =? 8233) || (c =? 8239) ||
  (c =? 8287) || (c =? 12288).

(** [str::split_whitespace]: the maximal non-empty runs of other characters; std, for src/crypto/mnemonic.rs:59-66 *)
Fixpoint split_whitespace (t : text) (cur : text) : list text :=
  match t with
  | [] => match cur with [] => [] | _ => [cur] end
  | c :: r =>
      if is_space c
      then match cur with [] => split_whitespace r [] | _ => cur :: split_whitespace r [] end
      else split_whitespace r (cur ++ [c])
  end.

(** src/crypto/mnemonic.rs:59-66 *)
Definition phrase_to_key_in (H : bytes -> bytes) (phrase : text) : outcome mnemonic_error bytes :=
  mnemonic_to_key_in H (split_whitespace phrase []).
End Words.

(** The three conversions with the words that come with the program
    (src/crypto/mnemonic.rs:17-19,47-56,59-66,73-114) *)
Definition key_to_mnemonic : (bytes -> bytes) -> bytes -> option (list text) := key_to_mnemonic_in WORDS.
(** src/crypto/mnemonic.rs:73-114 with the words of the program *)
Definition mnemonic_to_key : (bytes -> bytes) -> list text -> outcome mnemonic_error bytes := mnemonic_to_key_in WORDS.
(** src/crypto/mnemonic.rs:59-66 with the words of the program *)
Definition phrase_to_key : (bytes -> bytes) -> text -> outcome mnemonic_error bytes := phrase_to_key_in WORDS.
