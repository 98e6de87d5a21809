(** Model of reading the word list (src/crypto/mnemonic.rs:116-135) and of the text
    decoding behind it. *)
From Verif Require Import Base MnemonicModel JsonModel.
Local Open Scope N_scope.

(** [String::from_utf8] with the characters it gives: lists of code points.  The ranges
    are those of [core::str::validations]. std, for src/crypto/mnemonic.rs:120-125 *)
Definition low6 (b : byte) : N := Byte.to_N b - 128.
(** helper of [from_utf8]: a character in front; std, for src/crypto/mnemonic.rs:120-125 *)
Definition then_char (c : N) (t : option text) : option text :=
  match t with Some t => Some (c :: t) | None => None end.
(** [String::from_utf8] of std, for src/crypto/mnemonic.rs:120-125 *)
Fixpoint from_utf8 (s : bytes) : option text :=
  match s with
  | [] => Some []
  | a :: r =>
      let n := Byte.to_N a in
      if n <? 128 then then_char n (from_utf8 r)
      else if n <? 194 then None
      else if n <? 224 then
        match r with
        | b :: r' => if cont b then then_char ((n - 192) * 64 + low6 b) (from_utf8 r') else None
        | _ => None
        end
      else if n <? 240 then
        match r with
        | b :: c :: r' =>
            if (if n =? 224 then between 160 191 b else if n =? 237 then between 128 159 b else cont b) && cont c
            then then_char ((n - 224) * 4096 + low6 b * 64 + low6 c) (from_utf8 r') else None
        | _ => None
        end
      else if n <? 245 then
        match r with
        | b :: c :: d :: r' =>
            if (if n =? 240 then between 144 191 b else if n =? 244 then between 128 143 b else cont b) && cont c && cont d
            then then_char ((n - 240) * 262144 + low6 b * 4096 + low6 c * 64 + low6 d) (from_utf8 r') else None
        | _ => None
        end
      else None
  end.

(** [BufRead::read_until(b'\n')], again and again up to the end of the file: the lines
    with their ends.  Errors of the file system while reading are not modelled.
    std, for src/crypto/mnemonic.rs:120-125 *)
Fixpoint raw_lines (s cur : bytes) : list bytes :=
  match s with
  | [] => match cur with [] => [] | _ => [cur] end
  | b :: r => if Byte.eqb b x0a then (cur ++ [b]) :: raw_lines r [] else raw_lines r (cur ++ [b])
  end.
(** [Lines::next]: the end of the line, and a carriage return before it, are removed;
    std, for src/crypto/mnemonic.rs:120-125 *)
Definition last_is (c : N) (t : text) : bool :=
  match rev t with x :: _ => x =? c | [] => false end.
(** the same function; std, for src/crypto/mnemonic.rs:120-125 *)
Definition chomp (t : text) : text :=
  if last_is 10 t then
    let t := removelast t in
    if last_is 13 t then removelast t else t
  else t.

(** src/crypto/mnemonic.rs:120-125: lines that are no text are passed over *)
Fixpoint readable (ls : list bytes) : list text :=
  match ls with
  | [] => []
  | l :: r => match from_utf8 l with Some t => chomp t :: readable r | None => readable r end
  end.

(** src/crypto/mnemonic.rs:116-135; the file is given by its content, [None] when it
    cannot be opened; the result [None] is a panic *)
Definition load_mnemonic_file (file : option bytes) : option (list text) :=
  match file with
  | None => None
  | Some s =>
      let wordlist := readable (raw_lines s []) in
      if N.of_nat (length wordlist) =? 2 ^ 11 then Some wordlist else None
  end.
