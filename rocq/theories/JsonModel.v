(** JSON as [serde_json] 1 reads and writes it, for the shapes the configuration files use. *)
From Verif Require Import Base KeyfileModel.
Local Open Scope N_scope.

(** [JOther] is what can only be ignored.  Any number with a fraction, an exponent, a negative
    zero, or outside the ranges of [i64] and [u64]: no field of the structures read here is a
    float, so its value never matters.  A string that is no text, as [ignore_str] does not
    look at the characters, and an object with such a string as a key.
    Values written at src/config/mod.rs:665 and src/config/consensus.rs:508, and read at src/config/mod.rs:525,639 and src/config/consensus.rs:603 *)
Inductive json :=
| JNull
| JBool (b : bool)
| JInt (z : Z)
| JOther
| JStr (s : bytes)
| JArr (l : list json)
| JObj (m : list (bytes * json)).

(** [String::from_utf8], used by [fs::read_to_string]: well-formed UTF-8; std, for src/config/mod.rs:510,634 *)
Definition cont (b : byte) : bool := (128 <=? Byte.to_N b) && (Byte.to_N b <=? 191).
(** a byte of a range, for [utf8]; std, for src/config/mod.rs:510,634 *)
Definition between (lo hi : N) (b : byte) : bool := (lo <=? Byte.to_N b) && (Byte.to_N b <=? hi).
(** [str::from_utf8] of std, for src/config/mod.rs:510,634 *)
Fixpoint utf8 (s : bytes) : bool :=
  match s with
  | [] => true
  | a :: r =>
      let n := Byte.to_N a in
      if n <? 128 then utf8 r
      else if n <? 194 then false
      else if n <? 224 then match r with b :: r' => cont b && utf8 r' | _ => false end
      else if n <? 240 then
        match r with
        | b :: c :: r' => (if n =? 224 then between 160 191 b else if n =? 237 then between 128 159 b else cont b) && cont c && utf8 r'
        | _ => false
        end
      else if n <? 245 then
        match r with
        | b :: c :: d :: r' =>
            (if n =? 240 then between 144 191 b else if n =? 244 then between 128 143 b else cont b) && cont c && cont d && utf8 r'
        | _ => false
        end
      else false
  end.

(** *** Writing *)

(** [serde_json::ser::format_escaped_str_contents]: quotes, backslashes and control characters *)
Definition hex_digit (n : N) : byte := if n <? 10 then b8 (48 + n) else b8 (87 + n).
(** what stands for a byte in a string; serde_json, for src/config/mod.rs:665 and src/config/consensus.rs:508 *)
Definition escape (b : byte) : bytes :=
  let n := Byte.to_N b in
  if n =? 34 then [x5c; x22]
  else if n =? 92 then [x5c; x5c]
  else if n =? 8 then [x5c; x62]
  else if n =? 9 then [x5c; x74]
  else if n =? 10 then [x5c; x6e]
  else if n =? 12 then [x5c; x66]
  else if n =? 13 then [x5c; x72]
  else if n <? 32 then [x5c; x75; x30; x30; hex_digit (n / 16); hex_digit (n mod 16)]
  else [b].
(** [format_escaped_str]; serde_json, for src/config/mod.rs:665 and src/config/consensus.rs:508 *)
Definition quote (s : bytes) : bytes := x22 :: flat_map escape s ++ [x22].

(** [Display] for integers; serde_json, for src/config/mod.rs:665 and src/config/consensus.rs:508 *)
Definition dec_z (z : Z) : bytes := if (z <? 0)%Z then x2d :: dec (Z.abs_N z) else dec (Z.abs_N z).

(** [serde_json::to_writer_pretty]: [PrettyFormatter] with an indentation of two spaces *)
Definition new_line (ind : nat) : bytes := x0a :: repeat x20 (2 * ind).
(** The elements of an array or object, each on its own line.
    serde_json, [PrettyFormatter], for src/config/mod.rs:665 and src/config/consensus.rs:508 *)
Definition lines {A} (pr : A -> bytes) (ind : nat) : bool -> list A -> bytes :=
  fix go (first : bool) (l : list A) : bytes :=
    match l with
    | [] => []
    | x :: r => (if first then [] else [x2c]) ++ new_line ind ++ pr x ++ go false r
    end.
(** [to_writer_pretty]; serde_json, for src/config/mod.rs:665 and src/config/consensus.rs:508 *)
Fixpoint pretty (ind : nat) (v : json) : bytes :=
  match v with
  | JNull => str "null"
  | JBool true => str "true"
  | JBool false => str "false"
  | JInt z => dec_z z
  | JOther => str "0.5" (* never written *)
  | JStr s => quote s
  | JArr [] => str "[]"
  | JArr l => x5b :: lines (pretty (S ind)) (S ind) true l ++ new_line ind ++ [x5d]
  | JObj [] => str "{}"
  | JObj m => x7b :: lines (fun e => quote (fst e) ++ x3a :: x20 :: pretty (S ind) (snd e)) (S ind) true m ++ new_line ind ++ [x7d]
  end.

(** *** Reading *)

(** white space; serde_json, for src/config/mod.rs:525,639 and src/config/consensus.rs:603 *)
Definition is_ws (b : byte) : bool :=
  let n := Byte.to_N b in (n =? 32) || (n =? 10) || (n =? 9) || (n =? 13).
(** [parse_whitespace]; serde_json, for src/config/mod.rs:525,639 and src/config/consensus.rs:603 *)
Fixpoint skip_ws (s : bytes) : bytes :=
  match s with
  | [] => []
  | b :: r => if is_ws b then skip_ws r else s
  end.
(** The rest of [s] after the literal [p].
    serde_json, for src/config/mod.rs:525,639 and src/config/consensus.rs:603 *)
Fixpoint after (p s : bytes) : option bytes :=
  match p, s with
  | [], _ => Some s
  | a :: p', b :: s' => if Byte.eqb a b then after p' s' else None
  | _, _ => None
  end.

(** a decimal digit; serde_json, for src/config/mod.rs:525,639 and src/config/consensus.rs:603 *)
Definition is_digit (b : byte) : bool := (48 <=? Byte.to_N b) && (Byte.to_N b <=? 57).
(** the digits a text begins with, and the rest; serde_json, for src/config/mod.rs:525,639 and src/config/consensus.rs:603 *)
Fixpoint span_digits (s : bytes) : bytes * bytes :=
  match s with
  | [] => ([], [])
  | b :: r => if is_digit b then let '(d, r') := span_digits r in (b :: d, r') else ([], s)
  end.
(** the number digits stand for; serde_json, for src/config/mod.rs:525,639 and src/config/consensus.rs:603 *)
Definition digits_value (ds : bytes) : N := fold_left (fun a b => a * 10 + (Byte.to_N b - 48)) ds 0.

(** [.digits] and [e±digits], each optional; the flag says whether one was there;
    serde_json, for src/config/mod.rs:525,639 and src/config/consensus.rs:603 *)
Definition read_fraction (s : bytes) : option (bool * bytes) :=
  match s with
  | b :: r =>
      if Byte.to_N b =? 46 then
        match span_digits r with ([], _) => None | (_, r') => Some (true, r') end
      else Some (false, s)
  | [] => Some (false, s)
  end.
(** [parse_exponent]; serde_json, for src/config/mod.rs:525,639 and src/config/consensus.rs:603 *)
Definition read_exponent (s : bytes) : option (bool * bytes) :=
  match s with
  | b :: r =>
      if (Byte.to_N b =? 101) || (Byte.to_N b =? 69) then
        let r1 := match r with c :: t => if (Byte.to_N c =? 43) || (Byte.to_N c =? 45) then t else r | [] => r end in
        match span_digits r1 with ([], _) => None | (_, r') => Some (true, r') end
      else Some (false, s)
  | [] => Some (false, s)
  end.
(** [Deserializer::parse_integer], [parse_number], [parse_decimal], [parse_exponent];
    serde_json, for src/config/mod.rs:525,639 and src/config/consensus.rs:603 *)
Definition read_unsigned (neg : bool) (s : bytes) : option (json * bytes) :=
  let '(ds, s2) := span_digits s in
  match ds with
  | [] => None
  | d :: more =>
      if (Byte.to_N d =? 48) && negb (match more with [] => true | _ => false end) then None
      else
        match read_fraction s2 with
        | None => None
        | Some (f, s3) =>
            match read_exponent s3 with
            | None => None
            | Some (e, s4) =>
                let v := digits_value ds in
                Some (if f || e then JOther
                      else if neg then (if (v =? 0) || (2 ^ 63 <? v) then JOther else JInt (- Z.of_N v))
                      else if v <? two64 then JInt (Z.of_N v) else JOther, s4)
            end
        end
  end.
(** a number with an optional minus sign; serde_json, for src/config/mod.rs:525,639 and src/config/consensus.rs:603 *)
Definition read_number (s : bytes) : option (json * bytes) :=
  match s with
  | b :: r => if Byte.to_N b =? 45 then read_unsigned true r else read_unsigned false s
  | [] => None
  end.

(** [\u] and four hexadecimal digits; serde_json, for src/config/mod.rs:525,639 and src/config/consensus.rs:603 *)
Definition hex_value (b : byte) : option N :=
  let n := Byte.to_N b in
  if (48 <=? n) && (n <=? 57) then Some (n - 48)
  else if (97 <=? n) && (n <=? 102) then Some (n - 87)
  else if (65 <=? n) && (n <=? 70) then Some (n - 55)
  else None.
(** [decode_hex_escape]; serde_json, for src/config/mod.rs:525,639 and src/config/consensus.rs:603 *)
Definition hex4 (a b c d : byte) : option N :=
  match hex_value a, hex_value b, hex_value c, hex_value d with
  | Some p, Some q, Some r, Some t => Some (((p * 16 + q) * 16 + r) * 16 + t)
  | _, _, _, _ => None
  end.
(** [char::encode_utf8]; std, for src/config/mod.rs:525,639 and src/config/consensus.rs:603 *)
Definition utf8_of (c : N) : bytes :=
  if c <? 128 then [b8 c]
  else if c <? 2048 then [b8 (192 + c / 64); b8 (128 + c mod 64)]
  else if c <? 65536 then [b8 (224 + c / 4096); b8 (128 + c / 64 mod 64); b8 (128 + c mod 64)]
  else [b8 (240 + c / 262144); b8 (128 + c / 4096 mod 64); b8 (128 + c / 64 mod 64); b8 (128 + c mod 64)].
(** the escapes of one character, in [parse_escape]; serde_json, for src/config/mod.rs:525,639 and src/config/consensus.rs:603 *)
Definition simple_escape (e : byte) : option byte :=
  let n := Byte.to_N e in
  if n =? 34 then Some x22 else if n =? 92 then Some x5c else if n =? 47 then Some x2f
  else if n =? 98 then Some x08 else if n =? 102 then Some x0c else if n =? 110 then Some x0a
  else if n =? 114 then Some x0d else if n =? 116 then Some x09 else None.
(** second half of a pair, in [parse_unicode_escape]; serde_json, for src/config/mod.rs:525,639 and src/config/consensus.rs:603 *)
Definition low_surrogate (n : N) : bool := (56320 <=? n) && (n <=? 57343).
(** first half of a pair, in [parse_unicode_escape]; serde_json, for src/config/mod.rs:525,639 and src/config/consensus.rs:603 *)
Definition high_surrogate (n : N) : bool := (55296 <=? n) && (n <=? 56319).
(** A string is read as [SliceRead::ignore_str] does; this gives its bytes and the numbers
    given by [\u].  [parse_str] also puts them together, which can fail.
    serde_json, for src/config/mod.rs:525,639 and src/config/consensus.rs:603 *)
Inductive piece := Plain (b : byte) | Code (n : N).
(** helper of [read_pieces]: puts a piece in front; for src/config/mod.rs:525,639 and src/config/consensus.rs:603 *)
Definition then_piece (p : piece) (o : option (list piece * bytes)) : option (list piece * bytes) :=
  match o with Some (ps, r) => Some (p :: ps, r) | None => None end.
(** [ignore_str] and [ignore_escape]; the opening quote has been read;
    serde_json, for src/config/mod.rs:525,639 and src/config/consensus.rs:603 *)
Fixpoint read_pieces (s : bytes) : option (list piece * bytes) :=
  match s with
  | [] => None
  | b :: r =>
      if Byte.to_N b =? 34 then Some ([], r)
      else if Byte.to_N b =? 92 then
        match r with
        | [] => None
        | e :: r1 =>
            if Byte.to_N e =? 117 then
              match r1 with
              | h1 :: h2 :: h3 :: h4 :: r2 =>
                  match hex4 h1 h2 h3 h4 with
                  | Some n => then_piece (Code n) (read_pieces r2)
                  | None => None
                  end
              | _ => None
              end
            else match simple_escape e with
                 | Some c => then_piece (Plain c) (read_pieces r1)
                 | None => None
                 end
        end
      else if Byte.to_N b <? 32 then None
      else then_piece (Plain b) (read_pieces r)
  end.
(** [parse_escape] and [parse_unicode_escape];
    serde_json, for src/config/mod.rs:525,639 and src/config/consensus.rs:603 *)
Fixpoint join_pieces (ps : list piece) : option bytes :=
  match ps with
  | [] => Some []
  | Plain b :: r => option_map (cons b) (join_pieces r)
  | Code n :: r =>
      if low_surrogate n then None
      else if high_surrogate n then
        match r with
        | Code m :: r' =>
            if low_surrogate m
            then option_map (app (utf8_of ((n - 55296) * 1024 + (m - 56320) + 65536))) (join_pieces r')
            else None
        | _ => None
        end
      else option_map (app (utf8_of n)) (join_pieces r)
  end.
(** [as_str], called by [parse_str]: the text has to be UTF-8;
    serde_json, for src/config/mod.rs:525,639 and src/config/consensus.rs:603 *)
Definition text_of (ps : list piece) : option bytes :=
  match join_pieces ps with Some t => if utf8 t then Some t else None | None => None end.
(** [parse_str]; serde_json, for src/config/mod.rs:525,639 and src/config/consensus.rs:603 *)
Definition read_string (s : bytes) : option (option bytes * bytes) :=
  match read_pieces s with Some (ps, r) => Some (text_of ps, r) | None => None end.

(** The elements of an array or object that is not empty: one element, then a comma and the
    next or the closing bracket; [fuel] bounds their number.
    serde_json, for src/config/mod.rs:525,639 and src/config/consensus.rs:603 *)
Fixpoint read_items {A} (read : bytes -> option (A * bytes)) (close : N) (fuel : nat) (s : bytes) : option (list A * bytes) :=
  match fuel with
  | O => None
  | S k =>
      match read s with
      | None => None
      | Some (a, r) =>
          match skip_ws r with
          | [] => None
          | b :: r' =>
              if Byte.to_N b =? 44 then
                match read_items read close k r' with
                | Some (l, r'') => Some (a :: l, r'')
                | None => None
                end
              else if Byte.to_N b =? close then Some ([a], r')
              else None
          end
      end
  end.
(** elements between brackets, possibly none; serde_json, for src/config/mod.rs:525,639 and src/config/consensus.rs:603 *)
Definition read_sequence {A} (read : bytes -> option (A * bytes)) (close : N) (s : bytes) : option (list A * bytes) :=
  match skip_ws s with
  | b :: r => if Byte.to_N b =? close then Some ([], r) else read_items read close (length s) s
  | [] => None
  end.
(** A key, a colon and a value. serde_json, for src/config/mod.rs:525,639 and src/config/consensus.rs:603 *)
Definition read_member {A} (read : bytes -> option (A * bytes)) (s : bytes) : option ((option bytes * A) * bytes) :=
  match skip_ws s with
  | b :: r =>
      if Byte.to_N b =? 34 then
        match read_string r with
        | None => None
        | Some (k, r1) =>
            match skip_ws r1 with
            | c :: r2 =>
                if Byte.to_N c =? 58 then
                  match read r2 with Some (v, r3) => Some ((k, v), r3) | None => None end
                else None
            | [] => None
            end
        end
      else None
  | [] => None
  end.

(** An object, if all its keys are texts.
    serde_json, for src/config/mod.rs:525,639 and src/config/consensus.rs:603 *)
Fixpoint keyed (m : list (option bytes * json)) : option (list (bytes * json)) :=
  match m with
  | [] => Some []
  | (Some k, v) :: r => option_map (cons (k, v)) (keyed r)
  | (None, _) :: _ => None
  end.
(** an object as a value; serde_json, for src/config/mod.rs:525,639 and src/config/consensus.rs:603 *)
Definition object_json (m : list (option bytes * json)) : json := match keyed m with Some m' => JObj m' | None => JOther end.
(** a string as a value; serde_json, for src/config/mod.rs:525,639 and src/config/consensus.rs:603 *)
Definition string_json (t : option bytes) : json := match t with Some t => JStr t | None => JOther end.
(** [Deserializer::deserialize_any] and [ignore_value]; [fuel] bounds the depth.  The limit of
    128 levels that [serde_json] sets does not apply to values that are ignored, and no others
    are that deep. *)
Fixpoint read_value (fuel : nat) (s : bytes) : option (json * bytes) :=
  match fuel with
  | O => None
  | S k =>
      match skip_ws s with
      | [] => None
      | b :: r =>
          let n := Byte.to_N b in
          if n =? 34 then match read_string r with Some (t, r') => Some (string_json t, r') | None => None end
          else if n =? 91 then match read_sequence (read_value k) 93 r with Some (l, r') => Some (JArr l, r') | None => None end
          else if n =? 123 then match read_sequence (read_member (read_value k)) 125 r with Some (m, r') => Some (object_json m, r') | None => None end
          else if n =? 110 then match after (str "ull") r with Some r' => Some (JNull, r') | None => None end
          else if n =? 116 then match after (str "rue") r with Some r' => Some (JBool true, r') | None => None end
          else if n =? 102 then match after (str "alse") r with Some r' => Some (JBool false, r') | None => None end
          else read_number (b :: r)
      end
  end.

(** [serde_json::from_str]: one value and nothing after it but white space *)
Definition parse (s : bytes) : option json :=
  match read_value (S (length s)) s with
  | Some (v, r) => match skip_ws r with [] => Some v | _ => None end
  | None => None
  end.
