(** JSON texts after RFC 8259, independent of how they are read. *)
From Verif Require Import Base JsonModel WordfileSpec.
Local Open Scope N_scope.

(** Section 2: white space. *)
Definition blanks (s : bytes) : Prop := Forall (fun b => In b [x20; x09; x0a; x0d]) s.

(** Section 6: numbers. *)
Definition digit (b : byte) (d : N) : Prop := d < 10 /\ b = b8 (48 + d).
(** [digits s n]: one or more digits, together the number [n]. *)
Inductive digits : bytes -> N -> Prop :=
| first_digit b d : digit b d -> digits [b] d
| next_digit s n b d : digits s n -> digit b d -> digits (s ++ [b]) (n * 10 + d).
(** No zeros in front. *)
Definition whole (s : bytes) (n : N) : Prop := digits s n /\ (s = [x30] \/ forall r, s <> x30 :: r).
Inductive fraction : bytes -> Prop :=
| a_fraction s n : digits s n -> fraction (x2e :: s).
Inductive exponent : bytes -> Prop :=
| an_exponent e sign s n : In e [x65; x45] -> In sign [[]; [x2b]; [x2d]] -> digits s n -> exponent (e :: sign ++ s).
Definition missing (s : bytes) : Prop := s = [].
(** Whole numbers that an [i64] or an [u64] holds are integers, negative zero is not. *)
Inductive number : bytes -> json -> Prop :=
| positive s n : whole s n -> n < 2 ^ 64 -> number s (JInt (Z.of_N n))
| negative s n : whole s n -> 0 < n <= 2 ^ 63 -> number (x2d :: s) (JInt (- Z.of_N n))
| large s n : whole s n -> 2 ^ 64 <= n -> number s JOther
| small s n : whole s n -> n = 0 \/ 2 ^ 63 < n -> number (x2d :: s) JOther
| fractional sign s n f e : In sign [[]; [x2d]] -> whole s n ->
    (fraction f /\ (missing e \/ exponent e)) \/ (missing f /\ exponent e) -> number (sign ++ s ++ f ++ e) JOther.

(** Section 7: strings, without the quotes. *)
Definition unescaped (b : byte) : Prop := 32 <= Byte.to_N b /\ b <> x22 /\ b <> x5c.
Definition hexadecimal (b : byte) (d : N) : Prop :=
  (d < 10 /\ b = b8 (48 + d)) \/ (10 <= d < 16 /\ (b = b8 (97 + (d - 10)) \/ b = b8 (65 + (d - 10)))).
Inductive four : bytes -> N -> Prop :=
| four_digits a b c d p q r t : hexadecimal a p -> hexadecimal b q -> hexadecimal c r -> hexadecimal d t ->
    four [a; b; c; d] (p * 4096 + q * 256 + r * 16 + t).
Definition escapes : list (byte * byte) :=
  [(x22, x22); (x5c, x5c); (x2f, x2f); (x62, x08); (x66, x0c); (x6e, x0a); (x72, x0d); (x74, x09)].
(** What may stand between quotes. *)
Inductive quotable : bytes -> Prop :=
| q_end : quotable []
| q_plain b s : unescaped b -> quotable s -> quotable (b :: s)
| q_escape e c s : In (e, c) escapes -> quotable s -> quotable (x5c :: e :: s)
| q_code h n s : four h n -> quotable s -> quotable (x5c :: x75 :: h ++ s).
(** [spells s t]: [s] stands for the bytes [t]. *)
Inductive spells : bytes -> bytes -> Prop :=
| s_end : spells [] []
| s_plain b s t : unescaped b -> spells s t -> spells (b :: s) (b :: t)
| s_escape e c s t : In (e, c) escapes -> spells s t -> spells (x5c :: e :: s) (c :: t)
| s_code h n p s t : four h n -> utf8_char n p -> spells s t -> spells (x5c :: x75 :: h ++ s) (p ++ t)
| s_pair h n k m p s t : four h (55296 + n) -> four k (56320 + m) -> n < 1024 -> m < 1024 ->
    utf8_char (65536 + n * 1024 + m) p -> spells s t -> spells (x5c :: x75 :: h ++ x5c :: x75 :: k ++ s) (p ++ t).
Definition is_text (t : bytes) : Prop := exists cs, utf8_text cs t.
(** Not all strings have a text: surrogates may stand alone. *)
Inductive string_text : bytes -> option bytes -> Prop :=
| has_text s t : spells s t -> is_text t -> string_text s (Some t)
| has_no_text s : quotable s -> (forall t, spells s t -> ~ is_text t) -> string_text s None.

(** [separated Q s l]: one or more elements as [Q] says, with commas between them and white
    space around them. *)
Inductive separated {A} (Q : bytes -> A -> Prop) : bytes -> list A -> Prop :=
| last_one w s w' a : blanks w -> Q s a -> blanks w' -> separated Q (w ++ s ++ w') [a]
| one_more w s w' a r l : blanks w -> Q s a -> blanks w' -> separated Q r l -> separated Q (w ++ s ++ w' ++ x2c :: r) (a :: l).
(** A name, a colon and a value. *)
Inductive member (Q : bytes -> json -> Prop) : bytes -> option bytes * json -> Prop :=
| a_member k key w w' s v : string_text k key -> blanks w -> blanks w' -> Q s v ->
    member Q (x22 :: k ++ x22 :: w ++ x3a :: w' ++ s) (key, v).

(** Sections 3, 4 and 5: values.  An object in which some name has no text is only good for
    being ignored. *)
Inductive json_text : bytes -> json -> Prop :=
| null_text : json_text (str "null") JNull
| true_text : json_text (str "true") (JBool true)
| false_text : json_text (str "false") (JBool false)
| number_text s v : number s v -> json_text s v
| some_string s t : string_text s (Some t) -> json_text (x22 :: s ++ [x22]) (JStr t)
| other_string s : string_text s None -> json_text (x22 :: s ++ [x22]) JOther
| empty_array w : blanks w -> json_text (x5b :: w ++ [x5d]) (JArr [])
| some_array s l : separated json_text s l -> json_text (x5b :: s ++ [x5d]) (JArr l)
| empty_object w : blanks w -> json_text (x7b :: w ++ [x7d]) (JObj [])
| some_object s m : separated (member json_text) s (map (fun e => (Some (fst e), snd e)) m) ->
    json_text (x7b :: s ++ [x7d]) (JObj m)
| other_object s m v : separated (member json_text) s m -> In (None, v) m -> json_text (x7b :: s ++ [x7d]) JOther.
(** Section 2: a text is a value with white space around it. *)
Inductive document : bytes -> json -> Prop :=
| a_document w s w' v : blanks w -> json_text s v -> blanks w' -> document (w ++ s ++ w') v.

(** All strings in the value are UTF-8. *)
Fixpoint utf8_json (v : json) : Prop :=
  match v with
  | JStr s => utf8 s = true
  | JArr l => (fix all (l : list json) : Prop := match l with [] => True | x :: r => utf8_json x /\ all r end) l
  | JObj m => (fix all (m : list (bytes * json)) : Prop := match m with [] => True | (k, x) :: r => (utf8 k = true /\ utf8_json x) /\ all r end) m
  | _ => True
  end.
