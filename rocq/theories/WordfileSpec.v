(** Lines and texts, independent of how they are read. *)
From Verif Require Import Base MnemonicModel JsonModel.
Local Open Scope N_scope.

(** Unicode scalar values. *)
Definition scalar (c : N) : Prop := c < 55296 \/ 57344 <= c < 1114112.
(** RFC 3629, section 3: [utf8_char c s] - the bytes [s] are the character [c]. *)
Inductive utf8_char : N -> bytes -> Prop :=
| one_byte c : c < 128 -> utf8_char c [b8 c]
| two_bytes c a b : 128 <= c < 2048 -> c = a * 64 + b -> b < 64 -> utf8_char c [b8 (192 + a); b8 (128 + b)]
| three_bytes c a b d : 2048 <= c < 65536 -> scalar c -> c = (a * 64 + b) * 64 + d -> b < 64 -> d < 64 ->
    utf8_char c [b8 (224 + a); b8 (128 + b); b8 (128 + d)]
| four_bytes c a b d e : 65536 <= c < 1114112 -> c = ((a * 64 + b) * 64 + d) * 64 + e -> b < 64 -> d < 64 -> e < 64 ->
    utf8_char c [b8 (240 + a); b8 (128 + b); b8 (128 + d); b8 (128 + e)].
(** [utf8_text t s]: the bytes [s] are the characters [t] one after the other. *)
Inductive utf8_text : text -> bytes -> Prop :=
| no_char : utf8_text [] []
| more_chars c t p s : utf8_char c p -> utf8_text t s -> utf8_text (c :: t) (p ++ s).

(** [without_return w l]: [l] is [w] without a carriage return at its end. *)
Inductive without_return : bytes -> bytes -> Prop :=
| has_return l : without_return (l ++ [x0d]) l
| has_none l : (forall k, l <> k ++ [x0d]) -> without_return l l.
(** [file_lines s ls]: the lines of the file [s] are [ls]. *)
Inductive file_lines : bytes -> list bytes -> Prop :=
| no_line : file_lines [] []
| last_line l : l <> [] -> ~ In x0a l -> file_lines l [l]
| ended_line w l r ls : ~ In x0a w -> without_return w l -> file_lines r ls -> file_lines (w ++ x0a :: r) (l :: ls).

(** [texts ls ws]: [ws] are the lines [ls] as texts, without those that are none. *)
Inductive texts : list bytes -> list text -> Prop :=
| no_texts : texts [] []
| good_line l t ls ws : utf8_text t l -> texts ls ws -> texts (l :: ls) (t :: ws)
| bad_line l ls ws : (forall t, ~ utf8_text t l) -> texts ls ws -> texts (l :: ls) ws.

(** The file with one word on each line. *)
Definition one_per_line (ls : list bytes) : bytes := flat_map (fun l => l ++ [x0a]) ls.
(** A line that can be written like that: no line end inside, no carriage return last. *)
Definition writable (l : bytes) : Prop := ~ In x0a l /\ forall k, l <> k ++ [x0d].
