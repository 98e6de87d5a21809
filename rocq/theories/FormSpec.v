(** The message-pack format, as its specification gives it: which byte strings stand for which
    value.  Floating point numbers are given by their bytes, extensions by type and bytes. *)
From Verif Require Import Base MsgpackModel.
Local Open Scope N_scope.

(** The number whose digits to base 256 are [s], most significant first. *)
Definition big (s : bytes) : N := fold_left (fun a b => 256 * a + Byte.to_N b) s 0.
(** Two's complement with [k] bytes. *)
Definition twos (k : nat) (n : N) : Z :=
  if (2 * Z.of_N n <? 256 ^ Z.of_nat k)%Z then Z.of_N n else (Z.of_N n - 256 ^ Z.of_nat k)%Z.
(** A marker for the number [n] of things to come: [base + n] if [n] is below [bound], or one
    of [markers] followed by that many bytes of the number. *)
Inductive announces (base bound : N) (markers : list (byte * nat)) : N -> bytes -> Prop :=
| announces_short n : n < bound -> announces base bound markers n [b8 (base + n)]
| announces_long m d : In (m, length d) markers -> announces base bound markers (big d) (m :: d).

Inductive form : value -> bytes -> Prop :=
| form_nil : form VNil [xc0]
| form_false : form (VBool false) [xc2]
| form_true : form (VBool true) [xc3]
| form_small n : n < 128 -> form (VInt (Z.of_N n)) [b8 n]
| form_negative n : 1 <= n <= 32 -> form (VInt (- Z.of_N n)) [b8 (256 - n)]
| form_unsigned m d : In (m, length d) [(xcc, 1%nat); (xcd, 2%nat); (xce, 4%nat); (xcf, 8%nat)] -> form (VInt (Z.of_N (big d))) (m :: d)
| form_signed m d : In (m, length d) [(xd0, 1%nat); (xd1, 2%nat); (xd2, 4%nat); (xd3, 8%nat)] -> form (VInt (twos (length d) (big d))) (m :: d)
| form_str c s : announces 160 32 [(xd9, 1%nat); (xda, 2%nat); (xdb, 4%nat)] (N.of_nat (length s)) c -> form (VStr s) (c ++ s)
| form_bin c s : announces 0 0 [(xc4, 1%nat); (xc5, 2%nat); (xc6, 4%nat)] (N.of_nat (length s)) c -> form (VBin s) (c ++ s)
| form_float m s : In (m, length s) [(xca, 4%nat); (xcb, 8%nat)] -> form (VFloat s) (m :: s)
| form_fixext m t s : In (m, length s) [(xd4, 1%nat); (xd5, 2%nat); (xd6, 4%nat); (xd7, 8%nat); (xd8, 16%nat)] -> form (VExt t s) (m :: t :: s)
| form_ext c t s : announces 0 0 [(xc7, 1%nat); (xc8, 2%nat); (xc9, 4%nat)] (N.of_nat (length s)) c -> form (VExt t s) (c ++ t :: s)
| form_arr c l s : announces 144 16 [(xdc, 2%nat); (xdd, 4%nat)] (N.of_nat (length l)) c -> forms l s -> form (VArr l) (c ++ s)
| form_map c l s : announces 128 16 [(xde, 2%nat); (xdf, 4%nat)] (N.of_nat (length l)) c -> pair_forms l s -> form (VMap l) (c ++ s)
with forms : list value -> bytes -> Prop :=
| forms_nil : forms [] []
| forms_cons v l s t : form v s -> forms l t -> forms (v :: l) (s ++ t)
with pair_forms : list (value * value) -> bytes -> Prop :=
| pair_forms_nil : pair_forms [] []
| pair_forms_cons k v l s t u : form k s -> form v t -> pair_forms l u -> pair_forms ((k, v) :: l) (s ++ t ++ u).
