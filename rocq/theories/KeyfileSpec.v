(** Independent description of key file names. *)
From Verif Require Import Base.
Local Open Scope N_scope.

(** [text] is the decimal numeral of [n] without leading zeros. *)
Definition is_decimal (n : N) (text : bytes) : Prop :=
  text <> [] /\
  Forall (fun b => 48 <= Byte.to_N b <= 57) text /\
  fold_left (fun v b => 10 * v + (Byte.to_N b - 48)) text 0 = n /\
  (length text > 1 -> hd x00 text <> x30)%nat.

(** [name] is [account.first.last.partkey] *)
Definition is_part_name (account : bytes) (first last : N) (name : bytes) : Prop :=
  exists f l, is_decimal first f /\ is_decimal last l /\
  name = account ++ str "." ++ f ++ str "." ++ l ++ str ".partkey".
