(** What C163 says about mistyped texts. *)
From Verif Require Import Base.
Local Open Scope N_scope.

(** The same but for position [i]. *)
Definition differ_at {A} (i : nat) (l l' : list A) : Prop :=
  length l = length l' /\ forall j, nth_error l j = nth_error l' j <-> j <> i \/ nth_error l j = None.
(** The first eleven bits of a hash, those of the second byte taken from below. *)
Definition check_bits (h : bytes) : N :=
  match h with a :: b :: _ => Byte.to_N a + 256 * (Byte.to_N b mod 8) | _ => 0 end.
