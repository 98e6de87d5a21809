(** What the text forms are, independently of the conversion routines (RFC 4648). *)
From Verif Require Import Base.
Local Open Scope N_scope.

(** The number written with digits [ds] in base [b], most significant first. *)
Definition be_value (b : N) (ds : list N) : N := fold_left (fun a d => b * a + d) ds 0.

(** Digits 0 to 31 are written A to Z and 2 to 7. *)
Definition digit_char (d : N) : N := if d <? 26 then 65 + d else 50 + (d - 26).

(** [text] is the base-32 form of [data]: as few digits as can hold the bits of [data],
    and the unused [z] low bits are zero. *)
Definition is_base32 (data text : bytes) : Prop :=
  exists ds z, (z < 5)%nat /\ (5 * length ds = 8 * length data + z)%nat /\
    Forall (fun d => d < 32) ds /\ map Byte.to_N text = map digit_char ds /\
    be_value 32 ds = be_value 256 (map Byte.to_N data) * 2 ^ N.of_nat z.

(** The text form of an address: the address and the last four bytes of its hash. *)
Definition is_address_text (H : bytes -> bytes) (addr text : bytes) : Prop :=
  is_base32 (addr ++ skipn 28 (H addr)) text.
