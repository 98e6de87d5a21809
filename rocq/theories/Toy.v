(** Small concrete instances used only in the examples beside the theorems. *)
From Verif Require Import Base.

(** A 32-byte checksum that depends on every input byte and its position; it stands
    for the hash function in examples. *)
Definition toy_mask : N := Eval vm_compute in (2 ^ 256 - 1)%N.
Fixpoint toy_sum (acc : N) (s : bytes) : N :=
  match s with
  | [] => acc
  | b :: r => toy_sum (N.land (acc * 257 + Byte.to_N b + 1) toy_mask) r
  end.
Fixpoint toy_digits (n : nat) (v : N) : bytes :=
  match n with
  | O => []
  | S n' => b8 (N.land v 255) :: toy_digits n' (N.shiftr v 8)
  end.
Definition toy_hash (s : bytes) : bytes := toy_digits 32 (toy_sum 7 s).

Lemma toy_digits_length n v : length (toy_digits n v) = n.
Proof. revert v; induction n as [|n IH]; intros v; cbn; [reflexivity|]. rewrite IH. reflexivity. Qed.

Lemma toy_hash32 : hash32 toy_hash.
Proof. intros s. apply toy_digits_length. Qed.

(** A keyed checksum standing for a signature: what key [k] puts under message [m]. *)
Definition toy_tag (k m : bytes) : bytes := toy_hash (k ++ m) ++ toy_hash (m ++ k).
