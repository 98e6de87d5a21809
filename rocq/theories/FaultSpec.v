(** Failures of the key store. *)
From Verif Require Import Base.

(** One of [n] operations on the store, writes and the final flush, fails: [fault] is the number of
    the failing one, counted from zero. *)
Definition one_fails (fault : option nat) (n : nat) : Prop := exists i, fault = Some i /\ (i < n)%nat.
