(** Vocabulary for sortition with the binomial distribution itself. *)
From Coq Require Import Reals.
From Flocq Require Import Core BinarySingleNaN.
From Verif Require Import Base CommitteeModel FloatFacts.
Local Open Scope R_scope.

(** ** C147 *)
(** The probability of exactly [i] successes in [n] independent trials of probability [p]; [C] is the
    binomial coefficient of the standard library. *)
Definition successes (p : R) (n i : nat) : R := C n i * p ^ i * (1 - p) ^ (n - i).
(** The probability of at most [k] successes. *)
Definition binomial (p : R) (n k : N) : R := sum_f_R0 (successes p (N.to_nat n)) (N.to_nat k).
(** The program computes this probability as well as a float can tell it: the nearest float, for
    probabilities [p] that are floats. *)
Definition computes_binomial (cdf : f64 -> N -> N -> f64) : Prop :=
  forall (p : bf) (n k : N), is_finite p = true -> 0 <= b2r p <= 1 -> (k < n)%N ->
  exists c : bf, cdf (b2sf p) n k = b2sf c /\ is_finite c = true /\ b2r c = rnd (binomial (b2r p) n k).
(** The probability at which a unit of money is drawn, as the floats give it. *)
Definition draw (expected total : N) : R := rnd (rnd (IZR (Z.of_N expected)) / rnd (IZR (Z.of_N total))).
(** A hash as a number of the unit interval. *)
Definition fraction (hash : bytes) : R := IZR (Z.of_N (MsgpackModel.be_val hash)) / IZR (Z.of_N (2 ^ 256 - 1)).

(** ** C148 *)
(** The weight that a hash, given as a number below [2 ^ 256], decides. *)
Definition weight_at (cdf : f64 -> N -> N -> f64) (money total expected v : N) : N :=
  match select cdf money total (u64_as_f64 expected) (MsgpackModel.be 32 v) with Some w => w | None => 0%N end.
(** The sum over all numbers below [k], and the average. *)
Fixpoint below (k : nat) (f : N -> R) : R := match k with O => 0 | S k' => below k' f + f (N.of_nat k') end.
Definition average (m : N) (f : N -> R) : R := below (N.to_nat m) f / IZR (Z.of_N m).
(** The average weight of an account over all hashes, and the sum for many accounts. *)
Definition average_weight (cdf : f64 -> N -> N -> f64) (money total expected : N) : R :=
  average (2 ^ 256) (fun v => IZR (Z.of_N (weight_at cdf money total expected v))).
Definition all_money (accounts : list N) : N := fold_right N.add 0%N accounts.
Definition average_committee (cdf : f64 -> N -> N -> f64) (accounts : list N) (expected : N) : R :=
  fold_right Rplus 0 (map (fun money => average_weight cdf money (all_money accounts) expected) accounts).

(** ** C151 *)
(** The program computes the probability up to [eps], in any way: not rounded correctly, not even
    growing with [k]. *)
Definition near_binomial (eps : R) (cdf : f64 -> N -> N -> f64) : Prop :=
  forall (p : bf) (n k : N), is_finite p = true -> 0 <= b2r p <= 1 -> (k < n)%N ->
  exists c : bf, cdf (b2sf p) n k = b2sf c /\ is_finite c = true /\ Rabs (b2r c - binomial (b2r p) n k) <= eps.
