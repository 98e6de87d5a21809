(** Vocabulary for the committees of the built-in protocols. *)
From Coq Require Import Reals.
From Flocq Require Import Core.
From Verif Require Import Base ConsensusModel CommitteeModel BinomialSpec SplitSpec.
Local Open Scope R_scope.

(** ** C155 *)
(** The expected number of draws of the accounts. *)
Definition expected_draws (total expected : N) (accounts : list N) : R := IZR (Z.of_N (all_money accounts)) * draw expected total.
(** The errors of the library and of the floats, once for each account. *)
Definition errors (eps : R) (accounts : list N) : R := INR (length accounts) * (eps + bpow radix2 (-53)).
(** The committees of a protocol: the expected number of votes and the number of votes needed. *)
Definition committees (p : params) : list (N * N) :=
  [(soft_committee_size p, soft_committee_threshold p); (cert_committee_size p, cert_committee_threshold p);
   (next_committee_size p, next_committee_threshold p); (late_committee_size p, late_committee_threshold p);
   (redo_committee_size p, redo_committee_threshold p); (down_committee_size p, down_committee_threshold p)].
(** The share of the combinations of hashes with which the accounts get fewer votes than needed. *)
Definition misses (cdf : f64 -> N -> N -> f64) (total size needed : N) (accounts : list N) : R :=
  drawn_at_most cdf total size accounts (needed - 1).
(** The share with which they get as many as needed. *)
Definition reaches_needed (cdf : f64 -> N -> N -> f64) (total size needed : N) (accounts : list N) : R :=
  1 - misses cdf total size needed accounts.
