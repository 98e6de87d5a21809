(** Sortition and credentials, src/data/committee. *)
From Coq Require Import SpecFloat.
From Verif Require Import Base MsgpackModel DomainModel ConsensusModel BasicsModel.
From Verif Require VrfModel.
Local Open Scope N_scope.

(** ** Numbers of type [f64]: IEEE binary64 as in Coq's specification of floats, with round to
    nearest even; all NaNs are one. *)
(** as in sortition.rs:20-50 *)
Definition f64 := spec_float.
(** [n as f64] of a [u64]; sortition.rs:26 *)
Definition u64_as_f64 (n : N) : f64 := SpecFloat.binary_normalize 53 1024 (Z.of_N n) 0 false.
(** division, sortition.rs:26 *)
Definition f64_div : f64 -> f64 -> f64 := SFdiv 53 1024.
(** [>=], sortition.rs:45 *)
Definition f64_ge (a b : f64) : bool := match SFcompare a b with Some Eq | Some Gt => true | _ => false end.
(** [>] of Rust, for the statrs crate *)
Definition f64_gt (a b : f64) : bool := match SFcompare a b with Some Gt => true | _ => false end.
(** [<] of Rust, for the statrs crate *)
Definition f64_lt (a b : f64) : bool := match SFcompare a b with Some Lt => true | _ => false end.
(** [is_nan] of Rust, for the statrs crate *)
Definition f64_is_nan (a : f64) : bool := match a with S754_nan => true | _ => false end.
(** [BigRational::new(t, m).to_f64()] of num-rational, which rounds the quotient correctly; [m] is not zero;
    sortition.rs:35-36 *)
Definition ratio_to_f64 (t m : N) : f64 :=
  if t =? 0 then S754_zero false
  else let '(mz, ez, lz) := SFdiv_core_binary 53 1024 (Z.of_N t) 0 (Z.of_N m) 0 in SpecFloat.binary_round_aux 53 1024 false mz ez lz.

(** ** sortition.rs *)

(** sortition.rs:30-34 *)
Definition max_output : N := 2 ^ 256 - 1.
(** sortition.rs:43-46, the iterator over [0..n], [k] values being left *)
Fixpoint walk (found : N -> bool) (i : N) (k : nat) : N :=
  match k with O => i | S k' => if found i then i else walk found (i + 1) k' end.

Section Distribution.
(** [Binomial::cdf] of the statrs crate for probability, number of trials and argument *)
Variable cdf : f64 -> N -> N -> f64.

(** sortition.rs:41-47; [None] is the panic of [unwrap]: [Binomial::new] refuses NaN and values
    outside [0, 1] *)
Definition sortition_binomial_cdf_walk (n : N) (p ratio : f64) : option N :=
  if f64_is_nan p || f64_lt p (S754_zero false) || f64_gt p (u64_as_f64 1) then None
  else Some (walk (fun i => f64_ge (cdf p n i) ratio) 0 (N.to_nat n)).
(** sortition.rs:20-39 *)
Definition select (money total_money : N) (expected_size : f64) (vrf_output : bytes) : option N :=
  let p := f64_div expected_size (u64_as_f64 total_money) in
  let cratio := ratio_to_f64 (be_val vrf_output) max_output in
  sortition_binomial_cdf_walk money p cratio.

(** ** Credentials *)

(** mod.rs:15-18: a selector is its hashable form and its committee size *)
Record selector := mkSelector { sel_rep : bytes; committee_size : params -> N }.
(** mod.rs:24-34 *)
Record membership := mkMembership { mem_data : account; mem_addr : bytes; mem_selector : selector; total_money : N }.
(** credential.rs:49-56 *)
Record hashable_credential := mkHashable { raw_out : bytes; member : bytes; iter : N }.
(** credential.rs:37-46 *)
Record credential := mkCredential {
  weight : N;
  vrf_out : bytes;
  domain_separation_enabled : bool;
  hashable : option hashable_credential;
  inner : bytes
}.
(** credential.rs:16-22 *)
Inductive cred_error := VrfVerifyFailed | ZeroWeight.

(** credential.rs:228-232: [raw_out] is skipped by the encoding (51) *)
Definition hashable_rep (h : hashable_credential) : bytes :=
  hash_rep CREDENTIAL (encode (VArr [VBin (member h); VNum (iter h)])).

Section Hash.
Variables (C : VrfModel.curve) (H : bytes -> bytes).

(** credential.rs:59-66 *)
Definition new_credential (secrets : VrfModel.keypair) (sel : selector) : bytes :=
  VrfModel.prove_bytes C secrets (H (sel_rep sel)).

(** credential.rs:75-139 *)
Definition verify (proto : params) (self : bytes) (mem : membership) : outcome cred_error credential :=
  match VrfModel.verify_bytes C (selection_id (mem_data mem)) self (H (sel_rep (mem_selector mem))) with
  | Err _ => Err VrfVerifyFailed
  | Panic => Panic
  | Ok out =>
      let hc := mkHashable out (mem_addr mem) 0 in
      let h := if credential_domain_separation_enabled proto then H (hashable_rep hc) else H (out ++ mem_addr mem) in
      let user_money := voting_stake (mem_data mem) in
      let expected := committee_size (mem_selector mem) proto in
      if total_money mem <? user_money then Panic
      else if (total_money mem =? 0) || (expected =? 0) || (total_money mem <? expected) then Panic
      else
        match (if user_money =? 0 then Some 0 else select user_money (total_money mem) (u64_as_f64 expected) h) with
        | None => Panic
        | Some w =>
            if w =? 0 then Err ZeroWeight
            else Ok (mkCredential w h (credential_domain_separation_enabled proto)
                       (if credential_domain_separation_enabled proto then Some hc else None) self)
        end
  end.

(** credential.rs:143-145 *)
Definition selected (c : credential) : bool := 0 <? weight c.

(** helper: the assignment at credential.rs:176 *)
Definition with_iter (c : credential) (i : N) : credential :=
  mkCredential (weight c) (vrf_out c) (domain_separation_enabled c)
    (match hashable c with Some h => Some (mkHashable (raw_out h) (member h) i) | None => None end) (inner c).
(** credential.rs:174-182: the hash for counter [i]; [None] is the panic of [unwrap] *)
Definition output_hash (c : credential) (i : N) : option bytes :=
  if domain_separation_enabled c then
    match hashable c with Some h => Some (H (hashable_rep (mkHashable (raw_out h) (member h) i))) | None => None end
  else Some (H (vrf_out c ++ be 8 i ++ repeat x00 24)).
(** credential.rs:173-191, the loop from counter [i] on with [k] values left; the counter is kept in the credential *)
Fixpoint lowest_loop (c : credential) (i : N) (k : nat) (lowest : N) : credential * option N :=
  match k with
  | O => (c, Some lowest)
  | S k' =>
      match output_hash c i with
      | None => (c, None)
      | Some h =>
          let temp := be_val h in
          let lowest' := if i =? 1 then temp else if temp <? lowest then temp else lowest in
          lowest_loop (if domain_separation_enabled c then with_iter c i else c) (i + 1) k' lowest'
      end
  end.
(** credential.rs:158-195: the counters are those of [1..weight] *)
Definition lowest_output (c : credential) : credential * option N := lowest_loop c 1 (N.to_nat (weight c - 1)) 0.

(** [BigInt::to_bytes_be]: no leading zeroes, one byte for zero; credential.rs:200 *)
Definition big_bytes (n : N) : bytes := be (N.to_nat (N.max 1 ((N.size n + 7) / 8))) n.
(** credential.rs:199-207 *)
Definition lowest_output_digest (c : credential) : credential * option bytes :=
  match lowest_output c with
  | (c', None) => (c', None)
  | (c', Some n) =>
      let l := big_bytes n in
      (c', if (32 <? length l)%nat then None else Some (repeat x00 (32 - length l) ++ l))
  end.
(** credential.rs:213-218 *)
Definition lt (c d : credential) : credential * credential * option bool :=
  let (c', i1) := lowest_output c in
  let (d', i2) := lowest_output d in
  (c', d', match i1, i2 with Some a, Some b => Some (a <? b) | _, _ => None end).
(** credential.rs:221-226 *)
Definition cred_eqb (c d : credential) : bool := bytes_eqb (vrf_out c) (vrf_out d).
End Hash.
End Distribution.
