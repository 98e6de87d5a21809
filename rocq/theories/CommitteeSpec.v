(** Vocabulary for sortition and credentials. *)
From Coq Require Import SpecFloat.
From Verif Require Import Base MsgpackModel ConsensusModel BasicsModel CommitteeModel.
From Verif Require VrfModel.
Local Open Scope N_scope.

(** ** C58 *)
(** [w] is the least number below [n] with the property, or [n] if there is none. *)
Definition least_or (n : N) (P : N -> Prop) (w : N) : Prop :=
  w <= n /\ (forall i, i < w -> ~ P i) /\ (w < n -> P w).
(** [a >= b] of floats; never with a NaN *)
Definition reaches (a b : f64) : Prop := SFcompare a b = Some Eq \/ SFcompare a b = Some Gt.
(** the number is a value of type f64 *)
Definition is_f64 (a : f64) : Prop := valid_binary 53 1024 a = true.

(** ** C59 *)
(** What is hashed to decide the weight, for VRF output [out]: with domain separation the
    member and counter zero under the credential prefix, without it output and address. *)
Definition deciding_input (proto : params) (out addr : bytes) : bytes :=
  if credential_domain_separation_enabled proto then str "CR" ++ encode (VArr [VBin addr; VNum 0]) else out ++ addr.
Definition deciding_hash (H : bytes -> bytes) (proto : params) (out addr : bytes) : bytes := H (deciding_input proto out addr).
(** The stake totals are possible. *)
Definition totals_ok (stake total expected : N) : Prop := stake <= total /\ 0 < total /\ 0 < expected /\ expected <= total.
Definition output_of (C : VrfModel.curve) (H : bytes -> bytes) (mem : membership) (proof : bytes) : outcome VrfModel.vrf_error bytes :=
  VrfModel.verify_bytes C (selection_id (mem_data mem)) proof (H (sel_rep (mem_selector mem))).

(** ** C60 *)
(** The hash of a credential with counter [i], as a number. *)
Definition counter_value (H : bytes -> bytes) (c : credential) (i : N) : N :=
  be_val (match domain_separation_enabled c, hashable c with
          | true, Some h => H (str "CR" ++ encode (VArr [VBin (member h); VNum i]))
          | _, _ => H (vrf_out c ++ be 8 i ++ repeat x00 24)
          end).
Definition minimum_of (values : N -> N) (first last : N) (m : N) : Prop :=
  (exists i, first <= i <= last /\ values i = m) /\ (forall i, first <= i <= last -> m <= values i).
(** As made by verification: the hashable part is there when it is needed. *)
Definition complete (c : credential) : Prop := domain_separation_enabled c = true -> hashable c <> None.
