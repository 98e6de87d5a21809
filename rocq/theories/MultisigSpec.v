(** Vocabulary for the statements about multisignatures. *)
From Verif Require Import Base MultisigModel.

(** The string hashed into a multisig address. *)
Definition address_string (v t : N) (pks : list bytes) : bytes :=
  str "MultisigAddr" ++ [b8 v; b8 t] ++ concat pks.

(** Slot [i] carries signature [s]. *)
Definition slot_sig (m : multisig) (i : nat) (s : bytes) : Prop :=
  exists e, nth_error (subsigs m) i = Some e /\ sig e = Some s.
Definition slot_key (m : multisig) (i : nat) (k : bytes) : Prop :=
  exists e, nth_error (subsigs m) i = Some e /\ key e = k.
Definition keys (m : multisig) : list bytes := map key (subsigs m).

(** At least [t] slots are signed: [t] different slot numbers carry a signature. *)
Definition signed_slots_at_least (m : multisig) (t : N) : Prop :=
  exists is, NoDup is /\ N.of_nat (length is) = t /\ forall i, In i is -> exists s, slot_sig m i s.

(** At least [t] different public keys have signed. *)
Definition signers_at_least (m : multisig) (t : N) : Prop :=
  exists ks, NoDup ks /\ N.of_nat (length ks) = t /\
    forall k, In k ks -> exists i s, slot_key m i k /\ slot_sig m i s.

(** The first slot is not the blank slot (default key, no signature), which the code
    takes for "there is no multisignature". *)
Definition first_slot_not_blank (m : multisig) : Prop :=
  nth_error (subsigs m) 0 <> Some default_subsig.

(** m-of-n acceptance. *)
Definition acceptable (H : bytes -> bytes) (sc : scheme) (m : multisig) (msg addr : bytes) : Prop :=
  version m = 1%N /\
  (1 <= threshold m <= N.of_nat (length (keys m)))%N /\ length (keys m) <= 255 /\
  addr = H (address_string (version m) (threshold m) (keys m)) /\
  signed_slots_at_least m (threshold m) /\
  forall i k s, slot_key m i k -> slot_sig m i s -> check sc k msg s = true.

(** Two multisignatures are over the same version, threshold and keys. *)
Definition same_preimage (a b : multisig) : Prop :=
  version a = version b /\ threshold a = threshold b /\ keys a = keys b.

(** Slot [i] carries different signatures in the two. *)
Definition slot_conflict (a b : multisig) : Prop :=
  exists i s s', slot_sig a i s /\ slot_sig b i s' /\ s <> s'.

(** Enqueue (key, message, signature) triples one after the other. *)
Definition enqueue_list (ts : list (bytes * bytes * bytes)) (b : batch_verifier) : batch_verifier :=
  fold_left (fun b '(pk, m, s) => enque_sig pk m s b) ts b.
