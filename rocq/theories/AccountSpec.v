(** Vocabulary for the statements about accounts, their store and the account manager. *)
From Verif Require Import Base MsgpackModel Scheme ConsensusModel OtsModel OtsSpec AccountModel.
From Verif Require VrfModel BlockModel.
Local Open Scope N_scope.

(** ** C68 *)
(** The one-time identifier of a round. *)
Definition round_id (r dilution : N) : identifier := mkId (r / dilution) (r mod dilution).
(** The participation can sign any message for round [r], and the signature verifies. *)
Definition can_sign (sc : scheme) (md : mode) (p : participation) (r : N) : Prop :=
  forall msg fresh, exists s, sign sc md (voting p) (round_id r (part_dilution p)) msg fresh = Some s /\
    verify sc s (round_id r (part_dilution p)) msg (verifier (voting p)) = true.
(** The same of a scheme whose own signatures may fail to check. *)
Definition signs (sc : scheme) (md : mode) (p : participation) (r : N) : Prop :=
  forall msg fresh, exists s, sign sc md (voting p) (round_id r (part_dilution p)) msg fresh = Some s /\
    (verify sc s (round_id r (part_dilution p)) msg (verifier (voting p)) = true \/ self_refuted sc s).
(** Signing for round [r] gives the all-zero signature. *)
Definition cannot_sign (sc : scheme) (md : mode) (p : participation) (r : N) : Prop :=
  forall msg fresh, sign sc md (voting p) (round_id r (part_dilution p)) msg fresh = Some null_ots.
(** A round whose successor in the key tree fits 64 bits. *)
Definition round_ok (r dilution : N) : Prop := u64 r /\ ~ (r = max64 /\ dilution = 1).
(** A sequence of calls of [delete_old_keys], each with its round and random secrets, on
    storage without faults; [None] if one panics. *)
Fixpoint age (sc : scheme) (md : mode) (proto : params) (cs : list (N * (N -> bytes))) (p : participation) (st : store) : option (participation * store) :=
  match cs with
  | [] => Some (p, st)
  | (c, rng) :: r =>
      match delete_old_keys sc md st p c proto rng None with
      | (p', st', Ok _) => age sc md proto r p' st'
      | _ => None
      end
  end.

(** ** C69 *)
Definition same_keys (p q : participation) : Prop :=
  parent p = parent q /\ part_first p = part_first q /\ part_last p = part_last q /\
  verifier (voting p) = verifier (voting q) /\ VrfModel.public_key (vrf p) = VrfModel.public_key (vrf q).
Definition held_parts (m : manager) : list participation := map snd (part_keys m).
(** The managers a node can have. *)
Inductive reachable (H : bytes -> bytes) (sc : scheme) (table : list (version * params)) : manager -> Prop :=
| at_start : reachable H sc table new_manager
| after_add m p : reachable H sc table m -> reachable H sc table (fst (add_participation H m p))
| after_aging m md st h sigs proto rngs faults st' m' : reachable H sc table m ->
    delete_all_old_keys sc table md st m h sigs proto rngs faults = Some (st', m') -> reachable H sc table m'.

(** ** C70 *)
(** What can be found after stopping while the writes [ws] were made: a prefix of them. *)
Definition after_crash (st : store) (ws : list (bytes * bytes)) (k : nat) : store := apply_writes st (firstn k ws).
(** Values of the types and sizes that exist. *)
Definition key_ok (is_point : bytes -> bool) (k : bytes) : Prop := length k = 32%nat /\ is_point k = true.
Definition subkey_ok (sc : scheme) (is_point : bytes -> bool) (k : subkey) : Prop :=
  length (secret k) = 32%nat /\ key_ok is_point (public sc (secret k)) /\ length (pk_sig_new k) = 64%nat.
Definition secrets_ok (sc : scheme) (is_point : bytes -> bool) (s : secrets) : Prop :=
  key_ok is_point (verifier s) /\ u64 (first_batch s) /\ u64 (first_offset s) /\ key_ok is_point (offsets_pk2 s) /\
  length (offsets_pk2_sig s) = 64%nat /\ Forall (subkey_ok sc is_point) (batches s) /\ Forall (subkey_ok sc is_point) (offsets s) /\
  N.of_nat (length (batches s)) < 2 ^ 32 /\ N.of_nat (length (offsets s)) < 2 ^ 32.
Definition part_ok (sc : scheme) (is_point : bytes -> bool) (p : participation) : Prop :=
  length (parent p) = 32%nat /\ length (VrfModel.private (vrf p)) = 32%nat /\ length (VrfModel.public_key (vrf p)) = 32%nat /\
  secrets_ok sc is_point (voting p) /\ u64 (part_first p) /\ u64 (part_last p) /\ u64 (part_dilution p).
(** The participation whose first [k] stored fields are those of [new] and whose others are those of [old]. *)
Definition mixture (k : nat) (new old : participation) : participation :=
  let pick {A} (n : nat) (f : participation -> A) : A := if (n <? k)%nat then f new else f old in
  mkPart (pick 0%nat parent) (pick 1%nat vrf) (pick 2%nat voting) (pick 3%nat part_first) (pick 4%nat part_last) (pick 5%nat part_dilution).
(** The library's keys and signatures have their sizes. *)
Definition scheme_sizes (sc : scheme) (is_point : bytes -> bool) : Prop :=
  (forall s, length s = 32%nat -> key_ok is_point (public sc s)) /\ (forall s m, length (sign_with sc s m) = 64%nat) /\ is_point default_key = true.

(** ** C74 *)
(** The first round whose key is still needed after the block of round [round]: the next
    round, or the one used for the next compact certificate (with the following round's key),
    counted from the last round signed for if that is further. *)
Definition keep_from (round next_cert signed cert_rounds : N) : N :=
  if next_cert =? 0 then round + 1
  else N.min (round + 1) (if next_cert + 1 <=? signed then signed + (cert_rounds + 1) else next_cert + 1).
(** A participation made by [fill_db] and aged any number of times. *)
Definition made (sc : scheme) (md : mode) (p : participation) : Prop :=
  exists st0 par f l d master rng vk fault st1 p0 proto cs st2,
  u64 l /\ u64 d /\ ~ (l = max64 /\ d = 1) /\ fill_db sc md st0 par f l d master rng vk fault = (st1, Ok p0) /\
  Forall (fun c => round_ok (fst c) d) cs /\ age sc md proto cs p0 st1 = Some (p, st2).
