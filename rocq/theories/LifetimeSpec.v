(** The premises of property C144: a participation from its generation to its last round. *)
From Verif Require Import Base Scheme BasicsModel OtsModel OtsSpec AccountModel AccountSpec CurveModel.
Local Open Scope N_scope.

(** The keys that [PublicKey::from_bytes] of ed25519-dalek reads: the compressed points. *)
Definition on_curve (k : bytes) : bool := match edwards_decompress k with Some _ => true | None => false end.
(** An interval of rounds and a number of rounds per batch that keys are made for: of the sizes that the
    stored form holds, and not the one case in which the key tree overflows. *)
Definition interval_ok (first last dilution : N) : Prop :=
  first <= last /\ u64 last /\ 0 < dilution < 2 ^ 32 /\ ~ (last = max64 /\ dilution = 1) /\ last / dilution - first / dilution + 1 < 2 ^ 32.
(** Deletions of old keys, each with the current round and its random secrets. *)
Definition deletions_ok (dilution : N) (cs : list (N * (N -> bytes))) : Prop :=
  Forall (fun c => round_ok (fst c) dilution /\ forall o, length (snd c o) = 32%nat) cs.
