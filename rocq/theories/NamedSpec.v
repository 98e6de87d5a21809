(** Structs given by the names of their fields. *)
From Coq Require Import Permutation String.
From Verif Require Import Base MsgpackModel DecodedSpec.
Local Open Scope list_scope.
Local Open Scope N_scope.

(** The entries [l], in whatever order, give each of the [names] the value at its place in [values];
    what else there is has other names. *)
Definition carries (names : list string) (values : list value) (l : list (value * value)) : Prop :=
  exists known others, Permutation l (known ++ others) /\ Forall2 (fun n e => named (str n) e) names known /\ map snd known = values /\
  Forall (fun e => has_name e /\ forall n, In n names -> ~ named (str n) e) others.

(** The names of the fields in the source. *)
Definition block_header_names : list string :=
  ["round"; "branch"; "seed"; "tx_root"; "timestamp"; "genesis_id"; "genesis_hash"; "rewards_state"; "upgrade_vote"; "tx_counter"; "compact_certs"]%string.
Definition genesis_names : list string :=
  ["schema_id"; "network"; "proto"; "allocation"; "rewards_pool"; "fee_sink"; "timestamp"; "comment"; "dev_mode"]%string.
Definition secrets_names : list string :=
  ["verifier"; "first_batch"; "batches"; "first_offset"; "offsets"; "offsets_pk2"; "offsets_pk2_sig"; "lock"]%string.
Definition vrf_names : list string := ["private"; "public"]%string.
(** A struct with these fields has these values: in an array at their places, in a map at their names. *)
Definition struct_has (names : list string) (values : list value) (v : value) : Prop :=
  length values = length names /\ (v = VArr values \/ exists l, v = VMap l /\ carries names values l).
