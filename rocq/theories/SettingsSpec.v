(** What the configuration promises. *)
From Verif Require Import Base ConsensusModel JsonModel SettingsModel.
Local Open Scope N_scope.

(** [v] is a value of the Rust type [t]. *)
Definition typed (t : ftype) (v : fval) : Prop :=
  match t, v with
  | TBool, FBool _ => True
  | TU32, FInt z => (0 <= z < 2 ^ 32)%Z
  | TU64, FInt z => (0 <= z < 2 ^ 64)%Z
  | TI32, FInt z => (- 2 ^ 31 <= z < 2 ^ 31)%Z
  | TI64, FInt z => (- 2 ^ 63 <= z < 2 ^ 63)%Z
  | TStr, FStr s => utf8 s = true
  | TDur, FDur n => n < 2 ^ 64 * 1000000000
  | TFlags, FFlags m => NoDup (map fst m) /\ Forall (fun e => utf8 (fst e) = true) m
  | TUpgrades, FUpgrades m => NoDup (map fst m) /\ Forall (fun e => snd e < 2 ^ 64) m
  | TCommit, FCommit _ => True
  | _, _ => False
  end.
(** [s] is a value of the structure with the fields [table]. *)
Definition well_typed (table : list (bytes * ftype)) (s : settings) : Prop :=
  Forall2 (fun f e => fst f = fst e /\ typed (snd f) (snd e)) table s.

(** Every number, duration and list of the protocols fits its type. *)
Definition protocols_typed (t : list (version * params)) : Prop :=
  Forall (fun e => well_typed params_table (params_fields (snd e))) t.

(** The three settings a relay always has. *)
Definition relay_setting (n : bytes) : Prop := In n [str "archival"; str "enable_ledger_service"; str "enable_block_service"].
(** [s'] is [s], with the three settings switched on if [s] has an address to listen on. *)
Definition with_relay_settings (s s' : settings) : Prop :=
  map fst s' = map fst s /\
  (forall n v, In (n, v) s -> ~ relay_setting n -> In (n, v) s') /\
  (forall n v, In (n, v) s -> relay_setting n -> In (n, if bytes_eqb (get_str (str "net_address") s) [] then v else FBool true) s').

(** The values given for [n]. *)
Definition values {A} (n : bytes) (m : list (bytes * A)) : list A :=
  map snd (filter (fun e => bytes_eqb (fst e) n) m).

(** [sep] between the elements of a list. *)
Fixpoint join_with (sep : bytes) (pieces : list bytes) : bytes :=
  match pieces with
  | [] => []
  | p :: r => match r with [] => p | _ => p ++ sep ++ join_with sep r end
  end.
Definition occurs (p s : bytes) : Prop := exists a b, s = a ++ p ++ b.
(** The texts for [s] seconds and [k] nanoseconds: the two numbers in a list, or under their names in any order. *)
Definition duration_json (s k : N) (v : json) : Prop :=
  let secs := (str "secs", JInt (Z.of_N s)) in let nanos := (str "nanos", JInt (Z.of_N k)) in
  v = JArr [snd secs; snd nanos] \/ v = JObj [secs; nanos] \/ v = JObj [nanos; secs].
