(** What the values in the configuration files stand for. *)
From Verif Require Import Base ConsensusModel JsonModel JsonSpec SettingsModel SettingsSpec.
Local Open Scope N_scope.

(** The value given last for [k]. *)
Definition latest (k : bytes) (m : list (bytes * json)) (v : json) : Prop := exists l, values k m = l ++ [v].
Definition integer (lo hi : Z) (v : json) (x : fval) : Prop := exists z, v = JInt z /\ x = FInt z /\ (lo <= z < hi)%Z.
(** [stands_for t v x]: as a setting of type [t], [v] means [x]. *)
Definition stands_for (t : ftype) (v : json) (x : fval) : Prop :=
  match t with
  | TBool => exists b, v = JBool b /\ x = FBool b
  | TU32 => integer 0 (2 ^ 32) v x
  | TU64 => integer 0 (2 ^ 64) v x
  | TI32 => integer (- 2 ^ 31) (2 ^ 31) v x
  | TI64 => integer (- 2 ^ 63) (2 ^ 63) v x
  | TStr => exists s, v = JStr s /\ x = FStr s
  | TDur => exists s k, s < 2 ^ 64 /\ k < 2 ^ 32 /\ s + k / 1000000000 < 2 ^ 64 /\ duration_json s k v /\ x = FDur (s * 1000000000 + k)
  | TFlags => exists m f, v = JObj m /\ x = FFlags f /\ NoDup (map fst f) /\ (forall k j, In (k, j) m -> exists b, j = JBool b) /\
      forall k b, In (k, b) f <-> latest k m (JBool b)
  | TUpgrades => exists m f, v = JObj m /\ x = FUpgrades f /\ NoDup (map fst f) /\
      (forall k j, In (k, j) m -> exists w n, k = version_name w /\ j = JInt (Z.of_N n) /\ n < 2 ^ 64) /\
      forall w n, In (w, n) f <-> latest (version_name w) m (JInt (Z.of_N n))
  | TCommit => exists c, x = FCommit c /\ (v = JStr (commit_name c) \/ v = JObj [(commit_name c, JNull)])
  end.
(** The settings [s] with the names and types [table], given by [v]: by name, each once and in
    any order among others, or as a list. *)
Definition settings_by (table : list (bytes * ftype)) (v : json) (s : settings) : Prop :=
  map fst s = map fst table /\
  ((exists m, v = JObj m /\ forall n t, In (n, t) table -> exists j x, values n m = [j] /\ stands_for t j x /\ In (n, x) s) \/
   (exists l, v = JArr l /\ length l = length table /\
      forall i n t j x, nth_error table i = Some (n, t) -> nth_error l i = Some j -> nth_error s i = Some (n, x) -> stands_for t j x)).
(** The protocols [t] given by [v], by the names of their versions. *)
Definition protocols_by (v : json) (t : list (version * params)) : Prop :=
  exists m, v = JObj m /\ NoDup (map fst t) /\
  (forall k j, In (k, j) m -> exists w p, k = version_name w /\ settings_by params_table j (params_fields p)) /\
  (forall w p, In (w, p) t -> exists j, latest (version_name w) m j /\ settings_by params_table j (params_fields p)) /\
  (forall w, In (version_name w) (map fst m) -> In w (map fst t)).
