(** Merging configured protocols into a table, and key file names. *)
From Verif Require Import Base.
From Verif Require Export ConsensusModel.
Local Open Scope N_scope.

(** src/config/consensus.rs:381, the entries in iteration order *)
Definition table := list (version * params).
(** [contains_key] of the map, as at src/config/consensus.rs:532 *)
Definition contains {A} (v : version) (m : list (version * A)) : bool :=
  match lookup v m with Some _ => true | None => false end.
(** [is_empty] of a map, as at src/config/consensus.rs:526 *)
Definition is_empty {A} (l : list A) : bool := match l with [] => true | _ => false end.

(** src/config/consensus.rs:529-541: the loop over the entries of [self] when [version] is to
    be deleted; [None] is the panic of [get_mut(ver).unwrap()] *)
Fixpoint delete_loop (version : version) (entries : table) (static_consensus : table) : option table :=
  match entries with
  | [] => Some static_consensus
  | (ver, par) :: r =>
      if version_eqb ver version then delete_loop version r (remove ver static_consensus)
      else if contains version (approved_upgrades par) then
        match lookup ver static_consensus with
        | None => None
        | Some p =>
            delete_loop version r
              (insert ver (set_approved_upgrades (remove version (approved_upgrades p)) p) static_consensus)
        end
      else delete_loop version r static_consensus
  end.

(** src/config/consensus.rs:525-546: the loop over the configured entries, in the order the
    hash map yields them *)
Fixpoint merge_loop (self configurable static_consensus : table) : option table :=
  match configurable with
  | [] => Some static_consensus
  | (version, params) :: r =>
      if is_empty (approved_upgrades params) then
        match delete_loop version self static_consensus with
        | None => None
        | Some t => merge_loop self r t
        end
      else merge_loop self r (insert version params static_consensus)
  end.

(** src/config/consensus.rs:522-549 *)
Definition merge (self configurable : table) : option table := merge_loop self configurable self.
