(** How serde's derived implementations find the fields of a struct in a message-pack value: in an
    array by place, in a map by name (rmp-serde 1.1.1 and serde_derive, which are not part of /repo).
    Simplified: unsigned integers as keys, which serde takes for the places of fields, are refused; no
    encoder writes them. *)
From Verif Require Import Base.
From Verif Require Export MsgpackModel.
Delimit Scope string_scope with string.
Local Open Scope N_scope.

(** whether an entry is for the field; serde_derive and rmp-serde, for src/protocol/codec.rs:10-12 *)
Definition key_is (name : bytes) (e : value * value) : bool :=
  match fst e with VStr s | VBin s => bytes_eqb s name | _ => false end.
(** the values of the entries for a field; serde_derive and rmp-serde, for src/protocol/codec.rs:10-12 *)
Definition values_of (name : String.string) (l : list (value * value)) : list value := map snd (filter (key_is (str name)) l).
(** [None]: the field occurs twice; serde_derive and rmp-serde, for src/protocol/codec.rs:10-12 *)
Definition field_value (name : String.string) (l : list (value * value)) : option (option value) :=
  match values_of name l with [] => Some None | [v] => Some (Some v) | _ => None end.
(** a field without a default; serde_derive and rmp-serde, for src/protocol/codec.rs:10-12 *)
Definition need {A} (name : String.string) (get : value -> option A) (l : list (value * value)) : option A :=
  match field_value name l with Some (Some v) => get v | _ => None end.
(** [#[serde(default)]] *)
Definition or_default {A} (name : String.string) (get : value -> option A) (d : A) (l : list (value * value)) : option A :=
  match field_value name l with Some (Some v) => get v | Some None => Some d | None => None end.
Arguments values_of name%string_scope. Arguments field_value name%string_scope.
Arguments need {A} name%string_scope. Arguments or_default {A} name%string_scope.
(** other keys than names are refused; other names are passed over;
    serde_derive and rmp-serde, for src/protocol/codec.rs:10-12 *)
Definition name_key (e : value * value) : bool := match fst e with VStr _ | VBin _ => true | _ => false end.
(** all keys are names; serde_derive and rmp-serde, for src/protocol/codec.rs:10-12 *)
Definition names_only (l : list (value * value)) : bool := forallb name_key l.
(** the fields of a map by their names; serde_derive and rmp-serde, for src/protocol/codec.rs:10-12 *)
Fixpoint named_values (names : list String.string) (l : list (value * value)) : option (list value) :=
  match names with
  | [] => Some []
  | n :: r => match need n Some l, named_values r l with Some v, Some vs => Some (v :: vs) | _, _ => None end
  end.
(** The fields of a struct all of whose fields are needed, in their order.
    serde_derive and rmp-serde, for src/protocol/codec.rs:10-12 *)
Definition fields_of (names : list String.string) (v : value) : option (list value) :=
  match v with
  | VArr l => if Nat.eqb (length l) (length names) then Some l else None
  | VMap l => if names_only l then named_values names l else None
  | _ => None
  end.
