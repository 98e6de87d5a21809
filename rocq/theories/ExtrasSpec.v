(** Vocabulary for C113-C117. *)
From Verif Require Import ExtrasModel AccountModel.
From Verif Require TxModel MultisigModel.
Local Open Scope N_scope.

(** What was last stored for an id in a sequence of calls; storing nothing deletes. *)
Fixpoint last_stored (id : N) (cs : list call) (before : option bytes) : option bytes :=
  match cs with
  | [] => before
  | Store id' c :: r => last_stored id r (if id' =? id then match c with [] => None | _ => Some c end else before)
  | Load _ :: r => last_stored id r before
  end.
(** The answers expected to the reads of a sequence of calls. *)
Fixpoint expected_loads (past todo : list call) : list (option bytes) :=
  match todo with
  | [] => []
  | Load id :: r => last_stored id past None :: expected_loads (past ++ [Load id]) r
  | Store id c :: r => expected_loads (past ++ [Store id c]) r
  end.
Definition call_id (c : call) : N := match c with Store id _ => id | Load id => id end.

(** [ids] are the ids with a content. *)
Definition live_ids (cs : list call) (ids : list N) : Prop :=
  NoDup ids /\ forall id, In id ids <-> last_stored id cs None <> None.
(** The bytes these contents take. *)
Definition stored_bytes (cs : list call) (ids : list N) : N :=
  fold_right (fun id n => N.of_nat (length (match last_stored id cs None with Some c => c | None => [] end)) + n) 0 ids.

(** An identity as the node has them: keys and address of 32 bytes, rounds of 64 bits. *)
Definition real_identity (i : identity) : Prop :=
  length (id_address i) = 32%nat /\ u64 (id_first i) /\ u64 (id_last i) /\ length (id_vote i) = 32%nat /\ length (id_selection i) = 32%nat.

(** All the bytes supplied with a logic signature for the evaluation: program and arguments. *)
Definition supplied (l : TxModel.logic_sig) : bytes := TxModel.logic l ++ concat (TxModel.args l).
