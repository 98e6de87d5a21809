(** Smaller pieces: application addresses, the persistent trie storage, hashing of participation
    identities, the text of application state values, the size of logic signatures. *)
From Verif Require Export Base DomainModel MsgpackModel BasicsModel KeyfileModel.
From Verif Require Import AccountModel.
From Verif Require TxModel.
Local Open Scope N_scope.

(** src/data/basics/user_balance.rs:346-350 *)
Definition app_rep (app : N) : bytes := hash_rep APP_INDEX (be 8 app).
(** src/data/basics/user_balance.rs:354-356 *)
Definition app_address (H : bytes -> bytes) (app : N) : bytes := H (app_rep app).

(** ** src/crypto/merkletrie/storage.rs *)

(** InMemoryStorage, storage.rs:43-46: the hash map as the list of its entries, one per key. *)
Definition mem := list (N * bytes).
(** HashMap::remove and HashMap::insert, as used in storage.rs:52 and 54 *)
Definition mem_remove (id : N) (s : mem) : mem := filter (fun e => negb (fst e =? id)) s.
(** [HashMap::insert], storage.rs:54 *)
Definition mem_insert (id : N) (c : bytes) (s : mem) : mem := (id, c) :: mem_remove id s.
(** storage.rs:50-57 *)
Definition mem_store (id : N) (c : bytes) (s : mem) : mem :=
  match c with [] => mem_remove id s | _ => mem_insert id c s end.
(** storage.rs:60-65 *)
Definition mem_load (id : N) (s : mem) : option bytes :=
  option_map snd (find (fun e => fst e =? id) s).
(** storage.rs:67-74; the sum is of lengths of buffers held at the same time, which cannot overflow. *)
Definition mem_size (s : mem) : N := fold_right (fun e n => N.of_nat (length (snd e)) + n) 0 s.

(** sled::Tree: a map from byte strings to byte strings, as the list of its entries.  Failures of the
    database are not modelled. storage.rs:15 *)
Definition sled := list (bytes * bytes).
(** sled::Tree::remove and insert; storage.rs:19 *)
Definition sled_remove (k : bytes) (s : sled) : sled := filter (fun e => negb (bytes_eqb (fst e) k)) s.
(** sled::Tree::insert, storage.rs:21 *)
Definition sled_insert (k c : bytes) (s : sled) : sled := (k, c) :: sled_remove k s.
(** storage.rs:17-24 *)
Definition sled_store (id : N) (c : bytes) (s : sled) : sled :=
  match c with [] => sled_remove (be 8 id) s | _ => sled_insert (be 8 id) c s end.
(** storage.rs:27-35 *)
Definition sled_load (id : N) (s : sled) : option bytes :=
  option_map snd (find (fun e => bytes_eqb (fst e) (be 8 id)) s).
(** storage.rs:37-39 *)
Definition sled_size (s : sled) : N := 0.

(** Calls on a storage: a content for an id, or reading an id. Helper: storage.rs:50-65 or 17-35. *)
Inductive call := Store (id : N) (content : bytes) | Load (id : N).
(** The answers of a storage to a sequence of calls, and its final state.
    Helper for statements about histories of storage.rs:50-65. *)
Fixpoint mem_run (s : mem) (cs : list call) : mem * list (option bytes) :=
  match cs with
  | [] => (s, [])
  | Store id c :: r => mem_run (mem_store id c s) r
  | Load id :: r => let (s', os) := mem_run s r in (s', mem_load id s :: os)
  end.
(** the same for storage.rs:17-35 *)
Fixpoint sled_run (s : sled) (cs : list call) : sled * list (option bytes) :=
  match cs with
  | [] => (s, [])
  | Store id c :: r => sled_run (sled_store id c s) r
  | Load id :: r => let (s', os) := sled_run s r in (s', sled_load id s :: os)
  end.

(** ** src/data/account_manager.rs:151-159 *)

(** What is fed to the hasher, call by call: byte arrays and vectors are preceded by their length
    (core::hash: [Hash for [T]]); integers by their eight bytes.  All lengths and numbers are usize/u64.
    account_manager.rs:151-159. *)
Definition feed_bytes (b : bytes) : list bytes := [be 8 (N.of_nat (length b)); b].
(** the same for numbers, account_manager.rs:154-155 *)
Definition feed_u64 (n : N) : list bytes := [be 8 n].
(** src/data/account_manager.rs:151-159 *)
Definition identity_feed (i : identity) : list bytes :=
  feed_bytes (id_address i) ++ feed_u64 (id_first i) ++ feed_u64 (id_last i) ++ feed_bytes (id_vote i) ++ feed_bytes (id_selection i).

(** ** src/data/basics/teal.rs:226-233 *)

(** HEXLOWER of data_encoding; teal.rs:229 *)
Definition hex_char (n : N) : byte := if n <? 10 then b8 (48 + n) else b8 (87 + n).
(** HEXLOWER.encode of data_encoding, teal.rs:229 *)
Definition hex_lower (s : bytes) : bytes :=
  flat_map (fun b => [hex_char (Byte.to_N b / 16); hex_char (Byte.to_N b mod 16)]) s.
(** teal.rs:226-233 *)
Definition teal_text (v : teal_value) : bytes :=
  match ttype v with TBytes => hex_lower (teal_bytes v) | TUint => dec (teal_uint v) end.

(** ** src/data/transactions/logicsig.rs *)

(** logicsig.rs:29-31 *)
Definition ls_is_empty (l : TxModel.logic_sig) : bool := match TxModel.logic l with [] => true | _ => false end.
(** logicsig.rs:35-39 *)
Definition ls_len (l : TxModel.logic_sig) : N :=
  fold_left (fun sum arg => sum + N.of_nat (length arg)) (TxModel.args l) (N.of_nat (length (TxModel.logic l))).
