(** Model of the folder for global configuration files (src/config/mod.rs:668-710). *)
From Verif Require Import Base FilesModel.

(** src/config/mod.rs:668-670, and which paths there are in the file system *)
Record world := mkWorld { root : bytes; present : bytes -> bool }.
(** Why asking fails: no home directory, or [fs::create_dir] fails. src/config/mod.rs:678-689,702-710 *)
Inductive root_error := NoHome | CannotCreate.

Section Root.
(** [dirs::home_dir()], which stays the same while the program runs *)
Variable home : option bytes.
(** Whether a directory that is not there can be made (its parent is there, and the
    permissions suffice); stays the same while the program runs. *)
Variable allowed : bytes -> bool.

(** src/config/mod.rs:702-710 *)
Definition get_default_config_file_path : outcome root_error bytes :=
  match home with
  | Some h => Ok (path_join h (str ".algorand"))
  | None => Err NoHome
  end.
(** [fs::create_dir]; [None] is an error; std, for src/config/mod.rs:685 *)
Definition create_dir (w : world) (p : bytes) : option world :=
  if present w p then None
  else if allowed p then Some (mkWorld (root w) (fun q => if bytes_eqb q p then true else present w q))
  else None.
(** src/config/mod.rs:678-689; the lock is held from the beginning to the end.  The lock
    is never poisoned, since nothing panics while it is held. *)
Definition get_global_config_file_root (w : world) : world * outcome root_error bytes :=
  match root w with
  | [] =>
      match get_default_config_file_path with
      | Ok p =>
          let w := mkWorld p (present w) in
          match create_dir w p with
          | Some w => (w, Ok (root w))
          | None => (w, Err CannotCreate)
          end
      | Err e => (w, Err e)
      | Panic => (w, Panic)
      end
  | r => (w, Ok r)
  end.
(** src/config/mod.rs:672-676; plain file names *)
Definition get_config_file_path (w : world) (file : bytes) : world * outcome root_error bytes :=
  let '(w, r) := get_global_config_file_root w in
  (w, match r with Ok r => Ok (path_join r file) | Err e => Err e | Panic => Panic end).
(** src/config/mod.rs:695: the first lock *)
Definition set_read (w : world) : bytes := root w.
(** src/config/mod.rs:696: the second lock *)
Definition set_write (w : world) (p : bytes) : world := mkWorld p (present w).
(** src/config/mod.rs:694-698 *)
Definition set_global_config_file_root (w : world) (p : bytes) : world * bytes :=
  let current_root := set_read w in (set_write w p, current_root).

(** The public functions (src/config/mod.rs:672-698) as calls one after the other. *)
Inductive call := AskRoot | AskFile (file : bytes) | Override (p : bytes).
(** what a call of src/config/mod.rs:672-698 returns *)
Definition answer := outcome root_error bytes.
(** one call of src/config/mod.rs:672-698 *)
Definition do_call (w : world) (c : call) : world * answer :=
  match c with
  | AskRoot => get_global_config_file_root w
  | AskFile f => get_config_file_path w f
  | Override p => let '(w, r) := set_global_config_file_root w p in (w, Ok r)
  end.
(** calls of src/config/mod.rs:672-698 one after the other, and their answers *)
Fixpoint calls (w : world) (cs : list call) : world * list answer :=
  match cs with
  | [] => (w, [])
  | c :: r => let '(w, a) := do_call w c in let '(w, l) := calls w r in (w, a :: l)
  end.

(** Calls from several threads (src/config/mod.rs:678-698): overriding takes the lock
    twice, so that other calls can come in between.  [Begin c] and [End c p] are the two
    halves of the override with the number [c]. *)
Inductive event := Asked | Begin (c : nat) | End (c : nat) (p : bytes).
(** the file system and setting, and what each override of src/config/mod.rs:694-698 has read *)
Definition state := (world * (nat -> bytes))%type.
(** one step of a thread, src/config/mod.rs:678-698 *)
Definition do_event (s : state) (e : event) : state :=
  let '(w, got) := s in
  match e with
  | Asked => (fst (get_global_config_file_root w), got)
  | Begin c => (w, fun d => if Nat.eqb d c then set_read w else got d)
  | End c p => (set_write w p, got)
  end.
(** the steps of all threads in some order, src/config/mod.rs:678-698 *)
Definition events (s : state) (es : list event) : state := fold_left do_event es s.
End Root.
