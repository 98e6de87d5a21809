(** Files by name, as far as the key tool and the configuration use them. *)
From Verif Require Import Base.

(** Opening for writing fails for the names that are not writable; writing to an open file and
    reading succeed.  Two names are two files.
    The files of std::fs, as used at src/config/mod.rs and src/bin/algokey. *)
Record files := mkFiles { content : bytes -> option bytes; writable : bytes -> bool }.
(** [OpenOptions] with [write], [create] and [truncate], then [write_all]:
    src/bin/algokey/generate.rs:56-76, import.rs:57-77, export.rs:53-62, src/config/mod.rs:651-658,
    src/config/consensus.rs:501-508; permissions are left out; [None] is an error *)
Definition write_file (fs : files) (name data : bytes) : option files :=
  if writable fs name
  then Some (mkFiles (fun n => if bytes_eqb n name then Some data else content fs n) (writable fs))
  else None.
(** [fs::remove_file]; [None] is an error; src/config/consensus.rs:499 *)
Definition remove_file (fs : files) (name : bytes) : option files :=
  match content fs name with
  | Some _ => if writable fs name
              then Some (mkFiles (fun n => if bytes_eqb n name then None else content fs n) (writable fs))
              else None
  | None => None
  end.
(** [Path::join] of a directory and a plain file name; src/config/mod.rs:487,506,558,633,648,
    src/config/consensus.rs:494,596 *)
Definition path_join (dir name : bytes) : bytes :=
  match dir with
  | [] => name
  | _ => if Byte.eqb (last dir x00) x2f then dir ++ name else dir ++ x2f :: name
  end.
