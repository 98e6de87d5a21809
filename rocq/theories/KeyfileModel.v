(** Names of key files, src/config/keyfile.rs. *)
From Verif Require Import Base.
Local Open Scope N_scope.

(** [u64] as [Display] writes it; twenty digits are enough for any of them. std, for src/config/keyfile.rs:17,58 *)
Definition digit (d : N) : byte := b8 (48 + d).
(** digits of a number, last one first; std, for src/config/keyfile.rs:17,58 *)
Fixpoint dec_from (fuel : nat) (n : N) : bytes :=
  match fuel with
  | O => []
  | S k => if n <? 10 then [digit n] else digit (n mod 10) :: dec_from k (n / 10)
  end.
(** [Display] of [u64]; std, for src/config/keyfile.rs:17,58 *)
Definition dec (n : N) : bytes := rev (dec_from 20 n).

(** [str::parse::<u64>]: an optional plus sign, then at least one digit; fails on overflow.
    std, for src/config/keyfile.rs:72-73 *)
Fixpoint parse_digits (s : bytes) (acc : N) : option N :=
  match s with
  | [] => Some acc
  | b :: r =>
      let d := Byte.to_N b in
      if (48 <=? d) && (d <=? 57) then
        let v := acc * 10 + (d - 48) in
        if v <? two64 then parse_digits r v else None
      else None
  end.
(** [str::parse::<u64>] of std, for src/config/keyfile.rs:72-73 *)
Definition parse_u64 (s : bytes) : option N :=
  match s with
  | [] => None
  | b :: r => if Byte.eqb b x2b then match r with [] => None | _ => parse_digits r 0 end
              else parse_digits s 0
  end.

(** [filename.split('.')]; std, for src/config/keyfile.rs:66 *)
Fixpoint split_from (cur s : bytes) : list bytes :=
  match s with
  | [] => [rev cur]
  | b :: r => if Byte.eqb b x2e then rev cur :: split_from [] r else split_from (b :: cur) r
  end.
(** [str::split] of std at dots, src/config/keyfile.rs:66 *)
Definition split (s : bytes) : list bytes := split_from [] s.

(** [str::ends_with] of std, for [trim_end_matches], src/config/keyfile.rs:50,59 *)
Definition ends_with (suffix s : bytes) : bool :=
  (length suffix <=? length s)%nat && bytes_eqb (skipn (length s - length suffix) s) suffix.
(** [trim_end_matches] with a string pattern: removes it as often as it occurs at the end;
    std, for src/config/keyfile.rs:50,59 *)
Fixpoint trim_from (fuel : nat) (suffix s : bytes) : bytes :=
  match fuel with
  | O => s
  | S k => if ends_with suffix s then trim_from k suffix (firstn (length s - length suffix) s) else s
  end.
(** std, for src/config/keyfile.rs:50,59 *)
Definition trim_end_matches (suffix s : bytes) : bytes := trim_from (length s) suffix s.

(** src/config/keyfile.rs:7-9 *)
Definition root_key_filename (account : bytes) : bytes := account ++ str ".rootkey".
(** src/config/keyfile.rs:12-18 *)
Definition part_key_filename (account : bytes) (first_valid last_valid : N) : bytes :=
  account ++ str "." ++ dec first_valid ++ str "." ++ dec last_valid ++ str ".partkey".

(** src/config/keyfile.rs:65-79 *)
Definition extract_part_valid_interval (filename : bytes) : option (N * N) :=
  let parts := split filename in
  let np := length parts in
  if (np <? 4)%nat then None
  else
    match parse_u64 (nth (np - 3) parts []), parse_u64 (nth (np - 2) parts []) with
    | Some f, Some l => if f <=? l then Some (f, l) else None
    | _, _ => None
    end.

(** src/config/keyfile.rs:21-23 *)
Definition matches_root_key_filename (account filename : bytes) : bool :=
  bytes_eqb (root_key_filename account) filename.
(** src/config/keyfile.rs:26-32 *)
Definition matches_part_key_filename (account filename : bytes) : bool :=
  match extract_part_valid_interval filename with
  | Some (first, last) => bytes_eqb (part_key_filename account first last) filename
  | None => false
  end.
(** src/config/keyfile.rs:49-51 *)
Definition account_name_from_root_key_filename (filename : bytes) : bytes :=
  trim_end_matches (str ".rootkey") filename.
(** src/config/keyfile.rs:56-63 *)
Definition account_name_from_part_key_filename (filename : bytes) : bytes :=
  match extract_part_valid_interval filename with
  | Some (first, last) =>
      trim_end_matches (str "." ++ dec first ++ str "." ++ dec last ++ str ".partkey") filename
  | None => filename
  end.
(** src/config/keyfile.rs:35-38 *)
Definition is_root_key_filename (filename : bytes) : bool :=
  matches_root_key_filename (account_name_from_part_key_filename filename) filename.
(** src/config/keyfile.rs:41-44 *)
Definition is_part_key_filename (filename : bytes) : bool :=
  matches_part_key_filename (account_name_from_part_key_filename filename) filename.
