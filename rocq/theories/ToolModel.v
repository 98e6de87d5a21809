(** The key tool, src/bin/algokey. *)
From Coq Require Import SpecFloat.
From Verif Require Import Base MsgpackModel MnemonicModel AddressModel Scheme BasicsModel.
From Verif Require TxModel VrfModel OtsModel AccountModel.
From Verif Require Import CommitteeModel.
From Verif Require Export FilesModel.
Local Open Scope N_scope.

(** export.rs:46-51, sign.rs:68-73: [read_exact] of the first 32 bytes; [None] is an error *)
Definition load_sk (fs : files) (name : bytes) : option bytes :=
  match content fs name with
  | Some s => if (length s <? 32)%nat then None else Some (firstn 32 s)
  | None => None
  end.

(** What the commands on keys print: the mnemonic and the address.
    src/bin/algokey/generate.rs:39-40, import.rs:39-40, export.rs:35-36 *)
Record printed := mkPrinted { out_phrase : text; out_address : bytes }.
(** [words.join(" ")]; std, for src/bin/algokey/generate.rs:39 and export.rs:35 *)
Fixpoint join (ws : list text) : text :=
  match ws with [] => [] | w :: r => match r with [] => w | _ => w ++ 32 :: join r end end.

Section Commands.
Variable H : bytes -> bytes.
Variable sc : scheme.

(** [Address( *pk.as_bytes()).to_string()] of the key with the given seed;
    src/bin/algokey/generate.rs:37, import.rs:38, export.rs:33 *)
Definition address_of (seed : bytes) : bytes := address_to_string H (public sc seed).
(** generate.rs:40-50, import.rs:41-51, export.rs:37-41: an empty name is skipped, an error is
    only printed *)
Definition write_if_named (fs : files) (name data : bytes) : files :=
  match name with [] => fs | _ => match write_file fs name data with Some fs' => fs' | None => fs end end.

(** generate.rs:26-53 with the random seed; the outcome is what is printed *)
Definition generate_cmd (fs : files) (sk_file pk_file seed : bytes) : files * outcome unit printed :=
  match key_to_mnemonic H seed with
  | None => (fs, Panic)
  | Some words =>
      (write_if_named (write_if_named fs sk_file seed) pk_file (address_of seed),
       Ok (mkPrinted (join words) (address_of seed)))
  end.

(** import.rs:27-54; a wrong phrase is reported and then unwrapped *)
Definition import_cmd (fs : files) (phrase : text) (sk_file pk_file : bytes) : files * outcome unit printed :=
  match phrase_to_key H phrase with
  | Ok seed =>
      (write_if_named (write_if_named fs sk_file seed) pk_file (address_of seed),
       Ok (mkPrinted phrase (address_of seed)))
  | _ => (fs, Panic)
  end.

(** export.rs:26-43 *)
Definition export_cmd (fs : files) (sk_file pk_file : bytes) : files * outcome unit printed :=
  match load_sk fs sk_file with
  | None => (fs, Panic)
  | Some seed =>
      match key_to_mnemonic H seed with
      | None => (fs, Panic)
      | Some words => (write_if_named fs pk_file (address_of seed), Ok (mkPrinted (join words) (address_of seed)))
      end
  end.

(** sign.rs:50-66; [Err tt] is the exit with status 1 *)
Definition load_keyfile_or_mnemonic (fs : files) (keyfile : bytes) (mnemonic : text) : outcome unit bytes :=
  match keyfile, mnemonic with
  | _ :: _, _ :: _ => Err tt
  | _ :: _, [] => match load_sk fs keyfile with Some s => Ok s | None => Panic end
  | [], _ :: _ => match phrase_to_key H mnemonic with Ok s => Ok s | _ => Panic end
  | [], [] => Err tt
  end.
(** [Keypair::from_bytes] of ed25519-dalek: 64 bytes, the secret key and the public key; gives
    the secret key.  It does not compare the two (sign.rs:31). *)
Definition keypair_from_bytes (s : bytes) : option bytes :=
  if (length s =? 64)%nat then Some (firstn 32 s) else None.
(** Writing to a file opened with [File::open], for reading only (sign.rs:45-46): always an error *)
Definition write_through_read_handle (fs : files) (name data : bytes) : option files := None.
(** sign.rs:29-47: [decode_tx] is the decoder of transactions *)
Definition sign_cmd (decode_tx : bytes -> option TxModel.transaction) (fs : files) (sk_file : bytes) (mnemonic : text)
  (tx_file out_file : bytes) : files * outcome unit TxModel.signed_tx :=
  match load_keyfile_or_mnemonic fs sk_file mnemonic with
  | Err e => (fs, Err e)
  | Panic => (fs, Panic)
  | Ok seed =>
      match keypair_from_bytes seed with
      | None => (fs, Panic)
      | Some sk =>
          match content fs tx_file with
          | None => (fs, Panic)
          | Some raw =>
              match decode_tx raw with
              | None => (fs, Panic)
              | Some tx =>
                  let stx := TxModel.sign sc sk tx in
                  match content fs out_file with
                  | None => (fs, Panic)
                  | Some _ =>
                      match write_through_read_handle fs out_file (encode (TxModel.signed_tx_value stx)) with
                      | Some fs' => (fs', Ok stx)
                      | None => (fs, Panic)
                      end
                  end
              end
          end
      end
  end.

(** *** Participation keys, part.rs *)

(** [(n as f64).sqrt() as u64]: rounding twice, then cutting off the fraction; saturating;
    src/bin/algokey/part.rs:81 *)
Definition f64_as_u64 (x : f64) : N :=
  match x with
  | S754_finite false m e =>
      let v := match e with Zneg q => N.pos m / 2 ^ N.pos q | _ => N.pos m * 2 ^ Z.to_N e end in
      if max64 <? v then max64 else v
  | S754_infinity false => max64
  | _ => 0
  end.
(** src/bin/algokey/part.rs:81 *)
Definition sqrt_u64 (n : N) : N := f64_as_u64 (SFsqrt 53 1024 (u64_as_f64 n)).
(** part.rs:81-84; [None] is a panic *)
Definition key_dilution_of (md : mode) (first last dilution : N) : option N :=
  if dilution =? 0
  then match sub64 md last first with Some n => add64 md 1 (sqrt_u64 n) | None => None end
  else Some dilution.

Variable is_point : bytes -> bool.

(** part.rs:79-101: the key store is the one of the library whatever [keyfile] is; the random
    arguments are those of [fill_db]; printing a participation is returning it *)
Definition part_generate_cmd (md : mode) (st : AccountModel.store) (keyfile : bytes) (first last dilution : N) (parent : bytes)
  (master : bytes) (rng : N -> bytes) (vrf_key : VrfModel.keypair) (fault : option nat)
  : AccountModel.store * outcome unit AccountModel.participation :=
  match key_dilution_of md first last dilution with
  | None => (st, Panic)
  | Some d =>
      match address_from_str H parent with
      | Ok par =>
          match AccountModel.fill_db sc md st par first last d master rng vrf_key fault with
          | (st', Ok p) => (st', Ok p)
          | (st', Err _) => (st', Err tt)
          | (st', Panic) => (st', Panic)
          end
      | _ => (st, Panic)
      end
  end.
(** part.rs:104-116 *)
Definition part_info_cmd (st : AccountModel.store) (keyfile : bytes) : outcome unit AccountModel.participation :=
  match AccountModel.restore sc is_point st with Ok p => Ok p | Err _ => Err tt | Panic => Panic end.
(** part.rs:118-141 *)
Definition part_reparent_cmd (st : AccountModel.store) (keyfile : bytes) (parent : bytes) (fault : option nat)
  : AccountModel.store * outcome unit AccountModel.participation :=
  match address_from_str H parent with
  | Ok par =>
      match AccountModel.restore sc is_point st with
      | Ok p =>
          let p' := AccountModel.mkPart par (AccountModel.vrf p) (AccountModel.voting p) (AccountModel.part_first p) (AccountModel.part_last p) (AccountModel.part_dilution p) in
          match AccountModel.persist_new_parent st p' fault with
          | (st', Ok _) => (st', Ok p')
          | (st', Err _) => (st', Err tt)
          | (st', Panic) => (st', Panic)
          end
      | Err _ => (st, Err tt)
      | Panic => (st, Panic)
      end
  | Err _ => (st, Err tt)
  | Panic => (st, Panic)
  end.
End Commands.
