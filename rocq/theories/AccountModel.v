(** Accounts on this machine: src/data/account.rs and src/data/account_manager.rs. *)
From Verif Require Import Base MsgpackModel StructModel Scheme ConsensusModel BasicsModel OtsModel.
From Verif Require AddressModel TxModel VrfModel UpgradeModel BlockModel.
Local Open Scope N_scope.

(** ** The key store *)

(** account.rs:16-18: sled's map from keys to values, as seen by [get] *)
Definition store := bytes -> option bytes.
(** a store without entries (account.rs:16-18) *)
Definition empty_store : store := fun _ => None.
(** sled's [insert], as at account.rs:226 *)
Definition insert (st : store) (k v : bytes) : store := fun k' => if bytes_eqb k' k then Some v else st k'.
(** the inserts of account.rs:272-285 in order *)
Definition apply_writes (st : store) (ws : list (bytes * bytes)) : store :=
  fold_left (fun s w => insert s (fst w) (snd w)) ws st.
(** A sequence of [insert(..)?] ended by [flush()?]: [fault] is the number of the operation
    that fails, the flush being the last one; a failing insert writes nothing.  The second
    component says whether all succeeded. account.rs:225-229,272-288 *)
Definition write_all (st : store) (ws : list (bytes * bytes)) (fault : option nat) : store * bool :=
  match fault with
  | None => (apply_writes st ws, true)
  | Some i => if (i <=? length ws)%nat then (apply_writes st (firstn i ws), false) else (apply_writes st ws, true)
  end.

(** ** account.rs *)

(** account.rs:55-65 *)
Inductive acc_error := NotFound | InvalidRoundInterval | StorageError | DecodeError.
(** account.rs:39-52 *)
Record participation := mkPart {
  parent : bytes;
  vrf : VrfModel.keypair;
  voting : secrets;
  part_first : N;
  part_last : N;
  part_dilution : N
}.

(** Encoded forms (serde derives at src/crypto/ots.rs:87-110,357-363 and src/crypto/vrf.rs:30-37).
    ed25519 key pairs are the 64 bytes of secret and public key; the lock is a unit. *)
Section Codec.
Variable sc : scheme.
(** src/crypto/ots.rs:357-363 *)
Definition subkey_value (k : subkey) : value := VArr [VBin (secret k ++ public sc (secret k)); VBytes (pk_sig_new k)].
(** src/crypto/ots.rs:87-110 *)
Definition secrets_value (s : secrets) : value :=
  VArr [VBin (verifier s); VNum (first_batch s); VArr (map subkey_value (batches s)); VNum (first_offset s);
        VArr (map subkey_value (offsets s)); VBin (offsets_pk2 s); VBytes (offsets_pk2_sig s); VNil].
(** src/crypto/vrf.rs:30-37 *)
Definition vrf_value (k : VrfModel.keypair) : value := VArr [VBytes (VrfModel.private k); VBytes (VrfModel.public_key k)].

(** serde's reading of an unsigned number *)
Definition num_of (v : value) : option N :=
  match v with VInt z => if (0 <=? z)%Z then Some (Z.to_N z) else None | _ => None end.
(** serde's reading of a sequence of [u8] *)
Fixpoint all_bytes (l : list value) : option bytes :=
  match l with
  | [] => Some []
  | v :: r => match num_of v, all_bytes r with
              | Some n, Some s => if n <? 256 then Some (b8 n :: s) else None
              | _, _ => None
              end
  end.
(** a byte array of fixed length; message-pack bytes, which are never written here, are refused, while some
    versions of rmp-serde take them *)
Definition bytes_of (n : nat) (v : value) : option bytes :=
  match v with
  | VArr l => match all_bytes l with Some s => if (length s =? n)%nat then Some s else None | None => None end
  | _ => None
  end.
(** [serde_bytes::ByteBuf] *)
Definition buf_of (v : value) : option bytes :=
  match v with VStr s | VBin s => Some s | VArr l => all_bytes l | _ => None end.
(** ed25519-dalek refuses public keys that are no point; [is_point] is that test *)
Variable is_point : bytes -> bool.
(** [PublicKey] of ed25519-dalek, as in src/crypto/ots.rs:88-110 *)
Definition key_of (v : value) : option bytes :=
  match buf_of v with Some s => if (length s =? 32)%nat && is_point s then Some s else None | None => None end.
(** a key pair as its 64 bytes; [Keypair] of ed25519-dalek, as in src/crypto/ots.rs:358-363 *)
Definition keypair_of (v : value) : option bytes :=
  match buf_of v with Some kp => if (length kp =? 64)%nat && is_point (skipn 32 kp) then Some kp else None | None => None end.
(** A key pair whose halves do not belong together is refused here, while the library takes
    it; such pairs are never written. Fields of src/crypto/ots.rs:357-363. *)
Definition subkey_of (v : value) : option subkey :=
  match fields_of ["kp"; "pk_sig_new"]%string v with
  | Some [kp; sg] =>
      match keypair_of kp, bytes_of 64 sg with
      | Some kp, Some s => if bytes_eqb (public sc (firstn 32 kp)) (skipn 32 kp) then Some (mkSubkey (firstn 32 kp) s) else None
      | _, _ => None
      end
  | _ => None
  end.
(** [Vec<EphemeralSubkey>] of src/crypto/ots.rs:88-110 *)
Fixpoint all_subkeys (l : list value) : option (list subkey) :=
  match l with
  | [] => Some []
  | v :: r => match subkey_of v, all_subkeys r with Some k, Some ks => Some (k :: ks) | _, _ => None end
  end.
(** [Vec<EphemeralSubkey>] of src/crypto/ots.rs:88-110 as a value *)
Definition subkeys_of (v : value) : option (list subkey) := match v with VArr l => all_subkeys l | _ => None end.
(** the fields of src/crypto/ots.rs:87-110 *)
Definition secrets_of (v : value) : option secrets :=
  match fields_of ["verifier"; "first_batch"; "batches"; "first_offset"; "offsets"; "offsets_pk2"; "offsets_pk2_sig"; "lock"]%string v with
  | Some [a; b; c; d; e; f; g; VNil] =>
      match key_of a, num_of b, subkeys_of c, num_of d, subkeys_of e, key_of f, bytes_of 64 g with
      | Some ver, Some fb, Some bs, Some fo, Some os, Some pk2, Some sg => Some (mkSecrets ver fb bs fo os pk2 sg)
      | _, _, _, _, _, _, _ => None
      end
  | _ => None
  end.
(** the fields of src/crypto/vrf.rs:30-34 *)
Definition vrf_of (v : value) : option VrfModel.keypair :=
  match fields_of ["private"; "public"]%string v with
  | Some [a; b] => match bytes_of 32 a, bytes_of 32 b with Some x, Some y => Some (VrfModel.mkPair x y) | _, _ => None end
  | _ => None
  end.
(** [protocol::decode]; src/protocol/codec.rs:10-12 *)
Definition from_bytes {A} (of : value -> option A) (s : bytes) : outcome acc_error A :=
  match decode s with Some v => match of v with Some a => Ok a | None => Err DecodeError end | None => Err DecodeError end.

(** *** Root accounts *)

(** account.rs:76-84: [Keypair::from_bytes] wants 64 bytes and is given the 32 of a seed; the rest of
    the function is never reached *)
Definition root_import (seed : bytes) : outcome acc_error bytes :=
  if (length seed =? 64)%nat then Ok seed else Panic.
(** account.rs:67-73 *)
Definition root_generate (random : bytes) : outcome acc_error bytes := root_import (firstn 32 random).
(** account.rs:87-96 *)
Definition root_restore (st : store) : outcome acc_error bytes :=
  match st (str "root") with
  | None => Err NotFound
  | Some raw => from_bytes keypair_of raw
  end.

(** *** Participations *)

(** account.rs:121-127; [None] is the panic *)
Definition overlaps_interval (p : participation) (first last : N) : option bool :=
  if last <? first then None else Some ((part_first p <=? last) && (first <=? part_last p)).

(** account.rs:151-176 *)
Definition generate_registration_transaction (p : participation) (fee first last : N) (lease : bytes) : TxModel.transaction :=
  TxModel.mkTx (TxModel.mkTxHeader (parent p) fee first last [] [] zero32 zero32 lease zero32)
    (TxModel.Keyreg (TxModel.mkKeyreg (verifier (voting p)) (VrfModel.public_key (vrf p)) (part_first p) (part_last p) (part_dilution p) false)).

(** account.rs:272-283: what is written, in order *)
Definition writes (p : participation) : list (bytes * bytes) :=
  [(str "part-parent", parent p);
   (str "part-vrf", encode (vrf_value (vrf p)));
   (str "part-voting", encode (secrets_value (snapshot (voting p))));
   (str "part-first_valid", be 8 (part_first p));
   (str "part-last_valid", be 8 (part_last p));
   (str "part-key_dilution", be 8 (part_dilution p))].
(** account.rs:272-286 *)
Definition persist (st : store) (p : participation) (fault : option nat) : store * outcome acc_error unit :=
  let (st', ok) := write_all st (writes p) fault in (st', if ok then Ok tt else Err StorageError).
(** account.rs:225-229 *)
Definition persist_new_parent (st : store) (p : participation) (fault : option nat) : store * outcome acc_error unit :=
  let (st', ok) := write_all st [(str "part-parent", parent p)] fault in (st', if ok then Ok tt else Err StorageError).

(** [x.unwrap().as_ref().try_into().unwrap()] into an array of [n] bytes; account.rs:178-202 *)
Definition exactly (n : nat) (o : option bytes) : outcome acc_error bytes :=
  match o with Some s => if (length s =? n)%nat then Ok s else Panic | None => Panic end.
(** [protocol::decode(x.unwrap())] in account.rs:178-202 *)
Definition stored {A} (of : value -> option A) (o : option bytes) : outcome acc_error A :=
  match o with Some s => from_bytes of s | None => Panic end.
(** account.rs:178-202; reading does not fail in this model *)
Definition restore (st : store) : outcome acc_error participation :=
  (let? par := exactly 32 (st (str "part-parent")) in
   let? v := stored vrf_of (st (str "part-vrf")) in
   let? o := stored secrets_of (st (str "part-voting")) in
   let? f := exactly 8 (st (str "part-first_valid")) in
   let? l := exactly 8 (st (str "part-last_valid")) in
   let? k := exactly 8 (st (str "part-key_dilution")) in
   Ok (mkPart par v o (be_val f) (be_val l) (be_val k)))%outcome.

(** account.rs:232-269: [rng] gives the random secrets; generating the VRF key is [vrf_key] *)
Definition fill_db (md : mode) (st : store) (par : bytes) (first last dilution : N) (master : bytes) (rng : N -> bytes)
  (vrf_key : VrfModel.keypair) (fault : option nat) : store * outcome acc_error participation :=
  if last <? first then (st, Err InvalidRoundInterval)
  else
    match ots_id first dilution, ots_id last dilution with
    | Some (b1, _), Some (b2, _) =>
        match sub64 md b2 b1 with
        | None => (st, Panic)
        | Some d =>
            match add64 md d 1 with
            | None => (st, Panic)
            | Some num =>
                match generate sc md master b1 (map rng (range 0 num)) with
                | None => (st, Panic)
                | Some s =>
                    let p := mkPart par vrf_key s first last dilution in
                    match persist st p fault with
                    | (st', Ok _) => (st', Ok p)
                    | (st', _) => (st', Panic)
                    end
                end
            end
        end
    | _, _ => (st, Panic)
    end.

(** account.rs:205-222 *)
Definition delete_old_keys (md : mode) (st : store) (p : participation) (current : N) (proto : params) (rng : N -> bytes) (fault : option nat)
  : participation * store * outcome acc_error unit :=
  let dilution := if part_dilution p =? 0 then default_key_dilution proto else part_dilution p in
  match ots_id current dilution with
  | None => (p, st, Panic)
  | Some (b, o) =>
      match delete_before sc md (voting p) (mkId b o) dilution rng with
      | None => (p, st, Panic)
      | Some s =>
          let p' := mkPart (parent p) (vrf p) s (part_first p) (part_last p) (part_dilution p) in
          let (st', ok) := write_all st [(str "part-voting", encode (secrets_value (snapshot s)))] fault in
          (p', st', if ok then Ok tt else Err StorageError)
      end
  end.
End Codec.

(** ** account_manager.rs *)

(** account_manager.rs:16-25 *)
Record identity := mkIdentity { id_address : bytes; id_first : N; id_last : N; id_vote : bytes; id_selection : bytes }.
(** account_manager.rs:161-169 *)
Definition identity_eqb (a b : identity) : bool :=
  bytes_eqb (id_address a) (id_address b) && (id_first a =? id_first b) && (id_last a =? id_last b)
  && bytes_eqb (id_vote a) (id_vote b) && bytes_eqb (id_selection a) (id_selection b).
(** account_manager.rs:28-36: the hash map as the list of its entries in iteration order, which
    is arbitrary; the set likewise.  The lock is not modelled. *)
Record manager := mkManager { part_keys : list (identity * participation); registered : list bytes }.
(** account_manager.rs:28-36, empty *)
Definition new_manager : manager := mkManager [] [].
(** account_manager.rs:65-72 *)
Definition identity_of (p : participation) : identity :=
  mkIdentity (parent p) (part_first p) (part_last p) (verifier (voting p)) (VrfModel.public_key (vrf p)).

(** account_manager.rs:40-47; a round overlaps with itself, so there is no panic: see [overlaps_interval] *)
Definition keys (m : manager) (round : N) : list participation :=
  filter (fun p => match overlaps_interval p round round with Some b => b | None => false end) (map snd (part_keys m)).
(** account_manager.rs:50-56: [any] stops at the first hit *)
Fixpoint any_live (ps : list participation) (from to : N) : option bool :=
  match ps with
  | [] => Some false
  | p :: r => match overlaps_interval p from to with None => None | Some true => Some true | Some false => any_live r from to end
  end.
(** account_manager.rs:50-56 *)
Definition has_live_keys (m : manager) (from to : N) : option bool := any_live (map snd (part_keys m)) from to.

Section Manager.
Variable H : bytes -> bytes.
(** account_manager.rs:60-97 *)
Definition add_participation (m : manager) (p : participation) : manager * bool :=
  let id := identity_of p in
  if existsb (fun e => identity_eqb (fst e) id) (part_keys m) then (m, false)
  else
    let text := AddressModel.address_to_string H (parent p) in
    (mkManager ((id, p) :: part_keys m) (if existsb (bytes_eqb text) (registered m) then registered m else text :: registered m), true).
End Manager.

(** account_manager.rs:113-133: the first round whose key is kept; [None] is a panic.
    [sigs] is the map from address to the last round signed for. *)
Definition next_round (md : mode) (h : BlockModel.header) (sigs : bytes -> option N) (cert_rounds : N) (par : bytes) : option N :=
  match add64 md (BlockModel.round h) 1 with
  | None => None
  | Some next =>
      match BlockModel.compact_certs h with
      | [] => None
      | (_, cs) :: _ =>
          if 0 <? BlockModel.cert_next_round cs then
            match add64 md (BlockModel.cert_next_round cs) 1, sigs par with
            | Some cc, Some signed =>
                let cc' := if cc <=? signed then
                             match add64 md cert_rounds 1 with Some a => add64 md signed a | None => None end
                           else Some cc in
                match cc' with None => None | Some c => Some (if c <? next then c else next) end
            | _, _ => None
            end
          else Some next
      end
  end.

Section Aging.
Variables (sc : scheme) (table : list (version * params)).
(** account_manager.rs:111-146, the loop over the held participations; [rngs] and [faults] are the
    random secrets and the storage fault for each of them in turn.  A storage error is only
    logged.  [None] is a panic. *)
Fixpoint age_all (md : mode) (st : store) (es : list (identity * participation)) (h : BlockModel.header) (sigs : bytes -> option N) (cert_rounds : N)
  (proto : params) (rngs : nat -> N -> bytes) (faults : nat -> option nat) : option (store * list (identity * participation)) :=
  match es with
  | [] => Some (st, [])
  | (id, p) :: r =>
      match next_round md h sigs cert_rounds (parent p) with
      | None => None
      | Some c =>
          match delete_old_keys sc md st p c proto (rngs O) (faults O) with
          | (_, _, Panic) => None
          | (p', st', _) =>
              match age_all md st' r h sigs cert_rounds proto (fun i => rngs (S i)) (fun i => faults (S i)) with
              | None => None
              | Some (st'', r') => Some (st'', (id, p') :: r')
              end
          end
      end
  end.
(** account_manager.rs:100-148 *)
Definition delete_all_old_keys (md : mode) (st : store) (m : manager) (h : BlockModel.header) (sigs : bytes -> option N) (proto : params)
  (rngs : nat -> N -> bytes) (faults : nat -> option nat) : option (store * manager) :=
  match lookup (UpgradeModel.current (BlockModel.upgrade h)) table with
  | None => None
  | Some latest =>
      match age_all md st (part_keys m) h sigs (compact_cert_rounds latest) proto rngs faults with
      | None => None
      | Some (st', es) => Some (st', mkManager es (registered m))
      end
  end.
End Aging.
