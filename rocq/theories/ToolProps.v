(** The key tool (C78-C85). *)
From Verif Require Import Base Toy MsgpackModel MnemonicModel AddressModel AddressSpec Scheme ConsensusModel.
From Verif Require Import ToolModel ToolSpec ToolProofs AccountModel AccountSpec.
From Verif Require OtsModel VrfModel TxModel.
Local Open Scope N_scope.

(** C78.  Generating a key prints the text form of its address and a mnemonic of its seed,
    writes the seed to the key file and the address to the other file, and touches nothing else. *)
Theorem c78_generate :
  forall H sc fs sk_file pk_file (seed : bytes), hash32 H -> length seed = 32%nat -> length (public sc seed) = 32%nat ->
  exists fs' p, generate_cmd H sc fs sk_file pk_file seed = (fs', Ok p) /\
    is_address_text H (public sc seed) (out_address p) /\ phrase_to_key H (out_phrase p) = Ok seed /\
    (sk_file <> [] -> sk_file <> pk_file -> writable fs sk_file = true -> content fs' sk_file = Some seed) /\
    (pk_file <> [] -> writable fs pk_file = true -> content fs' pk_file = Some (out_address p)) /\
    (forall n, n <> sk_file -> n <> pk_file -> content fs' n = content fs n).
Proof. exact generate_text_lemma. Qed.
Print Assumptions c78_generate.

(** Exporting the key file prints the same again; importing the printed mnemonic prints the
    same and writes the same key file. *)
Theorem c78_recover :
  forall H sc fs sk_file pk_file seed fs' p, hash32 H -> length seed = 32%nat ->
  sk_file <> [] -> sk_file <> pk_file -> writable fs sk_file = true -> generate_cmd H sc fs sk_file pk_file seed = (fs', Ok p) ->
  export_cmd H sc fs' sk_file [] = (fs', Ok p) /\
  forall fs2 f, f <> [] -> writable fs2 f = true ->
    exists fs3, import_cmd H sc fs2 (out_phrase p) f [] = (fs3, Ok p) /\ content fs3 f = Some seed.
Proof. exact (fun H sc fs sk pk seed fs' p h => recover_lemma H sc h fs sk pk seed fs' p). Qed.
Print Assumptions c78_recover.

(** With one name for both files the secret is not kept: the file holds the address. *)
Theorem c78_one_name :
  forall H sc fs f (seed : bytes), hash32 H -> length seed = 32%nat -> f <> [] -> writable fs f = true ->
  content (fst (generate_cmd H sc fs f f seed)) f = Some (address_to_string H (public sc seed)).
Proof. exact (fun H sc fs f seed h => same_name_lemma H sc h fs f seed). Qed.
Print Assumptions c78_one_name.

Definition ex_scheme : scheme := {| public := fun s => toy_hash s; sign_with := fun s m => toy_hash (s ++ m) ++ toy_hash (m ++ s); check := fun _ _ _ => true |}.
Definition no_files : files := mkFiles (fun _ => None) (fun _ => true).
Definition ex_seed : bytes := map (fun i => b8 (N.of_nat (5 * i + 3))) (seq 0 32).
Definition ex_generated : files * outcome unit printed := generate_cmd toy_hash ex_scheme no_files (str "sk") (str "pk") ex_seed.
Definition ex_printed : printed := match snd ex_generated with Ok p => p | _ => mkPrinted [] [] end.
Example c78_case :
  snd ex_generated = Ok ex_printed /\ content (fst ex_generated) (str "sk") = Some ex_seed /\
  content (fst ex_generated) (str "pk") = Some (out_address ex_printed) /\ length (out_address ex_printed) = 58%nat /\
  snd (export_cmd toy_hash ex_scheme (fst ex_generated) (str "sk") []) = Ok ex_printed /\
  snd (import_cmd toy_hash ex_scheme no_files (out_phrase ex_printed) (str "f") []) = Ok ex_printed.
Proof. vm_compute. repeat split. Qed.

(** C79.  Importing succeeds exactly for the mnemonic of a key, whose address is printed and
    whose seed is written; otherwise nothing is written. *)
Theorem c79_import :
  forall H sc fs phrase f pk fs' o, hash32 H -> import_cmd H sc fs phrase f pk = (fs', o) ->
  (exists seed, length seed = 32%nat /\ phrase_to_key H phrase = Ok seed /\ o = Ok (mkPrinted phrase (address_to_string H (public sc seed))) /\
     (f <> [] -> f <> pk -> writable fs f = true -> content fs' f = Some seed) /\
     (pk <> [] -> writable fs pk = true -> content fs' pk = Some (address_to_string H (public sc seed))) /\
     (forall n, n <> f -> n <> pk -> content fs' n = content fs n)) \/
  ((forall seed, phrase_to_key H phrase <> Ok seed) /\ o = Panic /\ fs' = fs).
Proof. exact (fun H sc fs phrase f pk fs' o h => import_lemma H sc h fs phrase f pk fs' o). Qed.
Print Assumptions c79_import.

Example c79_case :
  snd (import_cmd toy_hash ex_scheme no_files (32 :: out_phrase ex_printed) (str "f") []) = Ok (mkPrinted (32 :: out_phrase ex_printed) (out_address ex_printed)) /\
  snd (import_cmd toy_hash ex_scheme no_files (out_phrase ex_printed ++ [97]) (str "f") []) = Panic.
Proof. vm_compute. split; reflexivity. Qed.

(** C80, full statement: signing a readable transaction with a readable key file, or with a
    valid mnemonic, writes a signed transaction that verifies.  It is false for every input:
    no call succeeds, and no file changes. *)
Theorem c80_sign_refuted :
  forall H sc decode_tx fs sk_file mnemonic tx_file out_file,
  fst (sign_cmd H sc decode_tx fs sk_file mnemonic tx_file out_file) = fs /\
  forall stx, snd (sign_cmd H sc decode_tx fs sk_file mnemonic tx_file out_file) <> Ok stx.
Proof. exact sign_never. Qed.
Print Assumptions c80_sign_refuted.

(** The program exits with its own message exactly when both or neither of a key file and a mnemonic are
    named, and panics otherwise. *)
Theorem c80_sign_partial :
  forall H sc decode_tx fs sk_file mnemonic tx_file out_file,
  let '(fs', o) := sign_cmd H sc decode_tx fs sk_file mnemonic tx_file out_file in
  fs' = fs /\ (o = Err tt <-> (sk_file = [] <-> mnemonic = [])) /\ (o <> Err tt -> o = Panic).
Proof. exact sign_outcome. Qed.
Print Assumptions c80_sign_partial.

(** The key and the transaction can be read, the output file exists. *)
Definition ex_tx : TxModel.transaction :=
  TxModel.mkTx (TxModel.mkTxHeader zero32 1000 1 10 [] [] zero32 zero32 zero32 zero32) (TxModel.Payment (TxModel.mkPayment zero32 5 None)).
Definition ex_files : files :=
  mkFiles (fun n => if bytes_eqb n (str "sk") then Some ex_seed else if bytes_eqb n (str "tx") then Some [x01] else if bytes_eqb n (str "out") then Some [] else None) (fun _ => true).
Example c80_case : load_keyfile_or_mnemonic toy_hash ex_files (str "sk") [] = Ok ex_seed /\
  snd (sign_cmd toy_hash ex_scheme (fun _ => Some ex_tx) ex_files (str "sk") [] (str "tx") (str "out")) = Panic /\
  snd (sign_cmd toy_hash ex_scheme (fun _ => Some ex_tx) ex_files (str "sk") (out_phrase ex_printed) (str "tx") (str "out")) = Err tt.
Proof. repeat split; vm_compute; reflexivity. Qed.

(** C81, full statement: only files that hold a seed, 32 bytes, are exported.  It is false:
    a public key file, or any other longer file, is taken for a secret. *)
Theorem c81_only_key_files_refuted :
  exists H sc fs f s p, hash32 H /\ content fs f = Some s /\ length s <> 32%nat /\ snd (export_cmd H sc fs f []) = Ok p.
Proof.
  exists toy_hash, ex_scheme, (fst ex_generated), (str "pk"), (out_address ex_printed),
    (match snd (export_cmd toy_hash ex_scheme (fst ex_generated) (str "pk") []) with Ok p => p | _ => mkPrinted [] [] end).
  split; [exact toy_hash32|]. vm_compute. repeat split. discriminate.
Qed.
Print Assumptions c81_only_key_files_refuted.

(** Exporting succeeds exactly for the files with at least 32 bytes, the first of which are
    taken for the seed; otherwise nothing is written. *)
Theorem c81_only_key_files_partial :
  forall H sc fs f pk, hash32 H -> let '(fs', o) := export_cmd H sc fs f pk in
  match content fs f with
  | Some s =>
      if (32 <=? length s)%nat
      then exists p, o = Ok p /\ out_address p = address_to_string H (public sc (firstn 32 s)) /\
             phrase_to_key H (out_phrase p) = Ok (firstn 32 s) /\
             (pk <> [] -> writable fs pk = true -> content fs' pk = Some (out_address p)) /\
             (forall n, n <> pk -> content fs' n = content fs n)
      else o = Panic /\ fs' = fs
  | None => o = Panic /\ fs' = fs
  end.
Proof. exact (fun H sc fs f pk h => export_lemma H sc h fs f pk). Qed.
Print Assumptions c81_only_key_files_partial.

(** C82.  Without an explicit dilution, the dilution is the square root of the length of the
    interval, plus at least one and at most two, so that the number of groups of rounds, which
    is the number of keys made, is at most the dilution plus one.  Below 2^52 rounds it is the
    integer square root plus one. *)
Theorem c82_default_dilution :
  forall H sc is_point md st keyfile first last (addr : bytes) master rng vk, hash32 H -> scheme_sizes sc is_point ->
  u64 last -> first <= last -> ~ (last = max64 /\ first = max64) -> length addr = 32%nat ->
  exists st' p d, part_generate_cmd H sc md st keyfile first last 0 (address_to_string H addr) master rng vk None = (st', Ok p) /\
    parent p = addr /\ part_first p = first /\ part_last p = last /\ part_dilution p = d /\
    last - first < d * d /\ (d - 2) * (d - 2) <= last - first /\ (last - first < 2 ^ 52 -> (d - 1) * (d - 1) <= last - first) /\
    N.of_nat (length (OtsModel.batches (voting p))) = groups first last d /\ groups first last d <= d + 1.
Proof. exact (fun H sc ip md st keyfile first last addr master rng vk h z => part_generate_lemma H sc ip h z md st keyfile first last addr master rng vk). Qed.
Print Assumptions c82_default_dilution.

(** The last one is off by one from the exact root, because of rounding. *)
Example c82_case : key_dilution_of Debug 1000 31000 0 = Some 174 /\ key_dilution_of Debug 0 (65536 * 65536 - 1) 0 = Some 65536 /\
  key_dilution_of Debug 0 ((2 ^ 32 - 1) * (2 ^ 32 - 1) - 1) 0 = Some (2 ^ 32) /\ N.sqrt ((2 ^ 32 - 1) * (2 ^ 32 - 1) - 1) = 2 ^ 32 - 2.
Proof. repeat split; vm_compute; reflexivity. Qed.

(** C83, full statement: a participation generated into a key file is shown for that key file,
    whatever has been generated into other files since.  It is false: all names are one
    store, and the last one wins. *)
Theorem c83_key_files_refuted :
  forall H sc is_point md st1 st2 f g first last dilution addr master rng vk p q, hash32 H -> scheme_sizes sc is_point ->
  u64 last -> u64 dilution -> first <= last -> ~ (last = max64 /\ first = max64) -> ~ (last = max64 /\ dilution = 1) ->
  last - first < 2 ^ 31 \/ dilution = 0 /\ last - first < 2 ^ 62 -> length addr = 32%nat -> random_ok master rng vk ->
  part_info_cmd sc is_point st1 f = Ok p ->
  part_generate_cmd H sc md st1 g first last dilution (address_to_string H addr) master rng vk None = (st2, Ok q) ->
  part_info_cmd sc is_point st2 f = Ok q /\ parent q = addr.
Proof. exact last_wins. Qed.
Print Assumptions c83_key_files_refuted.

(** With one key file: what was generated is shown. *)
Theorem c83_key_files_partial :
  forall H sc is_point md st keyfile first last dilution addr master rng vk, hash32 H -> scheme_sizes sc is_point ->
  u64 last -> u64 dilution -> first <= last -> ~ (last = max64 /\ first = max64) -> ~ (last = max64 /\ dilution = 1) ->
  last - first < 2 ^ 31 \/ dilution = 0 /\ last - first < 2 ^ 62 -> length addr = 32%nat -> random_ok master rng vk ->
  exists st' p, part_generate_cmd H sc md st keyfile first last dilution (address_to_string H addr) master rng vk None = (st', Ok p) /\
    part_info_cmd sc is_point st' keyfile = Ok p /\ parent p = addr /\ part_first p = first /\ part_last p = last.
Proof. exact (fun H sc ip md st keyfile first last dilution addr master rng vk h z => part_info_lemma H sc ip h z md st keyfile first last dilution addr master rng vk). Qed.
Print Assumptions c83_key_files_partial.

(** C84.  Changing the parent changes the parent and nothing else. *)
Theorem c84_reparent :
  forall H sc is_point st keyfile p (addr : bytes), hash32 H -> part_info_cmd sc is_point st keyfile = Ok p -> length addr = 32%nat ->
  let p' := mkPart addr (vrf p) (voting p) (part_first p) (part_last p) (part_dilution p) in
  exists st', part_reparent_cmd H sc is_point st keyfile (address_to_string H addr) None = (st', Ok p') /\ part_info_cmd sc is_point st' keyfile = Ok p'.
Proof. exact (fun H sc ip st keyfile p addr h => reparent_lemma H sc ip h st keyfile p addr). Qed.
Print Assumptions c84_reparent.

Theorem c84_refused :
  forall H sc is_point st keyfile text, (forall addr, address_from_str H text <> Ok addr) \/ (forall p, restore sc is_point st <> Ok p) ->
  fst (part_reparent_cmd H sc is_point st keyfile text None) = st /\ forall p, snd (part_reparent_cmd H sc is_point st keyfile text None) <> Ok p.
Proof. exact reparent_refused. Qed.
Print Assumptions c84_refused.

(** C85, full statement: generating for a last round before the first is refused with an error
    message.  It is false with the default dilution in builds that check overflow. *)
Theorem c85_reversed_refuted :
  forall H sc st keyfile first last addr master rng vk fault, hash32 H -> last < first -> u64 first -> length addr = 32%nat ->
  snd (part_generate_cmd H sc Debug st keyfile first last 0 (address_to_string H addr) master rng vk fault) = Panic.
Proof. exact (fun H sc st keyfile first last addr master rng vk fault h a b c => proj2 (reversed_lemma H sc h Debug st keyfile first last 0 addr master rng vk fault a b c)). Qed.
Print Assumptions c85_reversed_refuted.

Theorem c85_reversed_partial :
  forall H sc md st keyfile first last dilution addr master rng vk fault, hash32 H -> last < first -> u64 first -> length addr = 32%nat ->
  fst (part_generate_cmd H sc md st keyfile first last dilution (address_to_string H addr) master rng vk fault) = st /\
  (md = Release \/ dilution <> 0 ->
   snd (part_generate_cmd H sc md st keyfile first last dilution (address_to_string H addr) master rng vk fault) = Err tt).
Proof. exact reversed_partial. Qed.
Print Assumptions c85_reversed_partial.

(** A participation of three rounds, another for the same name and for a second name. *)
Definition any_point (s : bytes) : bool := true.
Definition ex_vrf (c : byte) : VrfModel.keypair := VrfModel.mkPair (repeat c 32) (repeat c 32).
Definition ex_part (st : store) (f : bytes) (c : byte) : store * outcome unit participation :=
  part_generate_cmd toy_hash ex_scheme Debug st f 1000 1002 0 (address_to_string toy_hash (repeat c 32)) (repeat c 32) (fun i => repeat (b8 i) 32) (ex_vrf c) None.
Definition shown (o : outcome unit participation) : option (bytes * N) := match o with Ok p => Some (parent p, part_dilution p) | _ => None end.
Example c83_case :
  shown (snd (ex_part empty_store (str "a") x01)) = Some (repeat x01 32, 2) /\
  shown (part_info_cmd ex_scheme any_point (fst (ex_part empty_store (str "a") x01)) (str "a")) = Some (repeat x01 32, 2) /\
  shown (part_info_cmd ex_scheme any_point (fst (ex_part (fst (ex_part empty_store (str "a") x01)) (str "b") x02)) (str "a")) = Some (repeat x02 32, 2).
Proof. repeat split; vm_compute; reflexivity. Qed.
Example c84_case :
  shown (snd (part_reparent_cmd toy_hash ex_scheme any_point (fst (ex_part empty_store (str "a") x01)) (str "a") (address_to_string toy_hash (repeat x07 32)) None)) = Some (repeat x07 32, 2) /\
  snd (part_reparent_cmd toy_hash ex_scheme any_point (fst (ex_part empty_store (str "a") x01)) (str "a") (str "no address") None) = Err tt.
Proof. split; vm_compute; reflexivity. Qed.
Example c85_case : snd (part_generate_cmd toy_hash ex_scheme Release empty_store (str "a") 9 8 0 (address_to_string toy_hash (repeat x07 32)) (repeat x01 32) (fun i => repeat (b8 i) 32) (ex_vrf x01) None) = Err tt.
Proof. vm_compute. reflexivity. Qed.
