(** C86-C93: the configuration files. *)
From Verif Require Import Base ConsensusModel ConfigModel ConfigSpec ConfigProofs JsonModel JsonSpec FilesModel SettingsModel SettingsSpec SettingsProofs.
Local Open Scope N_scope.

(** Files for the cases: everything can be written. *)
Definition disk (l : list (bytes * bytes)) : files := mkFiles (fun p => assoc p l) (fun _ => true).
(** Nothing to expand. *)
Definition plain (p : bytes) : option bytes := Some p.
Ltac fields := repeat first [apply Forall2_nil | apply Forall2_cons; [split; [reflexivity|cbn [fst snd typed]; first [exact I | reflexivity | lia | (split; [repeat constructor; cbn; intuition discriminate|repeat constructor])]]|]].
Lemma default_typed : well_typed local_table default_local.
Proof. unfold well_typed, local_table, default_local. fields. Qed.

(** C86.  Saving settings writes nothing. *)
Theorem c86_saved_settings_refuted :
  exists fs s dir, well_typed local_table s /\
  (exists fs', save_to_disk plain fs s dir = (fs', Ok tt) /\ load_from_disk fs' dir = None).
Proof. exists (disk []), default_local, (str "/data"). split; [exact default_typed|]. exists (disk []). split; reflexivity. Qed.
Print Assumptions c86_saved_settings_refuted.

Theorem c86_saves_nothing :
  forall expand fs s dir, fst (save_to_disk expand fs s dir) = fs.
Proof. exact saved_nothing. Qed.
Print Assumptions c86_saves_nothing.

(** A file with the settings is read back as them, up to the relay settings. *)
Theorem c86_settings_file_partial :
  forall fs dir s, content fs (path_join dir (str "config.json")) = Some (pretty 0 (encode_struct s)) ->
  well_typed local_table s ->
  exists s', load_from_disk fs dir = Some s' /\ with_relay_settings s s'.
Proof. exact file_lemma. Qed.
Print Assumptions c86_settings_file_partial.

Example c86_case :
  well_typed local_table default_local /\
  load_from_disk (disk [(str "/data/config.json", pretty 0 (encode_struct default_local))]) (str "/data") = Some default_local.
Proof. split; [exact default_typed|vm_compute; reflexivity]. Qed.

(** C87.  A file without some setting is not accepted at all. *)
Theorem c87_missing_settings_refuted :
  exists fs dir, content fs (path_join dir (str "config.json")) = Some (str "{}") /\ load_from_disk fs dir = None.
Proof. exists (disk [(str "/data/config.json", str "{}")]), (str "/data"). split; vm_compute; reflexivity. Qed.
Print Assumptions c87_missing_settings_refuted.

Theorem c87_missing_setting_rejected :
  forall c m n t, parse c = Some (JObj m) -> In (n, t) local_table -> ~ In n (map fst m) -> load c = None.
Proof. exact absent_lemma. Qed.
Print Assumptions c87_missing_setting_rejected.

(** It is accepted exactly if it gives each setting once with a value of its type; the settings
    are those of the file and other names are ignored. *)
Theorem c87_settings_partial :
  forall fs dir c m, content fs (path_join dir (str "config.json")) = Some c -> utf8 c = true -> parse c = Some (JObj m) ->
  (load_from_disk fs dir <> None <->
   forall n t, In (n, t) local_table -> exists v, values n m = [v] /\ decode_field t v <> None) /\
  (forall s', load_from_disk fs dir = Some s' ->
   exists s, with_relay_settings s s' /\
   forall n t, In (n, t) local_table -> exists v x, values n m = [v] /\ decode_field t v = Some x /\ In (n, x) s).
Proof. exact given_lemma. Qed.
Print Assumptions c87_settings_partial.

(** The values a setting of each type is given by. *)
Theorem c87_field_values :
  forall t x, typed t x -> decode_field t (encode_field x) = Some x.
Proof. exact field_back. Qed.
Print Assumptions c87_field_values.
(** No other values are taken. *)
Theorem c87_only_typed :
  forall t v x, utf8_json v -> decode_field t v = Some x -> typed t x.
Proof. exact field_only. Qed.
Print Assumptions c87_only_typed.
Theorem c87_durations :
  forall v n, decode_field TDur v = Some (FDur n) <->
  exists s k, s < 2 ^ 64 /\ k < 2 ^ 32 /\ s + k / 1000000000 < 2 ^ 64 /\ n = s * 1000000000 + k /\ duration_json s k v.
Proof. exact duration_field_iff. Qed.
Print Assumptions c87_durations.
Example c87_values_case : decode_field TU32 (JInt 4294967296) = None /\ decode_field TU32 (JInt 4294967295) = Some (FInt 4294967295) /\
  decode_field TDur (JObj [(str "nanos", JInt 2000000001); (str "secs", JInt 5)]) = Some (FDur 7000000001).
Proof. vm_compute. repeat split. Qed.

(** Reversed order and an unknown name. *)
Definition reversed_json : json :=
  JObj ((str "unknown", JNull) :: rev (map (fun e => (fst e, encode_field (snd e))) default_local)).
Example c87_case :
  let c := pretty 0 reversed_json in
  utf8 c = true /\ parse c = Some reversed_json /\
  load_from_disk (disk [(str "config.json", c)]) [] = Some default_local /\
  load (str "{}") = None /\ parse (str "{}") = Some (JObj []).
Proof. vm_compute. repeat split. Qed.

(** C88.  Nodes with an address to listen on keep and serve all blocks. *)
Theorem c88_relays :
  forall fs dir s a, load_from_disk fs dir = Some s -> In (str "net_address", FStr a) s -> a <> [] ->
  In (str "archival", FBool true) s /\ In (str "enable_ledger_service", FBool true) s /\ In (str "enable_block_service", FBool true) s.
Proof. intros fs dir s a L I N0. pose proof (relay_lemma fs dir s a L I N0) as X. repeat split; apply X; unfold relay_setting; cbn [In]; auto. Qed.
Print Assumptions c88_relays.

Theorem c88_others_unchanged :
  forall fs dir c s, content fs (path_join dir (str "config.json")) = Some c -> load c = Some s ->
  exists s', load_from_disk fs dir = Some s' /\ with_relay_settings s s'.
Proof. exact loaded_lemma. Qed.
Print Assumptions c88_others_unchanged.

Definition relay_settings : settings := set (str "net_address") (FStr (str ":4160")) default_local.
Example c88_case :
  match load_from_disk (disk [(str "/d/config.json", pretty 0 (encode_struct relay_settings))]) (str "/d") with
  | Some s => (get_str (str "net_address") s, assoc (str "archival") s, assoc (str "archival") relay_settings,
               assoc (str "enable_block_service") s, assoc (str "version") s)
  | None => ([], None, None, None, None)
  end = (str ":4160", Some (FBool true), Some (FBool false), Some (FBool true), assoc (str "version") default_local).
Proof. vm_compute. reflexivity. Qed.

(** C89.  The bootstrap names. *)
Theorem c89_default :
  forall s, well_typed local_table s -> In (str "dns_bootstrap_id", FStr (str "<network>.algorand.network")) s ->
  dns_bootstrap s (str "devnet") = str "devnet.algodev.network" /\ dns_bootstrap s (str "betanet") = str "betanet.algodev.network".
Proof. exact default_lemma. Qed.
Print Assumptions c89_default.

Theorem c89_pattern :
  forall s network id pieces, well_typed local_table s -> In (str "dns_bootstrap_id", FStr id) s ->
  id = join_with (str "<network>") pieces -> (forall p, In p pieces -> ~ occurs (str "<network>") p) ->
  id <> str "<network>.algorand.network" \/ ~ In network [str "devnet"; str "betanet"] ->
  dns_bootstrap s network = join_with network pieces.
Proof. exact bootstrap_lemma. Qed.
Print Assumptions c89_pattern.

Theorem c89_list :
  forall s network pieces, dns_bootstrap s network = join_with (str ";") pieces -> (forall p, In p pieces -> ~ In x3b p) ->
  dns_bootstrap_array s network = filter (fun p => negb (bytes_eqb p [])) pieces.
Proof. exact array_lemma. Qed.
Print Assumptions c89_list.

Definition two_names : settings := set (str "dns_bootstrap_id") (FStr (str "a.<network>.x;;<network>.<network>;")) default_local.
Example c89_case :
  In (str "dns_bootstrap_id", FStr (str "a.<network>.x;;<network>.<network>;")) two_names /\
  str "a.<network>.x;;<network>.<network>;" = join_with (str "<network>") [str "a."; str ".x;;"; str "."; str ";"] /\
  dns_bootstrap_array two_names (str "devnet") = [str "a.devnet.x"; str "devnet.devnet"] /\
  dns_bootstrap default_local (str "mainnet") = str "mainnet.algorand.network".
Proof. split; [|vm_compute; repeat split]. apply assoc_in. vm_compute. reflexivity. Qed.

(** C90.  Each check is governed by its own bit. *)
Theorem c90_dnssec :
  forall s z, well_typed local_table s -> In (str "dns_security_flags", FInt z) s ->
  dnssec_srv_enforced s = N.testbit (Z.to_N z) 0 /\ dnssec_relay_addr_enforced s = N.testbit (Z.to_N z) 1 /\
  dnssec_telemetry_enforced s = N.testbit (Z.to_N z) 2.
Proof. exact dnssec_lemma. Qed.
Print Assumptions c90_dnssec.

Theorem c90_catchup :
  forall s z, well_typed local_table s -> In (str "catchup_block_validate_mode", FInt z) s ->
  catchup_verify_certificate s = negb (N.testbit (Z.to_N z) 0) /\ catchup_verify_payset_hash s = negb (N.testbit (Z.to_N z) 1) /\
  catchup_verify_transaction_signatures s = N.testbit (Z.to_N z) 2 /\ catchup_verify_apply_data s = N.testbit (Z.to_N z) 3.
Proof. exact catchup_lemma. Qed.
Print Assumptions c90_catchup.

Example c90_case :
  let s := set (str "dns_security_flags") (FInt 5) (set (str "catchup_block_validate_mode") (FInt 6) default_local) in
  (dnssec_srv_enforced s, dnssec_relay_addr_enforced s, dnssec_telemetry_enforced s) = (true, false, true) /\
  (catchup_verify_certificate s, catchup_verify_payset_hash s, catchup_verify_transaction_signatures s, catchup_verify_apply_data s) = (true, false, true, false).
Proof. vm_compute. split; reflexivity. Qed.

(** C91.  A saved phonebook cannot be loaded, whatever it holds. *)
Theorem c91_phonebook_refuted :
  exists fs entries root fs', Forall (fun e => utf8 e = true) entries /\
  save_phonebook_to_disk plain fs entries root = (fs', Ok tt) /\ load_phonebook fs' root <> Ok entries.
Proof. exists (disk []), [str "r1.algorand.network:4160"], (str "/d"). eexists. split; [repeat constructor|]. split; [reflexivity|]. rewrite (phonebook_lost plain (disk []) [str "r1.algorand.network:4160"] (str "/d") _ eq_refl eq_refl). discriminate. Qed.
Print Assumptions c91_phonebook_refuted.

Theorem c91_always_lost :
  forall expand fs entries root fs',
  expand (path_join root (str "phonebook.json")) = Some (path_join root (str "phonebook.json")) ->
  save_phonebook_to_disk expand fs entries root = (fs', Ok tt) -> load_phonebook fs' root = Err tt.
Proof. exact phonebook_lost. Qed.
Print Assumptions c91_always_lost.

Theorem c91_loads_nothing :
  forall fs root l, load_phonebook fs root = Ok l -> l = [].
Proof. exact phonebook_empty. Qed.
Print Assumptions c91_loads_nothing.

(** The file does hold the entries, and no other file changes. *)
Theorem c91_phonebook_partial :
  forall expand fs entries root p, Forall (fun e => utf8 e = true) entries ->
  expand (path_join root (str "phonebook.json")) = Some p -> writable fs p = true ->
  exists fs' c, save_phonebook_to_disk expand fs entries root = (fs', Ok tt) /\ content fs' p = Some c /\ utf8 c = true /\
  parse c = Some (JObj [(str "include", JArr (map JStr entries))]) /\ forall q, q <> p -> content fs' q = content fs q.
Proof. exact phonebook_text. Qed.
Print Assumptions c91_phonebook_partial.

Example c91_case :
  content (fst (save_phonebook_to_disk plain (disk []) [str "a""b"; str "c"] (str "/d/"))) (str "/d/phonebook.json")
  = Some (str "{
  ""include"": [
    ""a\""b"",
    ""c""
  ]
}").
Proof. vm_compute. reflexivity. Qed.

(** C92.  Saved protocols are merged into the table that is current when they are loaded. *)
Theorem c92_saved_protocols :
  forall fs dir t current, t <> [] -> NoDup (map fst t) -> protocols_typed t ->
  writable fs (path_join dir (str "consensus.json")) = true ->
  exists fs', save_configurable_consensus fs dir t = (fs', Ok tt) /\
  (forall q, q <> path_join dir (str "consensus.json") -> content fs' q = content fs q) /\
  preload_configurable_consensus_protocols fs' dir current = match merge current t with Some t' => Ok t' | None => Panic end.
Proof. exact saved_protocols. Qed.
Print Assumptions c92_saved_protocols.

Theorem c92_loaded_protocols :
  forall fs dir t current, t <> [] -> NoDup (map fst t) -> NoDup (map fst current) -> protocols_typed t -> independent current t ->
  writable fs (path_join dir (str "consensus.json")) = true ->
  exists fs' t', save_configurable_consensus fs dir t = (fs', Ok tt) /\
  preload_configurable_consensus_protocols fs' dir current = Ok t' /\ merged current t t'.
Proof.
  intros fs dir t current A B C D E F. destruct (merge_lemma current t C B E) as [t' [M R]].
  destruct (saved_protocols fs dir t current A B D F) as [fs' [S1 [_ S2]]]. exists fs', t'. rewrite M in S2. auto.
Qed.
Print Assumptions c92_loaded_protocols.

Theorem c92_no_file :
  forall fs dir current, content fs (path_join dir (str "consensus.json")) = None ->
  preload_configurable_consensus_protocols fs dir current = Ok current /\ load_configurable_consensus_protocols fs dir current = Ok current.
Proof. exact no_file. Qed.
Print Assumptions c92_no_file.

Definition own_protocols : list (version * params) :=
  [(V20, v7_base); (V30, set_approved_upgrades [(V17, 5); (Future, 0)] v7_base)].
Example c92_case :
  own_protocols <> [] /\ NoDup (map fst own_protocols) /\ protocols_typed own_protocols /\
  match preload_configurable_consensus_protocols (fst (save_configurable_consensus (disk []) (str "/d") own_protocols)) (str "/d") built_in with
  | Ok t => (option_map approved_upgrades (lookup V30 t), lookup V20 t, option_map (fun _ => tt) (lookup V29 t))
  | _ => (None, None, None)
  end = (Some [(V17, 5); (Future, 0)], None, Some tt).
Proof.
  split; [discriminate|]. split; [repeat constructor; cbn; intuition discriminate|]. split.
  - constructor; [|constructor; [|constructor]]; cbn [snd]; unfold well_typed, params_table; fields.
  - vm_compute. reflexivity.
Qed.

(** C93.  Saving no protocols does not delete the file, and fails if there is none. *)
Theorem c93_empty_refuted :
  exists fs dir fs', save_configurable_consensus fs dir [] = (fs', Ok tt) /\
  content fs' (path_join dir (str "consensus.json")) <> None.
Proof.
  exists (disk [(str "/d/consensus.json", str "{}")]), (str "/d"). destruct (empty_lemma (disk [(str "/d/consensus.json", str "{}")]) (str "/d") [] (str "{}") eq_refl eq_refl) as [fs' [A [B _]]].
  exists fs'. split; [exact A|]. rewrite B. discriminate.
Qed.
Print Assumptions c93_empty_refuted.

Theorem c93_empty_missing :
  forall fs dir, content fs (path_join dir (str "consensus.json")) = None -> save_configurable_consensus fs dir [] = (fs, Err tt).
Proof. exact empty_missing. Qed.
Print Assumptions c93_empty_missing.

(** The new file configures nothing. *)
Theorem c93_empty_partial :
  forall fs dir current c, content fs (path_join dir (str "consensus.json")) = Some c ->
  writable fs (path_join dir (str "consensus.json")) = true ->
  exists fs', save_configurable_consensus fs dir [] = (fs', Ok tt) /\ content fs' (path_join dir (str "consensus.json")) = Some (str "{}") /\
  (forall q, q <> path_join dir (str "consensus.json") -> content fs' q = content fs q) /\
  preload_configurable_consensus_protocols fs' dir current = Ok current /\ load_configurable_consensus_protocols fs' dir current = Ok current.
Proof. exact empty_lemma. Qed.
Print Assumptions c93_empty_partial.

Example c93_case :
  let fs := disk [(str "/d/consensus.json", pretty 0 (encode_protocols own_protocols)); (str "/d/config.json", str "x")] in
  let fs' := fst (save_configurable_consensus fs (str "/d") []) in
  content fs' (str "/d/consensus.json") = Some (str "{}") /\ content fs' (str "/d/config.json") = Some (str "x").
Proof. vm_compute. split; reflexivity. Qed.
