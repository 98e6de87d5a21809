(** C134-C136: the texts of the configuration files. *)
From Verif Require Import Base ConsensusModel ConfigModel ConfigSpec JsonModel WordfileSpec JsonSpec JsonProofs JsonExact FilesModel SettingsModel SettingsSpec SettingsProofs SettingsProps ConfSpec ConfProofs.
From Coq Require Import String.
Local Open Scope N_scope.
Local Open Scope list_scope.

(** C134.  The settings file is a JSON text in UTF-8 that gives every setting; it is accepted
    exactly then, and the settings are what it says. *)
Theorem c134_settings :
  forall fs dir c, content fs (path_join dir (str "config.json")) = Some c ->
  (load_from_disk fs dir <> None <-> is_text c /\ exists v s, document c v /\ settings_by local_table v s) /\
  (forall s', load_from_disk fs dir = Some s' ->
   exists v s, document c v /\ settings_by local_table v s /\ with_relay_settings s s').
Proof. exact text_settings. Qed.
Print Assumptions c134_settings.

(** How it is spelled does not matter. *)
Theorem c134_spelling :
  forall fs fs' dir c c' v,
  content fs (path_join dir (str "config.json")) = Some c -> content fs' (path_join dir (str "config.json")) = Some c' ->
  is_text c -> is_text c' -> document c v -> document c' v -> load_from_disk fs dir = load_from_disk fs' dir.
Proof. exact same_document. Qed.
Print Assumptions c134_spelling.

(** A text has one meaning. *)
Theorem c134_one_meaning :
  forall c u v, document c u -> document c v -> u = v.
Proof. exact document_unique. Qed.
Print Assumptions c134_one_meaning.

(** One text spelled twice, with all that can be ignored. *)
Definition one_spelling : bytes := str "{""k"":[1,-2.5e+3,true],""d"":""\\u0041\ud83d\ude00\n"",""x"":{""\udfff"":""\ud800""}}".
Definition other_spelling : bytes :=
  str " { ""\u006B"" :[1, 0.0 ,true ] ,
 ""d"" : ""\u005cu0041" ++ [xf0; x9f; x98; x80] ++ str "\u000a"",""x"":-0}
".
Example c134_case :
  let v := JObj [(str "k", JArr [JInt 1; JOther; JBool true]); (str "d", JStr (str "\u0041" ++ [xf0; x9f; x98; x80; x0a])); (str "x", JOther)] in
  document one_spelling v /\ document other_spelling v /\
  (forall u, ~ document (str "{""d"":""\x""}") u) /\ (forall u, ~ document (str "[01]") u) /\ (forall u, ~ document (str "[1,]") u).
Proof.
  split; [apply parse_exact; vm_compute; reflexivity|]. split; [apply parse_exact; vm_compute; reflexivity|].
  repeat split; intros u D; apply parse_exact in D; vm_compute in D; discriminate D.
Qed.
Definition listed : bytes := pretty 0 (JArr (map (fun e => encode_field (snd e)) default_local)).
Example c134_settings_case :
  load_from_disk (disk [(str "/d/config.json", listed)]) (str "/d") = Some default_local /\
  load_from_disk (disk [(str "/d/config.json", listed ++ str ",")]) (str "/d") = None.
Proof. vm_compute. split; reflexivity. Qed.

(** C135.  Loaded settings are values of their types, so they can be written and read again. *)
Theorem c135_typed :
  forall fs dir s, load_from_disk fs dir = Some s -> well_typed local_table s.
Proof. exact settings_typed. Qed.
Print Assumptions c135_typed.

Example c135_case : load_from_disk (disk [(str "config.json", pretty 0 reversed_json)]) [] = Some default_local.
Proof. vm_compute. reflexivity. Qed.

(** C136.  The protocols file is a JSON text that gives complete protocols under the names of
    versions; anything else is refused. *)
Theorem c136_protocols :
  forall fs dir current c, content fs (path_join dir (str "consensus.json")) = Some c ->
  (forall v t, document c v -> protocols_by v t -> exists t1, protocols_by v t1 /\
     preload_configurable_consensus_protocols fs dir current = match merge current t1 with Some t' => Ok t' | None => Panic end) /\
  ((forall v t, document c v -> ~ protocols_by v t) -> preload_configurable_consensus_protocols fs dir current = Err tt).
Proof. exact text_protocols. Qed.
Print Assumptions c136_protocols.

(** The phonebook is empty if the file is the JSON text null, and is refused otherwise. *)
Theorem c136_phonebook :
  forall fs dir l, load_phonebook fs dir = Ok l <->
  l = [] /\ exists c, content fs (path_join dir (str "phonebook.json")) = Some c /\ is_text c /\ document c JNull.
Proof. exact text_phonebook. Qed.
Print Assumptions c136_phonebook.

Example c136_case :
  let file t := disk [(str "/d/consensus.json", t)] in
  preload_configurable_consensus_protocols (file (str " { } ")) (str "/d") built_in = Ok built_in /\
  preload_configurable_consensus_protocols (file (str "{""V30"":{}}")) (str "/d") built_in = Err tt /\
  match preload_configurable_consensus_protocols (file (pretty 0 (encode_protocols own_protocols))) (str "/d") built_in with
  | Ok t => option_map approved_upgrades (lookup V30 t) | _ => None end = Some [(V17, 5); (Future, 0)] /\
  load_phonebook (disk [(str "/d/phonebook.json", str " null")]) (str "/d") = Ok [] /\
  load_phonebook (disk [(str "/d/phonebook.json", str "{""include"":[]}")]) (str "/d") = Err tt.
Proof. repeat split; vm_compute; reflexivity. Qed.
