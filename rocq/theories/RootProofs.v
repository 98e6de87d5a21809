(** Proofs about the folder for global configuration files. *)
From Verif Require Import Base BaseFacts FilesModel RootModel.

Section Root.
Variable home : option bytes.
Variable allowed : bytes -> bool.
Local Notation ask := (get_global_config_file_root home allowed).

(** What a call that asks for something answers when the root is [r]. *)
Definition answered (r : bytes) (c : call) : answer :=
  match c with AskRoot => Ok r | AskFile f => Ok (path_join r f) | Override _ => Ok r end.
Definition asks (c : call) : Prop := match c with Override _ => False | _ => True end.

Lemma ask_known w : root w <> [] -> ask w = (w, Ok (root w)).
Proof. unfold get_global_config_file_root. destruct (root w); [contradiction|reflexivity]. Qed.
Lemma call_known w c : asks c -> root w <> [] -> do_call home allowed w c = (w, answered (root w) c).
Proof.
  destruct c as [|f|p]; cbn; [| |intros []]; intros _ Hr.
  - apply ask_known. exact Hr.
  - unfold get_config_file_path. rewrite (ask_known w Hr). reflexivity.
Qed.
Lemma calls_known w cs : Forall asks cs -> root w <> [] -> calls home allowed w cs = (w, map (answered (root w)) cs).
Proof.
  intros F Hr. induction F as [|c cs Hc _ IH]; [reflexivity|]. cbn [calls]. rewrite (call_known w c Hc Hr), IH. reflexivity.
Qed.
Lemma calls_app w cs ds : calls home allowed w (cs ++ ds) =
  let '(w', l) := calls home allowed w cs in let '(w'', m) := calls home allowed w' ds in (w'', l ++ m).
Proof.
  revert w. induction cs as [|c cs IH]; intros w; cbn [calls app].
  - destruct (calls home allowed w ds). reflexivity.
  - destruct (do_call home allowed w c) as [w1 a]. rewrite IH. destruct (calls home allowed w1 cs) as [w2 l].
    destruct (calls home allowed w2 ds) as [w3 m]. reflexivity.
Qed.

Lemma overridden w before p cs : p <> [] -> Forall asks cs ->
  exists l r, snd (calls home allowed w (before ++ Override p :: cs)) = l ++ r :: map (answered p) cs /\ length l = length before.
Proof.
  intros Hp F. rewrite calls_app. destruct (calls home allowed w before) as [w1 l] eqn:E. cbn [calls do_call].
  unfold set_global_config_file_root, set_write. rewrite calls_known; [|exact F|exact Hp]. cbn [snd root].
  exists l, (Ok (set_read w1)). split; [reflexivity|].
  clear - E. revert w l w1 E. induction before as [|c before IH]; intros w l w1 E; cbn [calls] in E.
  - injection E as <- <-. reflexivity.
  - destruct (do_call home allowed w c) as [w2 a]. destruct (calls home allowed w2 before) as [w3 m] eqn:E'. injection E as <- <-.
    cbn. f_equal. exact (IH _ _ _ E').
Qed.

Lemma joined h n : n <> [] -> path_join h n <> [].
Proof.
  unfold path_join. intros Hn. destruct h as [|b h]; [exact Hn|]. destruct (Byte.eqb (last (b :: h) x00) x2f); discriminate.
Qed.
Lemma after_ask w c h : asks c -> home = Some h ->
  root (fst (do_call home allowed w c)) = (if match root w with [] => true | _ => false end then path_join h (str ".algorand") else root w) /\
  root (fst (do_call home allowed w c)) <> [].
Proof.
  intros Hc Hh.
  assert (A : root (fst (ask w)) = (if match root w with [] => true | _ => false end then path_join h (str ".algorand") else root w) /\ root (fst (ask w)) <> []).
  { unfold get_global_config_file_root, get_default_config_file_path, create_dir. rewrite Hh. destruct (root w) as [|b r] eqn:Er.
    - cbn [present]. assert (N : path_join h (str ".algorand") <> []) by (apply joined; discriminate).
      destruct (present w (path_join h (str ".algorand"))); [split; [reflexivity|exact N]|].
      destruct (allowed (path_join h (str ".algorand"))); split; try reflexivity; exact N.
    - cbn. rewrite Er. split; [reflexivity|discriminate]. }
  destruct c as [|f|p]; [exact A| |destruct Hc]. cbn [do_call]. unfold get_config_file_path. destruct (ask w) as [w' a]. exact A.
Qed.
(** After the first question all questions are answered alike. *)
Lemma alike w c cs h : asks c -> Forall asks cs -> home = Some h ->
  exists r a, snd (calls home allowed w (c :: cs)) = a :: map (answered r) cs /\ (a = answered r c \/ a = Err CannotCreate).
Proof.
  intros Hc F Hh. cbn [calls]. destruct (after_ask w c h Hc Hh) as [A N].
  destruct (do_call home allowed w c) as [w1 a] eqn:E. cbn [fst] in *. rewrite (calls_known w1 cs F N). cbn [snd].
  exists (root w1), a. split; [reflexivity|].
  assert (B : forall w2 b, ask w = (w2, b) -> b = Ok (root w2) \/ b = Err CannotCreate).
  { intros w2 b Ea. unfold get_global_config_file_root, get_default_config_file_path, create_dir in Ea. rewrite Hh in Ea. destruct (root w) as [|x r] eqn:Er.
    - cbn [present root] in Ea. destruct (present w (path_join h (str ".algorand"))); [injection Ea as <- <-; right; reflexivity|].
      destruct (allowed (path_join h (str ".algorand"))); injection Ea as <- <-; [left; reflexivity|right; reflexivity].
    - injection Ea as <- <-. left. rewrite Er. reflexivity. }
  destruct c as [|f|p]; [| |destruct Hc]; cbn [do_call answered] in *.
  - exact (B _ _ E).
  - unfold get_config_file_path in E. destruct (ask w) as [w2 b] eqn:Ea. injection E as <- <-.
    destruct (B _ _ eq_refl) as [-> | ->]; [left|right]; reflexivity.
Qed.
Lemma no_home w cs : home = None -> root w = [] -> Forall asks cs ->
  calls home allowed w cs = (w, map (fun _ => Err NoHome) cs).
Proof.
  intros Hh Hr F. induction F as [|c cs Hc _ IH]; [reflexivity|]. cbn [calls].
  assert (E : do_call home allowed w c = (w, Err NoHome)).
  { assert (A : ask w = (w, Err NoHome)) by (unfold get_global_config_file_root, get_default_config_file_path; rewrite Hh, Hr; reflexivity).
    destruct c as [|f|p]; [exact A| |destruct Hc]. cbn [do_call]. unfold get_config_file_path. rewrite A. reflexivity. }
  rewrite E, IH. reflexivity.
Qed.
(** The first question, when nothing is known yet. *)
Lemma first_ask w h : home = Some h -> root w = [] ->
  let d := path_join h (str ".algorand") in
  (snd (ask w) = Ok d <-> present w d = false /\ allowed d = true) /\
  (snd (ask w) = Ok d \/ snd (ask w) = Err CannotCreate) /\
  (snd (ask w) = Ok d -> present (fst (ask w)) d = true).
Proof.
  intros Hh Hr d. unfold get_global_config_file_root, get_default_config_file_path, create_dir. rewrite Hh, Hr. fold d. cbn [present root].
  destruct (present w d) eqn:P; cbn [snd fst present root]; [repeat split; intros; try tauto; try discriminate; intuition discriminate|].
  destruct (allowed d) eqn:L; cbn [snd fst present root]; [|repeat split; intros; try tauto; try discriminate; intuition discriminate].
  repeat split; auto. intros _. rewrite (proj2 (bytes_eqb_spec d d) eq_refl). reflexivity.
Qed.

(** Overriding and restoring. *)
Lemma bracket w p body : exists l old, snd (calls home allowed w (Override p :: body)) = Ok old :: l /\
  root (fst (calls home allowed w (Override p :: body ++ [Override old]))) = root w.
Proof.
  destruct (calls home allowed (set_write w p) body) as [w1 l] eqn:E. exists l, (root w).
  split; cbn [calls do_call]; unfold set_global_config_file_root, set_read.
  - rewrite E. reflexivity.
  - rewrite calls_app, E. reflexivity.
Qed.
(** ** Threads *)
Lemma events_app s es fs : events home allowed s (es ++ fs) = events home allowed (events home allowed s es) fs.
Proof. unfold events. apply fold_left_app. Qed.
Definition begins (c : nat) (e : event) : Prop := match e with Begin d => d = c | _ => False end.
Definition writes (e : event) : Prop := match e with End _ _ => True | _ => False end.
Lemma got_kept s es c : Forall (fun e => ~ begins c e) es -> snd (events home allowed s es) c = snd s c.
Proof.
  intros F. revert s. induction F as [|e es He _ IH]; intros s; [reflexivity|].
  change (events home allowed s (e :: es)) with (events home allowed (do_event home allowed s e) es). rewrite IH. destruct s as [w got].
  destruct e as [|d|d p]; cbn in *; try reflexivity. destruct (Nat.eqb_spec c d); [subst; contradiction|reflexivity].
Qed.
Lemma returned s before c between p after : Forall (fun e => ~ begins c e) (between ++ End c p :: after) ->
  snd (events home allowed s (before ++ Begin c :: between ++ End c p :: after)) c = root (fst (events home allowed s before)).
Proof.
  intros F. rewrite events_app. destruct (events home allowed s before) as [w got]. 
  change (events home allowed (w, got) (Begin c :: between ++ End c p :: after)) with
    (events home allowed (do_event home allowed (w, got) (Begin c)) (between ++ End c p :: after)).
  rewrite (got_kept _ _ c F). cbn. rewrite Nat.eqb_refl. reflexivity.
Qed.
Lemma root_kept s es : root (fst s) <> [] -> Forall (fun e => ~ writes e) es -> root (fst (events home allowed s es)) = root (fst s).
Proof.
  intros Hr F. revert s Hr. induction F as [|e es He _ IH]; intros s Hr; [reflexivity|].
  change (events home allowed s (e :: es)) with (events home allowed (do_event home allowed s e) es).
  assert (E : root (fst (do_event home allowed s e)) = root (fst s)).
  { destruct s as [w got]. destruct e as [|d|d p]; cbn in *; try tauto. rewrite (ask_known w Hr). reflexivity. }
  rewrite IH; [exact E|]. rewrite E. exact Hr.
Qed.
Lemma alone s before c between p after : Forall (fun e => ~ begins c e) (between ++ End c p :: after) ->
  Forall (fun e => ~ writes e) between -> root (fst (events home allowed s before)) <> [] ->
  snd (events home allowed s (before ++ Begin c :: between ++ End c p :: after)) c =
  root (fst (events home allowed s (before ++ Begin c :: between))).
Proof.
  intros F W Hr. rewrite (returned s before c between p after F), events_app.
  change (events home allowed (events home allowed s before) (Begin c :: between)) with
    (events home allowed (do_event home allowed (events home allowed s before) (Begin c)) between).
  symmetry. destruct (events home allowed s before) as [w got]. exact (root_kept (do_event home allowed (w, got) (Begin c)) between Hr W).
Qed.
End Root.
