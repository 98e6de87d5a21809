(** Properties C132 and C133: the folder for global configuration files. *)
From Verif Require Import Base FilesModel RootModel RootProofs.

(** C132.  The folder that was set last, unless it is the empty path, is the answer to all
    questions until another is set; paths of files are in it. *)
Theorem c132_overridden : forall home allowed w before p questions, p <> [] ->
  (forall c, In c questions -> c = AskRoot \/ exists f, c = AskFile f) ->
  exists earlier r answers, snd (calls home allowed w (before ++ Override p :: questions)) = earlier ++ r :: answers /\
    length earlier = length before /\
    Forall2 (fun c a => (c = AskRoot /\ a = Ok p) \/ exists f, c = AskFile f /\ a = Ok (path_join p f)) questions answers.
Proof.
  intros home allowed w before p qs Hp Hq.
  assert (F : Forall asks qs) by (apply Forall_forall; intros c Hc; destruct (Hq c Hc) as [->|[f ->]]; exact I).
  destruct (overridden home allowed w before p qs Hp F) as (l & r & E & L).
  exists l, r, (map (answered p) qs). split; [exact E|]. split; [exact L|]. clear - F.
  induction F as [|c cs Hc _ IH]; cbn; constructor; [|exact IH]. destruct c; [left; auto|right; eauto|destruct Hc].
Qed.
Print Assumptions c132_overridden.

(** Nothing set: without a home directory every question fails.  With one, the answer is
    [.algorand] in it, and the folder is made, exactly if it is not there and can be made. *)
Theorem c132_no_home : forall allowed w questions, root w = [] ->
  (forall c, In c questions -> c = AskRoot \/ exists f, c = AskFile f) ->
  snd (calls None allowed w questions) = map (fun _ => Err NoHome) questions.
Proof.
  intros allowed w qs Hr Hq. rewrite (no_home None allowed w qs eq_refl Hr); [reflexivity|].
  apply Forall_forall; intros c Hc; destruct (Hq c Hc) as [->|[f ->]]; exact I.
Qed.
Print Assumptions c132_no_home.
Theorem c132_first : forall h allowed w, root w = [] ->
  let d := path_join h (str ".algorand") in
  let '(w', a) := get_global_config_file_root (Some h) allowed w in
  (a = Ok d <-> present w d = false /\ allowed d = true) /\ (a = Ok d \/ a = Err CannotCreate) /\ (a = Ok d -> present w' d = true).
Proof.
  intros h allowed w Hr d. pose proof (first_ask (Some h) allowed w h eq_refl Hr) as F. cbv zeta in F. fold d in F.
  destruct (get_global_config_file_root (Some h) allowed w) as [w' a]. exact F.
Qed.
Print Assumptions c132_first.

(** The full statement, that the same question asked again has the same answer, is false:
    in a program that is started for the second time the first question fails, since the
    folder is there already, and the second one succeeds. *)
Theorem c132_alike_refuted : exists home allowed w,
  snd (calls home allowed w [AskRoot; AskRoot]) = [Err CannotCreate; Ok (str "/home/u/.algorand")].
Proof.
  exists (Some (str "/home/u")), (fun _ => true), (mkWorld [] (fun _ => true)). vm_compute. reflexivity.
Qed.
Print Assumptions c132_alike_refuted.
(** Missing for the full statement: the very first question.  All later ones have the same
    answer as each other, and the first has it too unless making the folder failed. *)
Theorem c132_alike_partial : forall h allowed w n, exists r a,
  snd (calls (Some h) allowed w (AskRoot :: repeat AskRoot n)) = a :: repeat (Ok r) n /\ (a = Ok r \/ a = Err CannotCreate).
Proof.
  intros h allowed w n.
  destruct (alike (Some h) allowed w AskRoot (repeat AskRoot n) h I) as (r & a & E & C); [|reflexivity|].
  - apply Forall_forall. intros c Hc. apply repeat_spec in Hc. subst c. exact I.
  - exists r, a. split; [|exact C]. rewrite E. f_equal. clear. induction n as [|n IH]; [reflexivity|]. cbn [repeat map answered]. rewrite IH. reflexivity.
Qed.
Print Assumptions c132_alike_partial.
Example c132_case :
  let w := mkWorld [] (fun _ => false) in
  snd (calls (Some (str "/home/u")) (fun _ => true) w
         [AskRoot; AskFile (str "g.json"); Override (str "/etc/a"); AskFile (str "g.json"); Override []; AskRoot; AskRoot]) =
  [Ok (str "/home/u/.algorand"); Ok (str "/home/u/.algorand/g.json"); Ok (str "/home/u/.algorand"); Ok (str "/etc/a/g.json");
   Ok (str "/etc/a"); Err CannotCreate; Ok (str "/home/u/.algorand")].
Proof. vm_compute. reflexivity. Qed.

(** C133.  Setting the folder to what overriding returned brings back the one before,
    whatever was called in between; overriding after a question that was answered returns
    the answer. *)
Theorem c133_restored : forall home allowed w p body, exists old answers,
  snd (calls home allowed w (Override p :: body)) = Ok old :: answers /\
  root (fst (calls home allowed w (Override p :: body ++ [Override old]))) = root w.
Proof. intros home allowed w p body. destruct (bracket home allowed w p body) as (l & old & E & R). exists old, l. split; assumption. Qed.
Print Assumptions c133_restored.
Theorem c133_returned : forall home allowed w before p r earlier,
  snd (calls home allowed w (before ++ [AskRoot])) = earlier ++ [Ok r] ->
  snd (calls home allowed w (before ++ [AskRoot; Override p])) = earlier ++ [Ok r; Ok r].
Proof.
  intros home allowed w before p r earlier E. rewrite calls_app in E |- *. destruct (calls home allowed w before) as [w1 l].
  cbn [calls do_call] in *. destruct (get_global_config_file_root home allowed w1) as [w2 a] eqn:G. cbn [snd] in E.
  apply app_inj_tail in E as [-> ->]. cbn. f_equal. f_equal. f_equal. f_equal.
  unfold get_global_config_file_root in G. unfold set_read. destruct (root w1) as [|b q] eqn:Er.
  - destruct (get_default_config_file_path home) as [d|e|]; [|discriminate|discriminate].
    destruct (create_dir allowed _ d) as [w3|]; [|discriminate]. injection G as <- <-. reflexivity.
  - injection G as <- <-. exact Er.
Qed.
Print Assumptions c133_returned.

(** The full statement, that the answers of overriding calls from several threads are
    those of some order of the calls, is false: the lock is given up between reading and
    writing, so two calls can return the same folder, and what one of them set is lost. *)
Theorem c133_atomic_refuted : exists home allowed w p q,
  let concurrent := events home allowed (w, fun _ => []) [Begin 1; Begin 2; End 1 p; End 2 q] in
  let p_first := calls home allowed w [Override p; Override q] in
  let q_first := calls home allowed w [Override q; Override p] in
  [Ok (snd concurrent 1%nat); Ok (snd concurrent 2%nat)] <> snd p_first /\
  [Ok (snd concurrent 2%nat); Ok (snd concurrent 1%nat)] <> snd q_first.
Proof.
  exists None, (fun _ => true), (mkWorld (str "/a") (fun _ => true)), (str "/b"), (str "/c"). cbv zeta. split; vm_compute; discriminate.
Qed.
Print Assumptions c133_atomic_refuted.
(** Missing for the full statement: overriding calls that overlap.  In every run of threads
    a call returns the folder in force when it began, and if no other call writes before
    it ends, and one was in force, the folder it replaces. *)
Theorem c133_began_partial : forall home allowed s before c between p after,
  (forall e, In e (between ++ End c p :: after) -> e <> Begin c) ->
  snd (events home allowed s (before ++ Begin c :: between ++ End c p :: after)) c = root (fst (events home allowed s before)).
Proof.
  intros home allowed s before c between p after F. apply returned. apply Forall_forall. intros e He B.
  destruct e as [|d|d q]; try exact B. cbn in B. subst d. exact (F _ He eq_refl).
Qed.
Print Assumptions c133_began_partial.
Theorem c133_alone_partial : forall home allowed s before c between p after,
  (forall e, In e (between ++ End c p :: after) -> e <> Begin c) ->
  (forall d q, ~ In (End d q) between) -> root (fst (events home allowed s before)) <> [] ->
  snd (events home allowed s (before ++ Begin c :: between ++ End c p :: after)) c =
  root (fst (events home allowed s (before ++ Begin c :: between))).
Proof.
  intros home allowed s before c between p after F W Hr. apply alone; [| |exact Hr].
  - apply Forall_forall. intros e He B. destruct e as [|d|d q]; try exact B. cbn in B. subst d. exact (F _ He eq_refl).
  - apply Forall_forall. intros e He B. destruct e as [|d|d q]; try exact B. exact (W d q He).
Qed.
Print Assumptions c133_alone_partial.
Example c133_case :
  let s := (mkWorld (str "/a") (fun _ => true), fun _ : nat => [] : bytes) in
  let run := events None (fun _ => true) s in
  snd (run [Begin 1; Asked; End 1 (str "/b"); Begin 2; Asked; End 2 (str "/c")]) 2%nat = str "/b" /\
  root (fst (run [Begin 1; Asked; End 1 (str "/b"); Begin 2; Asked])) = str "/b" /\
  snd (run [Begin 1; Begin 2; End 1 (str "/b"); End 2 (str "/c")]) 2%nat = str "/a".
Proof. vm_compute. repeat split. Qed.
