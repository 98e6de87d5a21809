(** The fields of structs. *)
From Verif Require Import Base BaseFacts StructModel.
Local Open Scope N_scope.

Lemma wf_In l v : fold_right (fun x p => wf x /\ p) True l -> In v l -> wf v.
Proof. induction l as [|x l IH]; cbn [fold_right In]; [contradiction|]. intros [W Ws] [<-|I]; auto. Qed.
Lemma wf_In_map l k v : fold_right (fun '(k, x) p => (wf k /\ wf x) /\ p) True l -> In (k, v) l -> wf k /\ wf v.
Proof. induction l as [|[k' x] l IH]; cbn [fold_right In]; [contradiction|]. intros [W Ws] [E|I]; [injection E as <- <-; exact W|auto]. Qed.

Lemma wf_values l v : fold_right (fun '(k, x) p => (wf k /\ wf x) /\ p) True l -> In v (map snd l) -> wf v.
Proof. intros W I. apply in_map_iff in I. destruct I as ([k x] & <- & I). eapply wf_In_map; eassumption. Qed.
Lemma fields_wf names v l : wf v -> fields_of names v = Some l -> fold_right (fun x p => wf x /\ p) True l.
Proof.
  unfold fields_of. destruct v as [| | | | | | |k|k]; try discriminate.
  - intros [_ W] E. destruct (Nat.eqb (length k) (length names)); [|discriminate]. injection E as <-. exact W.
  - intros [_ W]. destruct (names_only k); [|discriminate]. revert l. induction names as [|n names IH]; intros l E; cbn [named_values] in E; [injection E as <-; exact I|].
    destruct (need n Some k) as [v|] eqn:N; [|discriminate]. destruct (named_values names k) as [vs|]; [|discriminate]. injection E as <-. cbn [fold_right]. split; [|auto].
    apply (wf_values k); [exact W|]. unfold need, field_value, values_of in N. destruct (map snd (filter (key_is (str n)) k)) as [|w [|]] eqn:F; try discriminate. injection N as ->.
    assert (J : In v (map snd (filter (key_is (str n)) k))) by (rewrite F; left; reflexivity). apply in_map_iff in J. destruct J as (e & <- & J). apply filter_In in J. apply in_map. apply J.
Qed.
Ltac fields E W l := match type of E with match fields_of ?n ?v with Some _ => _ | None => _ end = _ => let F := fresh "F" in destruct (fields_of n v) as [l|] eqn:F; [|discriminate]; apply (fields_wf _ _ _ W) in F; clear W; rename F into W end.

