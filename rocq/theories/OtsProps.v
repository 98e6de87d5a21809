(** Properties C23 to C26: one-time signatures. *)
From Verif Require Import Base BaseFacts Toy MsgpackModel OtsModel OtsSpec OtsProofs.
Local Open Scope N_scope.

(** C23.  After generating keys for the batches from [start] on and any sequence of
    deletions, every available identifier signs any message and the signature verifies
    under the generated verifier; an unavailable one gives the null signature. *)
Theorem c23_available_identifiers_sign :
  forall sc md master start eks ds id msg fresh,
  scheme_correct sc -> start + N.of_nat (length eks) <= two64 -> Forall del_ok ds -> id_ok id ->
  exists st0 st, generate sc md master start eks = Some st0 /\ run sc md ds st0 = Some st /\
    verifier st = verifier st0 /\
    (available start (N.of_nat (length eks)) ds id ->
       exists o, sign sc md st id msg fresh = Some o /\ verify sc o id msg (verifier st0) = true) /\
    (~ available start (N.of_nat (length eks)) ds id -> sign sc md st id msg fresh = Some null_ots).
Proof. exact usable_lemma. Qed.
Print Assumptions c23_available_identifiers_sign.

(** The same of schemes whose own signatures may fail to check, as those of ed25519 do under strict verification
    when the nonce happens to be zero. *)
Theorem c23_any_scheme :
  forall sc md master start eks ds id msg fresh,
  start + N.of_nat (length eks) <= two64 -> Forall del_ok ds -> id_ok id ->
  exists st0 st, generate sc md master start eks = Some st0 /\ run sc md ds st0 = Some st /\
    verifier st = verifier st0 /\
    (available start (N.of_nat (length eks)) ds id ->
       exists o, sign sc md st id msg fresh = Some o /\ (verify sc o id msg (verifier st0) = true \/ self_refuted sc o)) /\
    (~ available start (N.of_nat (length eks)) ds id -> sign sc md st id msg fresh = Some null_ots).
Proof. exact usable_any. Qed.
Print Assumptions c23_any_scheme.

(** C24.  Once some deletion [d] happened, at any later time, signing an identifier
    before it gives a signature that verifies for nothing (the scheme must refuse the
    all-zero signature, as ed25519's strict verification does). *)
Theorem c24_deleted_identifiers_cannot_sign :
  forall sc md master start eks ds d id msg fresh,
  (forall pk m, check sc pk m null_sig = false) ->
  start + N.of_nat (length eks) <= two64 -> Forall del_ok ds -> id_ok id ->
  In d ds -> id_lt id (cur d) ->
  exists st0 st o, generate sc md master start eks = Some st0 /\ run sc md ds st0 = Some st /\
    sign sc md st id msg fresh = Some o /\ o = null_ots /\
    forall id' m pk, verify sc o id' m pk = false.
Proof. exact forward_lemma. Qed.
Print Assumptions c24_deleted_identifiers_cannot_sign.

(** Every secret still held was generated for a batch after all deleted identifiers, or
    for a single identifier not before any of them. *)
Theorem c24_held_secrets_are_for_later :
  forall sc md master start eks ds,
  start + N.of_nat (length eks) <= two64 -> Forall del_ok ds ->
  exists st0 st, generate sc md master start eks = Some st0 /\ run sc md ds st0 = Some st /\
  forall sk, In sk (held st) ->
    (exists i, nth_error eks i = Some sk /\ forall d, In d ds -> batch (cur d) < start + N.of_nat i) \/
    (exists d off, In d ds /\ sk = rng d off /\
       forall d', In d' ds -> id_le (cur d') (mkId (batch (cur d)) off)).
Proof. exact held_lemma. Qed.
Print Assumptions c24_held_secrets_are_for_later.

(** C25.  A snapshot signs like the original does at that moment, and evolves
    independently of it in the same way. *)
Theorem c25_snapshot_same_power :
  forall sc md st,
  verifier (snapshot st) = verifier st /\
  (forall id msg fresh, sign sc md (snapshot st) id msg fresh = sign sc md st id msg fresh) /\
  (forall ds, run sc md ds (snapshot st) = run sc md ds st).
Proof. exact snapshot_lemma. Qed.
Print Assumptions c25_snapshot_same_power.

(** C26. *)
Theorem c26_accepts_exactly_the_chain :
  forall sc o id msg pk,
  verify sc o id msg pk = true <->
  check sc pk (batch_id_rep (o_pk2 o) (batch id)) (o_pk2_sig o) = true /\
  check sc (o_pk2 o) (offset_id_rep (o_pk o) (batch id) (offset id)) (o_pk1_sig o) = true /\
  check sc (o_pk o) msg (o_sig o) = true.
Proof. exact verify_lemma. Qed.
Print Assumptions c26_accepts_exactly_the_chain.

Theorem c26_batch_ids_distinct :
  forall pk b pk' b', length pk = 32%nat -> length pk' = 32%nat -> u64 b -> u64 b' ->
  batch_id_rep pk b = batch_id_rep pk' b' -> pk = pk' /\ b = b'.
Proof. exact batch_rep_inj. Qed.
Print Assumptions c26_batch_ids_distinct.

Theorem c26_offset_ids_distinct :
  forall pk b off pk' b' off', length pk = 32%nat -> length pk' = 32%nat ->
  u64 b -> u64 b' -> u64 off -> u64 off' ->
  offset_id_rep pk b off = offset_id_rep pk' b' off' -> pk = pk' /\ b = b' /\ off = off'.
Proof. exact offset_rep_inj. Qed.
Print Assumptions c26_offset_ids_distinct.

Theorem c26_batch_and_offset_ids_differ :
  forall pk b pk' b' off, batch_id_rep pk b <> offset_id_rep pk' b' off.
Proof. exact batch_offset_rep_differ. Qed.
Print Assumptions c26_batch_and_offset_ids_differ.

(** ** Concrete cases *)

Definition toy_ots_scheme : scheme := {|
  public := toy_hash;
  sign_with := fun sk m => toy_tag (toy_hash sk) m;
  check := fun pk m s => bytes_eqb s (toy_tag pk m) && negb (bytes_eqb s null_sig)
|}.
Definition ex_dels : list deletion :=
  [mkDel (mkId 5 3) 10 (fun o => str "x" ++ [b8 o]);
   mkDel (mkId 5 7) 10 (fun o => str "y" ++ [b8 o]);
   mkDel (mkId 2 0) 10 (fun o => str "z" ++ [b8 o])].
(** Keys for batches 4, 5 and 6; then identifiers before (5, 7) are deleted. *)
Definition ex_st : option (bytes * secrets) :=
  match generate toy_ots_scheme Debug (str "master") 4 [str "k4"; str "k5"; str "k6"] with
  | Some st0 => match run toy_ots_scheme Debug ex_dels st0 with
                | Some st => Some (verifier st0, st)
                | None => None
                end
  | None => None
  end.
(** Verdict of the verifier on what is signed for an identifier. *)
Definition ex_verdict (b o : N) : option bool :=
  match ex_st with
  | Some (v, st) => match sign toy_ots_scheme Debug st (mkId b o) (str "MXhello") (str "fresh") with
                    | Some s => Some (verify toy_ots_scheme s (mkId b o) (str "MXhello") v)
                    | None => None
                    end
  | None => None
  end.
Example c23_c24_case :
  ex_verdict 5 7 = Some true /\ ex_verdict 5 9 = Some true /\ ex_verdict 6 1000 = Some true /\
  ex_verdict 5 6 = Some false /\ ex_verdict 4 9 = Some false /\ ex_verdict 5 10 = Some false /\
  ex_verdict 7 0 = Some false.
Proof.
  split; [vm_compute; reflexivity|]. split; [vm_compute; reflexivity|]. split; [vm_compute; reflexivity|].
  split; [vm_compute; reflexivity|]. split; [vm_compute; reflexivity|]. split; vm_compute; reflexivity.
Qed.
Example c23_case_hypotheses :
  Forall del_ok ex_dels /\ id_ok (mkId 5 7) /\ available 4 3 ex_dels (mkId 5 7) /\
  ~ available 4 3 ex_dels (mkId 5 10).
Proof.
  split; [repeat constructor; cbn; unfold max64, u64, two64; lia|]. split; [split; cbn; unfold max64; lia|].
  split.
  - split; [cbn; lia|]. split; [|cbn; lia]. intros d [<-|[<-|[<-|[]]]]; unfold id_le; cbn; lia.
  - intros (_ & _ & H). cbn in H. lia.
Qed.
(** A snapshot taken after deletions signs for what is left, and for nothing else. *)
Definition ex_snapshot_verdict (b o : N) : option bool :=
  match ex_st with
  | Some (v, st) => match sign toy_ots_scheme Debug (snapshot st) (mkId b o) (str "MXhello") (str "fresh") with
                    | Some s => Some (verify toy_ots_scheme s (mkId b o) (str "MXhello") v)
                    | None => None
                    end
  | None => None
  end.
Example c25_case : ex_snapshot_verdict 5 7 = Some true /\ ex_snapshot_verdict 6 1000 = Some true /\ ex_snapshot_verdict 5 6 = Some false /\ ex_snapshot_verdict 4 9 = Some false.
Proof. split; [vm_compute; reflexivity|]. split; [vm_compute; reflexivity|]. split; vm_compute; reflexivity. Qed.
(** A scheme that is correct and refuses the null signature exists: tags are never null
    in the toy scheme when the tag function avoids it. *)
Example c24_scheme_exists :
  exists sc, scheme_correct sc /\ forall pk m, check sc pk m null_sig = false.
Proof.
  exists {| public := fun sk => sk; sign_with := fun sk m => sk ++ m ++ [x01];
            check := fun pk m s => bytes_eqb s (pk ++ m ++ [x01]) |}.
  split; [intros sk m; apply bytes_eqb_refl|]. intros pk m. cbn [check]. apply bytes_eqb_neq. intros E.
  apply (f_equal (fun s => last s x00)) in E. rewrite !app_assoc, last_last in E. vm_compute in E. discriminate.
Qed.
(** Deleting before an identifier in the very last batch number panics in a debug build
    and deletes nothing in a release build: the restriction to smaller batch numbers in
    C23 and C24 is needed. *)
Example c24_last_batch :
  (forall st, delete_before toy_ots_scheme Debug st (mkId max64 0) 10 (fun _ => []) = None) /\
  exists st, generate toy_ots_scheme Release (str "m") 4 [str "k4"] = Some st /\
    delete_before toy_ots_scheme Release st (mkId max64 0) 10 (fun _ => []) = Some st /\
    batches st <> [].
Proof.
  split; [reflexivity|]. eexists. split; [vm_compute; reflexivity|]. split; [vm_compute; reflexivity|discriminate].
Qed.
Example c26_case :
  batch_id_rep (repeat x07 32) 300 <> batch_id_rep (repeat x07 32) 301.
Proof. vm_compute. discriminate. Qed.
