(** Properties C17 to C22: multisignatures and batch verification. *)
From Coq Require Import Permutation.
From Verif Require Import Base BaseFacts Toy MultisigModel MultisigSpec MultisigProofs.
Local Open Scope N_scope.

(** C17.  Verification accepts exactly the acceptable multisignatures. *)
Theorem c17_exactly_m_of_n :
  forall H sc m msg addr, first_slot_not_blank m ->
  verify H sc m msg addr = Ok true <-> acceptable H sc m msg addr.
Proof. exact verify_lemma. Qed.
Print Assumptions c17_exactly_m_of_n.

(** One whose first slot is blank (the default key, no signature) is refused. *)
Theorem c17_blank_first_slot_rejected :
  forall H sc m msg addr, ~ first_slot_not_blank m ->
  verify H sc m msg addr = Err InvalidNumberOfSignatures.
Proof. exact verify_blank_lemma. Qed.
Print Assumptions c17_blank_first_slot_rejected.

Theorem c17_verify_never_panics :
  forall H sc m msg addr, verify H sc m msg addr <> Panic.
Proof. exact verify_total_lemma. Qed.
Print Assumptions c17_verify_never_panics.

(** C18.  Enough of the listed keys sign, in any order; the parts assemble and verify. *)
Theorem c18_enough_signers_verify :
  forall H sc, scheme_correct sc ->
  forall msg t pks sks addr,
  from_pks H 1 t pks = Ok addr -> (length pks <= 255)%nat ->
  nth_error pks 0 <> Some default_key ->
  NoDup (map (public sc) sks) -> Forall (fun sk => In (public sc sk) pks) sks ->
  (2 <= length sks)%nat -> t <= N.of_nat (length sks) ->
  exists parts m, Forall2 (fun sk p => sign H sc addr msg 1 t pks sk = Ok p) sks parts /\
    assemble parts = Ok m /\ verify H sc m msg addr = Ok true.
Proof. exact completeness_lemma. Qed.
Print Assumptions c18_enough_signers_verify.

(** C19.  Merging: when it succeeds, and what the result carries. *)
Theorem c19_merge_is_union :
  forall a b,
  merge a b <> Panic /\
  ((exists c, merge a b = Ok c) <-> same_preimage a b /\ ~ slot_conflict a b) /\
  (forall c, merge a b = Ok c ->
     same_preimage a c /\ forall i s, slot_sig c i s <-> slot_sig a i s \/ slot_sig b i s).
Proof. exact merge_lemma. Qed.
Print Assumptions c19_merge_is_union.

(** Adding signatures in place: on success the receiver carries exactly its own
    signatures and those of the given ones. *)
Theorem c19_add_is_union :
  forall self us self', add_sigs self us = (self', Ok tt) ->
  Forall (same_preimage self) us /\ same_preimage self self' /\
  forall i s, slot_sig self' i s <-> slot_sig self i s \/ exists u, In u us /\ slot_sig u i s.
Proof. exact add_sigs_lemma. Qed.
Print Assumptions c19_add_is_union.

(** C20. *)
Theorem c20_address_binds_preimage :
  forall H v t pks v' t' pks' a,
  v < 256 -> t < 256 -> v' < 256 -> t' < 256 ->
  Forall (fun k => length k = 32%nat) pks -> Forall (fun k => length k = 32%nat) pks' ->
  from_pks H v t pks = Ok a -> from_pks H v' t' pks' = Ok a ->
  (v = v' /\ t = t' /\ pks = pks') \/
  collision_in H [address_string v t pks] [address_string v' t' pks'].
Proof. exact address_lemma. Qed.
Print Assumptions c20_address_binds_preimage.

(** C21, full statement: an accepted multisignature has at least [threshold] different
    signing keys.  It is false: the key list may repeat a key (next theorem).  What is
    missing here is key lists with repetitions. *)
Theorem c21_distinct_signers_partial :
  forall H sc m msg addr, NoDup (keys m) -> verify H sc m msg addr = Ok true ->
  signers_at_least m (threshold m).
Proof. exact distinct_lemma. Qed.
Print Assumptions c21_distinct_signers_partial.

(** C22. *)
Theorem c22_batch_is_all :
  forall sc ts,
  batch_check sc (enqueue_list ts new_batch) = Ok tt <->
  ts <> [] /\ forall pk m s, In (pk, m, s) ts -> check sc pk m s = true.
Proof. exact batch_lemma. Qed.
Print Assumptions c22_batch_is_all.

Theorem c22_order_does_not_matter :
  forall sc ts ts', Permutation ts ts' ->
  batch_check sc (enqueue_list ts new_batch) = batch_check sc (enqueue_list ts' new_batch).
Proof. exact batch_order_lemma. Qed.
Print Assumptions c22_order_does_not_matter.

(** ** Concrete cases *)

Definition toy_scheme : scheme := {|
  public := toy_hash;
  sign_with := fun sk m => toy_tag (toy_hash sk) m;
  check := fun pk m s => bytes_eqb s (toy_tag pk m)
|}.
Definition ex_sks : list bytes := [str "alice"; str "bob"; str "carol"].
Definition ex_pks : list bytes := map (public toy_scheme) ex_sks.
Definition ex_addr : bytes := toy_hash (address_string 1 2 ex_pks).
Definition ex_part (sk : bytes) : multisig :=
  match sign toy_hash toy_scheme ex_addr (str "pay") 1 2 ex_pks sk with
  | Ok m => m
  | _ => mkMsig 0 0 []
  end.
Definition ex_full : multisig :=
  match assemble [ex_part (str "carol"); ex_part (str "alice")] with
  | Ok m => m
  | _ => mkMsig 0 0 []
  end.

Example c17_c18_case :
  scheme_correct toy_scheme /\
  from_pks toy_hash 1 2 ex_pks = Ok ex_addr /\
  verify toy_hash toy_scheme ex_full (str "pay") ex_addr = Ok true /\
  verify toy_hash toy_scheme ex_full (str "pay!") ex_addr = Ok false /\
  verify toy_hash toy_scheme (ex_part (str "bob")) (str "pay") ex_addr = Err InvalidNumberOfSignatures /\
  map is_signed (subsigs ex_full) = [true; false; true].
Proof.
  split; [intros sk m; apply bytes_eqb_refl|].
  split; [vm_compute; reflexivity|]. split; [vm_compute; reflexivity|]. split; [vm_compute; reflexivity|].
  split; vm_compute; reflexivity.
Qed.

Example c19_case :
  match merge (ex_part (str "carol")) (ex_part (str "bob")) with
  | Ok c => map is_signed (subsigs c) = [false; true; true]
  | _ => False
  end /\
  match add_sigs (ex_part (str "carol")) [ex_part (str "bob"); ex_part (str "alice")] with
  | (c, Ok _) => map is_signed (subsigs c) = [true; true; true]
  | _ => False
  end /\
  merge (ex_part (str "carol")) (mkMsig 1 3 (subsigs (ex_part (str "bob")))) = Err (ThresholdsDontMatch 2 3).
Proof. split; [|split]; vm_compute; reflexivity. Qed.

Example c20_case :
  from_pks toy_hash 1 2 ex_pks = Ok ex_addr /\ Forall (fun k => length k = 32%nat) ex_pks /\
  from_pks toy_hash 1 3 ex_pks <> Ok ex_addr.
Proof.
  split; [vm_compute; reflexivity|]. split; [|vm_compute; discriminate].
  repeat constructor; vm_compute; reflexivity.
Qed.

(** C21 fails: one person listed twice reaches threshold 2 alone. *)
Definition twice : list bytes := [toy_hash (str "alice"); toy_hash (str "alice")].
Definition twice_addr : bytes := toy_hash (address_string 1 2 twice).
Definition twice_sig : multisig :=
  match sign toy_hash toy_scheme twice_addr (str "pay") 1 2 twice (str "alice") with
  | Ok m => m
  | _ => mkMsig 0 0 []
  end.
Theorem c21_distinct_signers_refuted :
  exists H sc m msg addr, scheme_correct sc /\ verify H sc m msg addr = Ok true /\
  ~ signers_at_least m (threshold m).
Proof.
  exists toy_hash, toy_scheme, twice_sig, (str "pay"), twice_addr.
  split; [intros sk m; apply bytes_eqb_refl|]. split; [vm_compute; reflexivity|].
  assert (Et : threshold twice_sig = 2) by (vm_compute; reflexivity). rewrite Et.
  assert (Ek : forall i k, slot_key twice_sig i k -> k = toy_hash (str "alice")).
  { assert (Em : map key (subsigs twice_sig) = twice) by (vm_compute; reflexivity).
    intros i k (e & Ee & <-). apply (map_nth_error key) in Ee. rewrite Em in Ee.
    apply nth_error_In in Ee. destruct Ee as [<-|[<-|[]]]; reflexivity. }
  intros (ks & Hn & Hl & Hk). destruct ks as [|a [|b [|c ks]]]; try (cbn in Hl; lia).
  destruct (Hk a (or_introl eq_refl)) as (i & s & Ha & _).
  destruct (Hk b (or_intror (or_introl eq_refl))) as (j & s' & Hb & _).
  apply Ek in Ha, Hb. inversion Hn as [|? ? Hx _]; subst. apply Hx. left. reflexivity.
Qed.
Print Assumptions c21_distinct_signers_refuted.

Example c21_case :
  NoDup (keys ex_full) /\ verify toy_hash toy_scheme ex_full (str "pay") ex_addr = Ok true.
Proof.
  split; [|vm_compute; reflexivity].
  assert (E : keys ex_full = ex_pks) by (vm_compute; reflexivity). rewrite E. unfold ex_pks, ex_sks. cbn [map].
  repeat constructor; intros Hin; repeat (destruct Hin as [Hin|Hin]; [vm_compute in Hin; discriminate|]); exact Hin.
Qed.

Definition t_alice : bytes * bytes * bytes :=
  (toy_hash (str "alice"), str "one", sign_with toy_scheme (str "alice") (str "one")).
Definition t_bob : bytes * bytes * bytes :=
  (toy_hash (str "bob"), str "two", sign_with toy_scheme (str "bob") (str "two")).
Definition t_bad : bytes * bytes * bytes :=
  (toy_hash (str "bob"), str "three", sign_with toy_scheme (str "bob") (str "two")).
Example c22_case :
  batch_check toy_scheme (enqueue_list [t_alice; t_bob] new_batch) = Ok tt /\
  batch_check toy_scheme (enqueue_list [t_alice; t_bob; t_bad] new_batch) = Err VerificationFailed /\
  batch_check toy_scheme (enqueue_list [] new_batch) = Err ZeroTranscationsInBatch.
Proof. split; [|split]; vm_compute; reflexivity. Qed.
