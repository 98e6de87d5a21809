(** What the model computes over a curve depends on the points only through their compressed form, so that
    coordinates may be used for them. *)
From Verif Require Import Base Digits VrfModel.
Local Open Scope N_scope.

Section Transfer.
Variables (C D : curve) (R : pt C -> pt D -> Prop).
Hypothesis r_add : forall P P' Q Q', R P Q -> R P' Q' -> R (padd P P') (padd Q Q').
Hypothesis r_neg : forall P Q, R P Q -> R (pneg P) (pneg Q).
Hypothesis r_mul : forall n P Q, R P Q -> R (pmul n P) (pmul n Q).
Hypothesis r_base : R (base C) (base D).
Hypothesis r_order : order C = order D.
Hypothesis r_compress : forall P Q, R P Q -> compress C P = compress D Q.
Hypothesis r_decompress : forall s,
  match decompress C s, decompress D s with Some P, Some Q => R P Q | None, None => True | _, _ => False end.
Hypothesis r_sha : forall s, VrfModel.sha512 C s = VrfModel.sha512 D s.
Hypothesis r_elligator : forall s, R (elligator C s) (elligator D s).

Lemma r_smul n P Q : R P Q -> R (smul n P) (smul n Q). Proof. apply r_mul. Qed.
Lemma r_sub P P' Q Q' : R P Q -> R P' Q' -> R (psub P P') (psub Q Q').
Proof. intros A B. apply r_add; [exact A|apply r_neg; exact B]. Qed.
Lemma same_expand s : expand C s = expand D s. Proof. unfold expand. rewrite r_sha. reflexivity. Qed.
Lemma same_seed s : from_seed C s = from_seed D s.
Proof. unfold from_seed. rewrite same_expand. f_equal. apply r_compress, r_smul, r_base. Qed.
Lemma r_hash_to_curve pk data : R (hash_to_curve C pk data) (hash_to_curve D pk data).
Proof. unfold hash_to_curve. rewrite r_sha. apply r_elligator. Qed.
Lemma same_hash ps qs : Forall2 R ps qs -> hash_points C ps = hash_points D qs.
Proof.
  intros F. unfold hash_points. rewrite r_order, r_sha. replace (map (compress C) ps) with (map (compress D) qs); [reflexivity|].
  induction F as [|P Q ps qs E F IH]; [reflexivity|]. cbn [map]. rewrite (r_compress P Q E), IH. reflexivity.
Qed.
Lemma same_prove kp data : prove_bytes C kp data = prove_bytes D kp data.
Proof.
  unfold prove_bytes. pose proof (r_hash_to_curve (public_key kp) data) as H. rewrite same_expand, (r_compress _ _ H). cbv zeta.
  assert (N : forall sk s, gen_nonce C sk s = gen_nonce D sk s) by (intros; unfold gen_nonce; rewrite !r_sha, r_order; reflexivity).
  rewrite N. erewrite same_hash.
  - rewrite r_order. f_equal. apply r_compress, r_smul, H.
  - repeat constructor; repeat apply r_smul; assumption.
Qed.
Lemma same_canonical s : canonical C s = canonical D s. Proof. unfold canonical. rewrite r_order. reflexivity. Qed.
Lemma r_decode s :
  match decode C s, decode D s with
  | Some (P, c, k), Some (Q, c', k') => R P Q /\ c = c' /\ k = k'
  | None, None => True
  | _, _ => False
  end.
Proof.
  unfold decode. specialize (r_decompress (firstn 32 s)). rewrite !same_canonical.
  destruct (decompress C _), (decompress D _); try contradiction; [|exact I].
  destruct (canonical D _); [|exact I]. destruct (canonical D _); [|exact I]. split; [assumption|split; reflexivity].
Qed.
Lemma same_output s : to_output C s = to_output D s.
Proof.
  unfold to_output. pose proof (r_decode s) as E. destruct (decode C s) as [[[P c] k]|], (decode D s) as [[[Q c'] k']|]; try contradiction; [|reflexivity].
  destruct E as (E & _). rewrite r_sha, (r_compress _ _ (r_smul COFACTOR _ _ E)). reflexivity.
Qed.
Lemma same_verify pk proof data : verify_bytes C pk proof data = verify_bytes D pk proof data.
Proof.
  unfold verify_bytes. pose proof (r_decode proof) as E. rewrite same_output.
  destruct (decode C proof) as [[[P c] k]|], (decode D proof) as [[[Q c'] k']|]; try contradiction; [|reflexivity].
  destruct E as (E & -> & ->). pose proof (r_hash_to_curve pk data) as H. specialize (r_decompress pk). cbv zeta.
  destruct (decompress C pk) as [Y|], (decompress D pk) as [Y'|]; try contradiction; [|reflexivity].
  erewrite same_hash; [reflexivity|]. repeat constructor; try assumption; apply r_sub; apply r_smul; assumption.
Qed.
End Transfer.
