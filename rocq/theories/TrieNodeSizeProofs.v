(** Proofs about the size of stored nodes. *)
From Verif Require Import Base BaseFacts TrieModel TrieSpec TrieCodecProofs TrieProofs TrieRefine TrieAny.

Lemma varint_length_fuel f : forall n, (length (write_varint_fuel f n) <= f)%nat.
Proof.
  induction f as [|f IH]; intros n; [apply Nat.le_refl|]. cbn [write_varint_fuel]. destruct (n <? 128)%N; cbn [length]; [lia|]. specialize (IH (n / 128)%N). lia.
Qed.
Lemma varint_length n : (length (write_varint n) <= 10)%nat.
Proof. apply varint_length_fuel. Qed.
Lemma varint_length_small n : (n < 16384)%N -> (length (write_varint n) <= 2)%nat.
Proof.
  intros Hn. unfold write_varint. cbn [write_varint_fuel]. destruct (N.ltb_spec n 128); [cbn [length]; lia|]. destruct (N.ltb_spec (n / 128) 128); [cbn [length]; lia|]. lia.
Qed.
Lemma children_size cs : forall i, (length (serialize_children i cs) <= 11 * length cs)%nat.
Proof.
  induction cs as [|[c|] cs IH]; intros i; cbn [serialize_children length]; [lia| |specialize (IH (S i)); lia].
  rewrite app_length. pose proof (varint_length c). specialize (IH (S i)). lia.
Qed.
Lemma node_size n b : (length (nhash n) <= b)%nat -> (N.of_nat b < 16384)%N -> (forall cs, children n = Some cs -> length cs = 256%nat) ->
  (length (serialize n) <= 2 + b + 1 + 11 * 256)%nat.
Proof.
  intros Hb Hs Hc. unfold serialize. rewrite !app_length. pose proof (varint_length_small (N.of_nat (length (nhash n)))) as V.
  assert (length (write_varint (N.of_nat (length (nhash n)))) <= 2)%nat as V' by (apply V; lia). clear V.
  destruct (children n) as [cs|]; cbn [length]; [|lia]. pose proof (children_size cs 0) as C. rewrite (Hc cs eq_refl) in C. lia.
Qed.

Section Hash.
Variable H : bytes -> bytes.
Hypothesis Hlen : hash32 H.

Lemma stored_hash st n path t : good H st n path t -> forall N x, (length path + n <= N)%nat -> own t x ->
  exists k, storage st x = Some (serialize k) /\ (length (nhash k) <= Nat.max 32 N)%nat /\ (forall cs, children k = Some cs -> length cs = 256%nat).
Proof.
  induction 1 as [n path id s Hl Ha|n path id d cs Hl Ha Hc IH Hid Hdj H2 Hcl]; intros N x HN Ho.
  - inversion Ho; subst. destruct Ha as (_ & E & _). eexists. split; [exact E|]. cbn [cell nhash children]. split; [lia|discriminate].
  - inversion Ho; subst.
    + destruct Ha as (_ & E & _). eexists. split; [exact E|]. cbn [cell nhash children]. split.
      * destruct d; [lia|]. rewrite digest_node, Hlen. lia.
      * intros cs' X. injection X as <-. rewrite map_length. exact Hl.
    + eapply IH; [eassumption| |eassumption]. rewrite app_length. cbn [length]. lia.
Qed.

Lemma stored_size m n ops xs t id c : Forall (key_upto n) ops -> small_history n ops -> run H m ops new_trie = Ok (xs, t) ->
  (N.of_nat n < 16384)%N -> storage (tstore t) id = Some c -> (length c <= 2819 + Nat.max 32 n)%nat.
Proof.
  intros Hk Hs E Hn Hst. pose proof (any_history H Hlen m n ops Hk Hs) as A. destruct (ref_run H ops [] 0) as [[xs' S]|e|].
  - destruct A as (t' & L & E' & R & _). rewrite E in E'. assert (t = t') as <- by congruence. unfold stands in R. destruct (root t) as [r|].
    + destruct R as (pt & _ & G & _ & Ho & _). assert (O : own pt id) by (apply Ho; congruence).
      destruct (stored_hash _ _ _ _ G n id (Nat.le_refl n) O) as (k & Ek & Hh & Hc). rewrite Hst in Ek. assert (c = serialize k) as -> by congruence.
      pose proof (node_size k (Nat.max 32 n) Hh ltac:(lia) Hc). lia.
    + destruct R as [_ R]. rewrite R in Hst. discriminate.
  - congruence.
  - congruence.
Qed.
End Hash.
