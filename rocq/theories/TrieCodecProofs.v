(** Round trip of the stored form of trie nodes. *)
From Verif Require Import Base BaseFacts TrieModel.

Lemma read_write_fuel f n r :
  (n < 128 ^ N.of_nat f)%N -> (0 < f)%nat ->
  read_varint_fuel f (write_varint_fuel f n ++ r) = Some (n, r).
Proof.
  revert n; induction f as [|f IH]; intros n Hn Hf; [lia|].
  cbn [write_varint_fuel]. destruct (N.ltb_spec n 128) as [Hlt|Hge].
  - cbn [app read_varint_fuel]. rewrite to_N_b8, N.mod_small by lia.
    destruct (N.ltb_spec n 128); [reflexivity|lia].
  - cbn [app read_varint_fuel]. rewrite to_N_b8.
    assert (Hm : ((n mod 128 + 128) mod 256 = n mod 128 + 128)%N) by (apply N.mod_small; lia).
    rewrite Hm. destruct (N.ltb_spec (n mod 128 + 128) 128) as [?|_]; [lia|].
    replace (N.of_nat (S f)) with (N.succ (N.of_nat f)) in Hn by lia.
    rewrite N.pow_succ_r' in Hn.
    assert (Hd : (n / 128 < 128 ^ N.of_nat f)%N) by (apply N.div_lt_upper_bound; lia).
    destruct f as [|f]; [cbn in Hn; lia|].
    rewrite IH; [|exact Hd|lia]. f_equal. f_equal. lia.
Qed.

Lemma read_write_varint n r : u64 n -> read_varint (write_varint n ++ r) = Some (n, r).
Proof.
  intros Hn. unfold read_varint, write_varint. unfold u64, two64 in Hn. rewrite read_write_fuel.
  - rewrite N.mod_small; [reflexivity|exact Hn].
  - eapply N.lt_trans; [exact Hn|]. reflexivity.
  - lia.
Qed.

Lemma write_varint_nonempty n : write_varint n <> [].
Proof. unfold write_varint. cbn [write_varint_fuel]. destruct (n <? 128)%N; discriminate. Qed.

Lemma idx_b8 i : (i < 256)%nat -> idx (b8 (N.of_nat i)) = i.
Proof. intros Hi. unfold idx. rewrite to_N_b8, N.mod_small by lia. lia. Qed.

Lemma idx_lt b : (idx b < 256)%nat.
Proof. unfold idx. pose proof (to_N_lt b). lia. Qed.

Lemma idx_inj b c : idx b = idx c -> b = c.
Proof. unfold idx. intros E. apply to_N_inj. lia. Qed.

Lemma b8_idx b : b8 (N.of_nat (idx b)) = b.
Proof. apply idx_inj. apply idx_b8. apply idx_lt. Qed.

Lemma set_nth_app {A} (pre : list A) x v r : set_nth (length pre) v (pre ++ x :: r) = pre ++ v :: r.
Proof. induction pre as [|y pre IH]; cbn; [reflexivity|]. rewrite IH. reflexivity. Qed.

Lemma set_nth_length {A} i (v : A) l : length (set_nth i v l) = length l.
Proof. revert i; induction l as [|x l IH]; intros [|i]; cbn; auto. Qed.

Lemma nth_set_nth_eq {A} i (v : A) l : (i < length l)%nat -> nth_error (set_nth i v l) i = Some v.
Proof.
  revert i; induction l as [|x l IH]; intros [|i]; cbn; intros Hi; try lia; [reflexivity|].
  apply IH. lia.
Qed.

Lemma nth_set_nth_neq {A} i j (v : A) l : i <> j -> nth_error (set_nth i v l) j = nth_error l j.
Proof.
  revert i j; induction l as [|x l IH]; intros [|i] [|j]; cbn; intros Hi; try congruence.
  apply IH. lia.
Qed.

Lemma deserialize_children_spec cs pre fuel :
  (length pre + length cs = 256)%nat ->
  Forall (fun o => match o with Some c => u64 c | None => True end) cs ->
  (length (serialize_children (length pre) cs) <= fuel)%nat ->
  deserialize_children fuel (serialize_children (length pre) cs) (pre ++ repeat None (length cs))
  = Some (pre ++ cs).
Proof.
  revert pre fuel; induction cs as [|[c|] cs IH]; intros pre fuel Hlen Hu Hf;
    cbn [length] in Hlen; cbn [serialize_children repeat length] in *.
  - destruct fuel; reflexivity.
  - destruct fuel as [|fuel]; [cbn in Hf; lia|]. cbn [deserialize_children].
    rewrite read_write_varint by exact (Forall_inv Hu).
    rewrite idx_b8 by lia. rewrite set_nth_app.
    change (pre ++ Some c :: repeat None (length cs)) with (pre ++ [Some c] ++ repeat None (length cs)).
    rewrite app_assoc.
    replace (S (length pre)) with (length (pre ++ [Some c])) in * by (rewrite app_length; cbn; lia).
    rewrite IH.
    + rewrite <- app_assoc. reflexivity.
    + rewrite app_length. cbn. lia.
    + exact (Forall_inv_tail Hu).
    + cbn [length] in Hf. rewrite app_length in Hf.
      assert (length (write_varint c) <> 0)%nat.
      { pose proof (write_varint_nonempty c). destruct (write_varint c); [contradiction|discriminate]. }
      lia.
  - change (pre ++ None :: repeat None (length cs))
      with (pre ++ [@None N] ++ repeat None (length cs)).
    rewrite app_assoc.
    replace (S (length pre)) with (length (pre ++ [@None N])) in * by (rewrite app_length; cbn; lia).
    rewrite IH.
    + rewrite <- app_assoc. reflexivity.
    + rewrite app_length. cbn. lia.
    + exact (Forall_inv_tail Hu).
    + exact Hf.
Qed.

(** Nodes as the program builds them. *)
Definition node_ok (n : node) : Prop :=
  u64 (N.of_nat (length (nhash n))) /\
  match children n with
  | None => True
  | Some cs => length cs = 256%nat /\
               Forall (fun o => match o with Some c => u64 c | None => True end) cs
  end.

Lemma deserialize_serialize n :
  node_ok n -> deserialize (serialize n) = Some (mkNode false (nhash n) (children n)).
Proof.
  intros [Hh Hc]. unfold deserialize, serialize. rewrite read_write_varint by exact Hh.
  unfold read_exact.
  rewrite app_length.
  destruct (N.ltb_spec (N.of_nat (length (nhash n) + length
    (match children n with Some cs => x01 :: serialize_children 0 cs | None => [x00] end)))
    (N.of_nat (length (nhash n)))) as [?|_]; [lia|].
  rewrite Nnat.Nat2N.id, firstn_app, Nat.sub_diag, firstn_all, firstn_O, app_nil_r.
  rewrite skipn_app, Nat.sub_diag, skipn_all. cbn [app skipn].
  destruct (children n) as [cs|].
  - destruct Hc as [Hl Hu]. cbn [Byte.eqb].
    replace (Byte.eqb x01 x01) with true by reflexivity.
    pose proof (deserialize_children_spec cs [] (length (serialize_children 0 cs)) Hl Hu) as E.
    cbn [length app] in E. unfold no_children. rewrite Hl in E. rewrite E by lia. reflexivity.
  - reflexivity.
Qed.
