(** Facts about the common vocabulary. *)
From Verif Require Import Base.

Lemma byte_eqb_spec (a b : byte) : Byte.eqb a b = true <-> a = b.
Proof.
  split; [apply Byte.byte_dec_bl | apply Byte.byte_dec_lb].
Qed.

Lemma byte_eqb_refl (a : byte) : Byte.eqb a a = true.
Proof. apply byte_eqb_spec; reflexivity. Qed.

Lemma bytes_eqb_spec (a b : bytes) : bytes_eqb a b = true <-> a = b.
Proof.
  revert b; induction a as [|x a IH]; intros [|y b]; cbn [bytes_eqb]; split;
    try discriminate; try reflexivity.
  - intros E. apply andb_true_iff in E as [E1 E2].
    apply byte_eqb_spec in E1. apply IH in E2. congruence.
  - intros E. injection E as -> ->. rewrite byte_eqb_refl. cbn. apply IH. reflexivity.
Qed.

Lemma bytes_eqb_refl (a : bytes) : bytes_eqb a a = true.
Proof. apply bytes_eqb_spec; reflexivity. Qed.

Lemma bytes_eqb_neq (a b : bytes) : bytes_eqb a b = false <-> a <> b.
Proof.
  split.
  - intros E ->. rewrite bytes_eqb_refl in E. discriminate.
  - intros E. destruct (bytes_eqb a b) eqn:E2; [|reflexivity].
    apply bytes_eqb_spec in E2. contradiction.
Qed.

Definition bytes_eq_dec (a b : bytes) : {a = b} + {a <> b}.
Proof.
  destruct (bytes_eqb a b) eqn:E.
  - left. apply bytes_eqb_spec. exact E.
  - right. apply bytes_eqb_neq. exact E.
Defined.

Lemma to_N_lt (b : byte) : (Byte.to_N b < 256)%N.
Proof. pose proof (Byte.to_N_bounded b). lia. Qed.

Lemma b8_to_N (b : byte) : b8 (Byte.to_N b) = b.
Proof.
  unfold b8. rewrite N.mod_small by apply to_N_lt. rewrite Byte.of_to_N. reflexivity.
Qed.

Lemma to_N_b8 (n : N) : Byte.to_N (b8 n) = (n mod 256)%N.
Proof.
  unfold b8. destruct (Byte.of_N (n mod 256)) as [b|] eqn:E.
  - apply Byte.to_of_N. exact E.
  - apply Byte.of_N_None_iff in E. exfalso.
    pose proof (N.mod_upper_bound n 256). lia.
Qed.

Lemma b8_inj (a b : N) : (a < 256)%N -> (b < 256)%N -> b8 a = b8 b -> a = b.
Proof.
  intros Ha Hb E. apply (f_equal Byte.to_N) in E. rewrite !to_N_b8 in E.
  rewrite !N.mod_small in E by assumption. exact E.
Qed.

Lemma to_N_inj (a b : byte) : Byte.to_N a = Byte.to_N b -> a = b.
Proof. intros E. rewrite <- (b8_to_N a), <- (b8_to_N b), E. reflexivity. Qed.

Lemma length_zero32 : length zero32 = 32.
Proof. reflexivity. Qed.

Lemma app_inj_length {A} (a b c d : list A) :
  length a = length c -> a ++ b = c ++ d -> a = c /\ b = d.
Proof.
  revert c; induction a as [|x a IH]; intros [|y c] Hl E; cbn in *; try discriminate.
  - split; [reflexivity|exact E].
  - injection E as -> E. injection Hl as Hl. destruct (IH _ Hl E) as [-> ->]. split; reflexivity.
Qed.

Lemma collision_in_mono H A A' B B' :
  (forall x, In x A -> In x A') -> (forall x, In x B -> In x B') ->
  collision_in H A B -> collision_in H A' B'.
Proof. intros HA HB (x & y & Hx & Hy & Hne & E). exists x, y. auto. Qed.

Lemma zero_preimage_mono H A A' :
  (forall x, In x A -> In x A') -> zero_preimage_in H A -> zero_preimage_in H A'.
Proof. intros HA (x & Hx & E). exists x. auto. Qed.

Lemma byte_eqb_reflect a b : reflect (a = b) (Byte.eqb a b).
Proof. apply iff_reflect. symmetry. apply byte_eqb_spec. Qed.
Lemma bytes_eqb_reflect a b : reflect (a = b) (bytes_eqb a b).
Proof. apply iff_reflect. symmetry. apply bytes_eqb_spec. Qed.
