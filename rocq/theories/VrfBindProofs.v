(** Binding of VRF proofs to key and message. *)
From Verif Require Import Base BaseFacts Digits VrfModel VrfSpec VrfBindSpec.
Local Open Scope N_scope.

Lemma le_num_zeros s n : le_num (s ++ repeat x00 n) = le_num s.
Proof.
  unfold le_num. induction s as [|b s IH]; cbn [app].
  - induction n as [|n IH]; [reflexivity|]. cbn [repeat map le_val] in *. rewrite IH. reflexivity.
  - cbn [map le_val]. rewrite IH. reflexivity.
Qed.
Lemma hash_points_challenge C H g U V : hash_points C [H; g; U; V] = challenge_of C (challenge_string C H g U V).
Proof. unfold hash_points, challenge_of, challenge_string, SUITE_STRING. cbn [map concat]. rewrite app_nil_r, le_num_zeros. reflexivity. Qed.
Lemma nth_seq_map (h : bytes) : map (fun i => nth i h x00) (seq 0 (length h)) = h.
Proof.
  induction h as [|b h IH]; [reflexivity|]. cbn [length seq map nth]. f_equal. rewrite <- seq_shift, map_map. exact IH.
Qed.
Lemma clear_top_is h : clear_top h = without_top_bit h.
Proof.
  assert (K : forall n h, firstn n h ++ match nth_error h n with Some b => b8 (Byte.to_N b mod 128) :: skipn (S n) h | None => [] end =
    map (fun i => if (i =? n)%nat then b8 (Byte.to_N (nth i h x00) mod 128) else nth i h x00) (seq 0 (length h))).
  { clear. induction n as [|n IH]; intros [|b h]; try reflexivity.
    - cbn [firstn nth_error app skipn length seq map nth]. rewrite Nat.eqb_refl. f_equal. rewrite <- seq_shift, map_map. cbn [nth]. symmetry. exact (nth_seq_map h).
    - cbn [firstn nth_error app length seq map nth]. change (0 =? S n)%nat with false. cbv iota. f_equal. rewrite <- seq_shift, map_map. cbn [nth]. exact (IH h). }
  unfold clear_top, without_top_bit. rewrite <- (K 31%nat h). f_equal. destruct (nth_error h 31) as [b|]; [|reflexivity].
  change 127 with (N.ones 7). rewrite N.land_ones. reflexivity.
Qed.
Lemma hash_to_curve_point C pk data : hash_to_curve C pk data = point_of C (point_string pk data).
Proof. unfold hash_to_curve, point_of. rewrite clear_top_is. reflexivity. Qed.
Lemma app_inj_head {A} (a b c d : list A) : length a = length b -> a ++ c = b ++ d -> a = b /\ c = d.
Proof.
  revert b. induction a as [|x a IH]; intros [|y b] L E; try discriminate; [auto|]. injection E as -> E. injection L as L.
  destruct (IH b L E) as [-> ->]. auto.
Qed.
Lemma point_string_inj pk data pk' data' : length pk = length pk' -> point_string pk data = point_string pk' data' -> pk = pk' /\ data = data'.
Proof. intros L E. unfold point_string in E. injection E as E. apply app_inj_head in E; assumption. Qed.
Lemma compress_inj C (K : curve_ok C) P Q : compress C P = compress C Q -> P = Q.
Proof. intros E. apply (f_equal (decompress C)) in E. rewrite !(decompress_compress C K) in E. injection E as E. exact E. Qed.

Lemma accepted_parts C pk p data o : verify_bytes C pk p data = Ok o ->
  exists y g c s, decompress C pk = Some y /\ decode C p = Some (g, c, s) /\
    o = sha512 C (output_string C (smul 8 g)) /\
    challenge_of C (challenge_string C (point_of C (point_string pk data)) g (psub (smul s (base C)) (smul c y))
      (psub (smul s (point_of C (point_string pk data))) (smul c g))) = c.
Proof.
  unfold verify_bytes, to_output. intros E. destruct (decode C p) as [[[g c] s]|]; [|discriminate]. destruct (decompress C pk) as [y|]; [|discriminate].
  rewrite hash_points_challenge in E. rewrite hash_to_curve_point in E. exists y, g, c, s.
  destruct (N.eqb_spec (challenge_of C (challenge_string C (point_of C (point_string pk data)) g (psub (smul s (base C)) (smul c y))
      (psub (smul s (point_of C (point_string pk data))) (smul c g)))) c) as [Ec|]; [|discriminate].
  injection E as <-. auto.
Qed.
Lemma binding_lemma C : curve_ok C -> forall pk pk' p data data' o o', length pk = 32%nat -> length pk' = 32%nat ->
  verify_bytes C pk p data = Ok o -> verify_bytes C pk' p data' = Ok o' ->
  (pk = pk' /\ data = data') \/ same_point C (point_string pk data) (point_string pk' data') \/
  exists g c s U V U' V', decode C p = Some (g, c, s) /\
    same_challenge C c (challenge_string C (point_of C (point_string pk data)) g U V) (challenge_string C (point_of C (point_string pk' data')) g U' V').
Proof.
  intros K pk pk' p data data' o o' L L' E E'. apply accepted_parts in E. apply accepted_parts in E'.
  destruct E as (y & g & c & s & _ & D & _ & A). destruct E' as (y' & g' & c' & s' & _ & D' & _ & A').
  rewrite D in D'. injection D' as <- <- <-.
  destruct (bytes_eqb_reflect (point_string pk data) (point_string pk' data')) as [E|E].
  - left. apply point_string_inj in E; [exact E|congruence].
  - set (P := point_of C (point_string pk data)) in *. set (P' := point_of C (point_string pk' data')) in *.
    destruct (bytes_eqb_reflect (compress C P) (compress C P')) as [Ep|Ep].
    + right. left. split; [exact E|]. apply (compress_inj C K). exact Ep.
    + right. right. exists g, c, s. do 4 eexists. split; [exact D|]. split; [|split; [exact A|exact A']].
      intros Es. apply Ep. unfold challenge_string in Es. injection Es as Es. apply app_inj_head in Es; [apply Es|]. rewrite !(compress_length C K). reflexivity.
Qed.
(** The output is the digest of the point of the proof times the cofactor: equal outputs come from equal
    such points. *)
Lemma output_lemma C : curve_ok C -> forall pk pk' p p' data data' o, verify_bytes C pk p data = Ok o -> verify_bytes C pk' p' data' = Ok o ->
  exists g c s g' c' s', decode C p = Some (g, c, s) /\ decode C p' = Some (g', c', s') /\
    (smul 8 g = smul 8 g' \/ collision_in (sha512 C) [output_string C (smul 8 g)] [output_string C (smul 8 g')]).
Proof.
  intros K pk pk' p p' data data' o E E'. apply accepted_parts in E. apply accepted_parts in E'.
  destruct E as (y & g & c & s & _ & D & O & _). destruct E' as (y' & g' & c' & s' & _ & D' & O' & _).
  exists g, c, s, g', c', s'. split; [exact D|]. split; [exact D'|].
  destruct (bytes_eqb_reflect (output_string C (smul 8 g)) (output_string C (smul 8 g'))) as [Eo|Eo].
  - left. apply (compress_inj C K). unfold output_string in Eo. injection Eo as Eo. exact Eo.
  - right. exists (output_string C (smul 8 g)), (output_string C (smul 8 g')). repeat split; [left; reflexivity|left; reflexivity|exact Eo|congruence].
Qed.
