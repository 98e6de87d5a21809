(** A group of seven elements meeting [curve_ok], for examples. *)
From Coq Require Import Znumtheory.
From Verif Require Import Base BaseFacts Digits Toy VrfModel VrfSpec.
Local Open Scope Z_scope.

Inductive seven := s0 | s1 | s2 | s3 | s4 | s5 | s6.
Definition to_z (s : seven) : Z :=
  match s with s0 => 0 | s1 => 1 | s2 => 2 | s3 => 3 | s4 => 4 | s5 => 5 | s6 => 6 end.
Definition of_z (z : Z) : seven :=
  match z mod 7 with 0 => s0 | 1 => s1 | 2 => s2 | 3 => s3 | 4 => s4 | 5 => s5 | _ => s6 end.

Lemma of_to s : of_z (to_z s) = s.
Proof. destruct s; reflexivity. Qed.
Lemma to_of z : to_z (of_z z) = z mod 7.
Proof.
  unfold of_z. pose proof (Z.mod_pos_bound z 7 ltac:(lia)) as Hb.
  destruct (Z.eq_dec (z mod 7) 0) as [->|]; [reflexivity|].
  destruct (Z.eq_dec (z mod 7) 1) as [->|]; [reflexivity|].
  destruct (Z.eq_dec (z mod 7) 2) as [->|]; [reflexivity|].
  destruct (Z.eq_dec (z mod 7) 3) as [->|]; [reflexivity|].
  destruct (Z.eq_dec (z mod 7) 4) as [->|]; [reflexivity|].
  destruct (Z.eq_dec (z mod 7) 5) as [->|]; [reflexivity|].
  assert (z mod 7 = 6) as -> by lia. reflexivity.
Qed.
Lemma of_z_eq a b : a mod 7 = b mod 7 -> of_z a = of_z b.
Proof. unfold of_z. intros ->. reflexivity. Qed.

Definition toy_curve : curve := {|
  pt := seven;
  padd := fun a b => of_z (to_z a + to_z b);
  pneg := fun a => of_z (- to_z a);
  pzero := s0;
  pmul := fun n a => of_z (n * to_z a);
  base := s3;
  order := 7%N;
  compress := fun a => b8 (Z.to_N (to_z a)) :: repeat x00 31;
  decompress := fun s =>
    match s with
    | b :: r => if (Byte.to_N b <? 7)%N && bytes_eqb r (repeat x00 31)
                then Some (of_z (Z.of_N (Byte.to_N b))) else None
    | [] => None
    end;
  sha512 := fun s => toy_hash s ++ toy_hash (x00 :: s);
  elligator := fun s => of_z (Z.of_N (le_num s))
|}.

Lemma prime7 : prime 7.
Proof.
  apply prime_intro; [lia|]. intros n Hn. apply Zgcd_1_rel_prime.
  assert (n = 1 \/ n = 2 \/ n = 3 \/ n = 4 \/ n = 5 \/ n = 6) as [-> | [-> | [-> | [-> | [-> | ->]]]]] by lia; reflexivity.
Qed.

Lemma toy_curve_ok : curve_ok toy_curve.
Proof.
  assert (Hm : forall s, to_z s mod 7 = to_z s) by (intros []; reflexivity).
  constructor; cbn [toy_curve pt padd pneg pzero pmul base order compress decompress sha512 elligator]; intros.
  - apply of_z_eq. f_equal. lia.
  - apply of_z_eq. rewrite !to_of. rewrite Zplus_mod_idemp_l, Zplus_mod_idemp_r. f_equal. lia.
  - cbn [to_z]. rewrite Z.add_0_r. apply of_to.
  - rewrite to_of, (of_z_eq _ 0); [reflexivity|]. rewrite Zplus_mod_idemp_r. f_equal. lia.
  - rewrite Z.mul_1_l. apply of_to.
  - apply of_z_eq. rewrite !to_of, <- Zplus_mod. f_equal. lia.
  - apply of_z_eq. rewrite !to_of, Zmult_mod_idemp_r. f_equal. lia.
  - apply of_z_eq. rewrite !to_of, <- Zplus_mod, Zmult_mod_idemp_r. f_equal. lia.
  - exact prime7.
  - lia.
  - change (Z.of_N 7) with 7. split.
    + intros E. apply (f_equal to_z) in E. rewrite to_of in E. cbn [to_z] in E.
      apply Z.mod_divide in E; [|lia]. destruct E as [k Hk]. exists (n - 2 * k). lia.
    + intros [k ->]. apply (of_z_eq _ 0). rewrite (Z.mul_comm k 7), <- Z.mul_assoc, Z.mul_comm, Z.mod_mul by lia. reflexivity.
  - apply (of_z_eq _ 0). rewrite <- Z.mul_assoc, (Z.mul_comm (Z.of_N 7)), !Z.mul_assoc, Z.mod_mul by (cbn; lia). reflexivity.
  - apply (of_z_eq _ 0). change (Z.of_N 7) with 7. rewrite Z.mul_comm, Z.mod_mul by lia. reflexivity.
  - reflexivity.
  - destruct P; reflexivity.
  - rewrite app_length, !toy_hash32. reflexivity.
Qed.
