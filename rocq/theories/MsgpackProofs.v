(** The message-pack encoding can be read back, hence is prefix-free. *)
From Verif Require Import Base BaseFacts MsgpackModel.
Local Open Scope N_scope.

Lemma be_length k v : length (be k v) = k.
Proof. induction k as [|k IH]; cbn [be length]; [reflexivity|]. rewrite IH. reflexivity. Qed.

Lemma be_acc_be k v : forall acc, be_acc acc (be k v) = acc * 256 ^ N.of_nat k + v mod 256 ^ N.of_nat k.
Proof.
  induction k as [|k IH]; intros acc; cbn [be be_acc].
  - rewrite N.pow_0_r, N.mod_1_r. lia.
  - rewrite IH, to_N_b8, Nat2N.inj_succ, N.pow_succ_r'.
    set (p := 256 ^ N.of_nat k). assert (p <> 0) by (apply N.pow_nonzero; lia).
    rewrite (N.mul_comm 256 p), N.mod_mul_r by lia. lia.
Qed.
Lemma be_val_be k v : v < 256 ^ N.of_nat k -> be_val (be k v) = v.
Proof. intros Hv. unfold be_val. rewrite be_acc_be, N.mod_small by exact Hv. lia. Qed.

Lemma be_inj k a b : a < 256 ^ N.of_nat k -> b < 256 ^ N.of_nat k -> be k a = be k b -> a = b.
Proof. intros Ha Hb E. rewrite <- (be_val_be k a Ha), <- (be_val_be k b Hb), E. reflexivity. Qed.

Lemma take_app s r : take (N.of_nat (length s)) (s ++ r) = Some (s, r).
Proof.
  unfold take. rewrite app_length. destruct (N.ltb_spec (N.of_nat (length s + length r)) (N.of_nat (length s))); [lia|].
  rewrite Nat2N.id, firstn_app, Nat.sub_diag, firstn_all, firstn_O, app_nil_r, skipn_app, skipn_all, Nat.sub_diag.
  reflexivity.
Qed.

Lemma read_num_be k v f r : v < 256 ^ N.of_nat k -> read_num (N.of_nat k) (be k v ++ r) f = Some (f v, r).
Proof.
  intros Hv. unfold read_num. rewrite <- (be_length k v) at 1. rewrite take_app, be_val_be by exact Hv. reflexivity.
Qed.

Definition wf_header (h : header) : Prop :=
  match h with
  | HNil | HBool _ => True
  | HInt z => (- 2 ^ 63 <= z < 2 ^ 64)%Z
  | HFloat n => n = 4 \/ n = 8
  | HStr n | HBin n | HExt n | HArr n | HMap n => n < 2 ^ 32
  end.

Ltac small_header :=
  cbn [app read_header]; rewrite to_N_b8, N.mod_small by lia;
  repeat match goal with
         | |- context [if ?a <? ?b then _ else _] => destruct (N.ltb_spec a b); try lia
         | |- context [if ?a =? ?b then _ else _] => destruct (N.eqb_spec a b); try lia
         end;
  do 3 f_equal; lia.
Ltac long_header k :=
  cbn [app read_header]; cbv beta;
  match goal with |- context [Byte.to_N ?b] => let v := eval vm_compute in (Byte.to_N b) in change (Byte.to_N b) with v end;
  cbv zeta; cbn [N.ltb N.eqb N.compare Pos.compare Pos.compare_cont Pos.eqb];
  rewrite (read_num_be k) by (cbn; lia).

Lemma signed_neg z m : (- Z.of_N (m / 2) <= z < 0)%Z -> (m mod 2 = 0) ->
  signed m (Z.to_N (z + Z.of_N m)) = z.
Proof.
  intros Hz Hm. unfold signed. destruct (N.ltb_spec (Z.to_N (z + Z.of_N m)) (m / 2)) as [Hlt|_]; lia.
Qed.

Lemma read_uint n r : n < 2 ^ 64 -> read_header (write_uint n ++ r) = Some (HInt (Z.of_N n), r).
Proof.
  intros Hn. unfold write_uint.
  destruct (N.ltb_spec n 128); [small_header|].
  destruct (N.ltb_spec n 256); [long_header 1%nat; reflexivity|].
  destruct (N.ltb_spec n 65536); [long_header 2%nat; reflexivity|].
  destruct (N.ltb_spec n 4294967296); [long_header 4%nat; reflexivity|].
  long_header 8%nat. reflexivity.
Qed.

Lemma read_sint z r : (- 2 ^ 63 <= z < 2 ^ 64)%Z -> read_header (write_sint z ++ r) = Some (HInt z, r).
Proof.
  intros Hz. unfold write_sint.
  destruct (Z.leb_spec 0 z).
  { rewrite read_uint by lia. rewrite Z2N.id by lia. reflexivity. }
  destruct (Z.leb_spec (-32) z); [small_header|].
  destruct (Z.leb_spec (-128) z).
  { long_header 1%nat. do 3 f_equal. apply (signed_neg z 256); [cbn; lia|reflexivity]. }
  destruct (Z.leb_spec (-32768) z).
  { long_header 2%nat. do 3 f_equal. apply (signed_neg z 65536); [cbn; lia|reflexivity]. }
  destruct (Z.leb_spec (-2147483648) z).
  { long_header 4%nat. do 3 f_equal. apply (signed_neg z 4294967296); [cbn; lia|reflexivity]. }
  long_header 8%nat. do 3 f_equal. apply (signed_neg z 18446744073709551616); [cbn; lia|reflexivity].
Qed.

Lemma read_write_header h r : wf_header h -> read_header (write_header h ++ r) = Some (h, r).
Proof.
  destruct h as [|b|z|n|n|n|n|n|n]; cbn [wf_header write_header]; intros Hw.
  - reflexivity.
  - destruct b; reflexivity.
  - apply read_sint. exact Hw.
  - destruct (N.ltb_spec n 32); [small_header|].
    destruct (N.ltb_spec n 256); [long_header 1%nat; reflexivity|].
    destruct (N.ltb_spec n 65536); [long_header 2%nat; reflexivity|]. long_header 4%nat. reflexivity.
  - destruct (N.ltb_spec n 256); [long_header 1%nat; reflexivity|].
    destruct (N.ltb_spec n 65536); [long_header 2%nat; reflexivity|]. long_header 4%nat. reflexivity.
  - destruct Hw as [-> | ->]; reflexivity.
  - destruct (N.eqb_spec n 1) as [-> |]; [reflexivity|]. destruct (N.eqb_spec n 2) as [-> |]; [reflexivity|].
    destruct (N.eqb_spec n 4) as [-> |]; [reflexivity|]. destruct (N.eqb_spec n 8) as [-> |]; [reflexivity|].
    destruct (N.eqb_spec n 16) as [-> |]; [reflexivity|].
    destruct (N.ltb_spec n 256); [long_header 1%nat; reflexivity|].
    destruct (N.ltb_spec n 65536); [long_header 2%nat; reflexivity|]. long_header 4%nat. reflexivity.
  - destruct (N.ltb_spec n 16); [small_header|].
    destruct (N.ltb_spec n 65536); [long_header 2%nat; reflexivity|]. long_header 4%nat. reflexivity.
  - destruct (N.ltb_spec n 16); [small_header|].
    destruct (N.ltb_spec n 65536); [long_header 2%nat; reflexivity|]. long_header 4%nat. reflexivity.
Qed.

(** Nested induction on values. *)
Section Ind.
  Variable P : value -> Prop.
  Hypothesis Pnil : P VNil.
  Hypothesis Pbool : forall b, P (VBool b).
  Hypothesis Pint : forall z, P (VInt z).
  Hypothesis Pstr : forall s, P (VStr s).
  Hypothesis Pbin : forall s, P (VBin s).
  Hypothesis Pfloat : forall s, P (VFloat s).
  Hypothesis Pext : forall t s, P (VExt t s).
  Hypothesis Parr : forall l, Forall P l -> P (VArr l).
  Hypothesis Pmap : forall l, Forall (fun '(k, x) => P k /\ P x) l -> P (VMap l).
  Fixpoint value_nested_ind (v : value) : P v :=
    match v with
    | VNil => Pnil | VBool b => Pbool b | VInt z => Pint z | VStr s => Pstr s | VBin s => Pbin s
    | VFloat s => Pfloat s | VExt t s => Pext t s
    | VArr l => Parr l ((fix go l : Forall P l :=
        match l with [] => Forall_nil _ | x :: r => Forall_cons _ (value_nested_ind x) (go r) end) l)
    | VMap l => Pmap l ((fix go l : Forall (fun '(k, x) => P k /\ P x) l :=
        match l with
        | [] => Forall_nil _
        | (k, x) :: r => Forall_cons (k, x) (conj (value_nested_ind k) (value_nested_ind x)) (go r)
        end) l)
    end.
End Ind.

Lemma write_header_nonempty h : (1 <= length (write_header h))%nat.
Proof.
  destruct h as [|b|z|n|n|n|n|n|n]; cbn [write_header]; unfold write_sint, write_uint;
    repeat match goal with |- context [if ?c then _ else _] => destruct c end; cbn [length]; lia.
Qed.

Lemma encode_nonempty v : (1 <= length (encode v))%nat.
Proof.
  destruct v; cbn [encode]; rewrite ?app_length;
    match goal with |- context [write_header ?h] => pose proof (write_header_nonempty h) end; lia.
Qed.

Lemma read_many_spec {A} (read : bytes -> option (A * bytes)) (enc : A -> bytes) l : forall r,
  (forall x, In x l -> forall r, read (enc x ++ r) = Some (x, r)) ->
  read_many read (length l) (concat (map enc l) ++ r) = Some (l, r).
Proof.
  induction l as [|x l IH]; intros r Hx; cbn [map concat length read_many app]; [reflexivity|].
  rewrite <- app_assoc, (Hx x (or_introl eq_refl)), IH; [reflexivity|].
  intros y Hy. apply Hx. right. exact Hy.
Qed.

Lemma read_encode v : forall fuel r, wf v -> (length (encode v) <= fuel)%nat ->
  read_value fuel (encode v ++ r) = Some (v, r).
Proof.
  induction v as [|b|z|s|s|s|t s|l IH|l IH] using value_nested_ind; intros fuel r Hw Hf;
    (destruct fuel as [|fuel]; [match goal with H : (length (encode ?x) <= 0)%nat |- _ => pose proof (encode_nonempty x); lia end|]).
  - reflexivity.
  - destruct b; reflexivity.
  - cbn [encode read_value]. rewrite read_write_header by exact Hw. reflexivity.
  - cbn [encode read_value]. rewrite <- app_assoc, read_write_header by exact Hw. rewrite take_app. reflexivity.
  - cbn [encode read_value]. rewrite <- app_assoc, read_write_header by exact Hw. rewrite take_app. reflexivity.
  - cbn [encode read_value]. rewrite <- app_assoc, read_write_header by (cbn in Hw |- *; lia). rewrite take_app. reflexivity.
  - cbn [encode read_value]. rewrite <- app_assoc, read_write_header by exact Hw. cbn [app]. rewrite take_app. reflexivity.
  - destruct Hw as [Hl Hw]. cbn [encode read_value] in *. rewrite <- app_assoc, read_write_header by exact Hl.
    rewrite Nat2N.id. rewrite (read_many_spec _ encode); [reflexivity|].
    intros x Hx r'. rewrite Forall_forall in IH. apply IH; [exact Hx| |].
    + clear - Hw Hx. induction l as [|y l IHl]; [destruct Hx|]. cbn in Hw. destruct Hx as [->|Hx]; [tauto|].
      apply IHl; tauto.
    + rewrite app_length in Hf. pose proof (write_header_nonempty (HArr (N.of_nat (length l)))).
      assert (length (encode x) <= length (concat (map encode l)))%nat; [|lia].
      clear - Hx. induction l as [|y l IHl]; [destruct Hx|]. cbn [map concat]. rewrite app_length.
      destruct Hx as [->|Hx]; [lia|]. specialize (IHl Hx). lia.
  - destruct Hw as [Hl Hw]. cbn [encode read_value] in *. rewrite <- app_assoc, read_write_header by exact Hl.
    rewrite Nat2N.id. rewrite (read_many_spec _ (fun '(k, x) => encode k ++ encode x)); [reflexivity|].
    intros [k x] Hx r'. rewrite Forall_forall in IH. specialize (IH _ Hx). cbv beta iota in IH. destruct IH as [IHk IHx].
    rewrite app_length in Hf. pose proof (write_header_nonempty (HMap (N.of_nat (length l)))).
    assert (Hle : (length (encode k) + length (encode x) <= fuel)%nat).
    { assert (length (encode k) + length (encode x) <= length (concat (map (fun '(k, x) => encode k ++ encode x) l)))%nat; [|lia].
      clear - Hx. induction l as [|[k' x'] l IHl]; [destruct Hx|]. cbn [map concat]. rewrite !app_length.
      destruct Hx as [E|Hx]; [injection E as -> ->; lia|]. specialize (IHl Hx). lia. }
    assert (Hwx : wf k /\ wf x).
    { clear - Hw Hx. induction l as [|[k' x'] l IHl]; [destruct Hx|]. cbn in Hw.
      destruct Hx as [E|Hx]; [injection E as -> ->; tauto|]. apply IHl; tauto. }
    unfold read_pair. rewrite <- app_assoc, IHk by (tauto || lia). rewrite IHx by (tauto || lia). reflexivity.
Qed.

Lemma decode_encode v rest : wf v -> decode (encode v ++ rest) = Some v.
Proof.
  intros Hw. unfold decode. rewrite read_encode; [reflexivity|exact Hw|]. rewrite app_length. lia.
Qed.

Lemma encode_prefix_free v v' r r' : wf v -> wf v' -> encode v ++ r = encode v' ++ r' -> v = v' /\ r = r'.
Proof.
  intros Hw Hw' E.
  assert (E1 := read_encode v (length (encode v) + length (encode v')) r Hw ltac:(lia)).
  assert (E2 := read_encode v' (length (encode v) + length (encode v')) r' Hw' ltac:(lia)).
  rewrite E in E1. rewrite E1 in E2. injection E2 as -> ->. auto.
Qed.

Lemma encode_inj v v' : wf v -> wf v' -> encode v = encode v' -> v = v'.
Proof.
  intros Hw Hw' E. apply (encode_prefix_free v v' [] []); try assumption. rewrite !app_nil_r. exact E.
Qed.

Lemma VBytes_inj a b : VBytes a = VBytes b -> a = b.
Proof.
  unfold VBytes. intros E. injection E as E. revert b E.
  induction a as [|x a IH]; intros [|y b] E; try discriminate; [reflexivity|].
  cbn in E. injection E as E1 E2. apply N2Z.inj, to_N_inj in E1. rewrite E1, (IH _ E2). reflexivity.
Qed.
Lemma VNum_inj a b : VNum a = VNum b -> a = b.
Proof. unfold VNum. intros E. injection E as E. apply N2Z.inj. exact E. Qed.
Lemma wf_VNum n : n < 2 ^ 64 -> wf (VNum n).
Proof. cbn. lia. Qed.
Lemma wf_VBytes s : N.of_nat (length s) < 2 ^ 32 -> wf (VBytes s).
Proof.
  intros Hl. unfold VBytes. cbn [wf]. rewrite map_length. split; [exact Hl|].
  clear Hl. induction s as [|b s IH]; cbn [map fold_right]; [exact I|]. split; [|exact IH].
  cbn [wf]. pose proof (to_N_lt b). lia.
Qed.
