From Verif Require Import Base BaseFacts MsgpackModel CommitteeModel CommitteeSpec CommitteeProofs LeaderSpec LeaderProofs LeadChanceSpec.
Local Open Scope nat_scope.

(** ** Counting *)
Fixpoint sum {A} (f : A -> nat) (l : list A) : nat := match l with [] => 0 | x :: r => f x + sum f r end.
Definition b2n (b : bool) : nat := if b then 1 else 0.
Lemma filter_sum {A} (f : A -> bool) l : length (filter f l) = sum (fun x => b2n (f x)) l.
Proof. induction l as [|x l IH]; [reflexivity|]. cbn. destruct (f x); cbn; rewrite IH; reflexivity. Qed.
Lemma sum_le {A} (f g : A -> nat) l : (forall x, In x l -> f x <= g x) -> sum f l <= sum g l.
Proof. induction l as [|x l IH]; intros L; [reflexivity|]. cbn. pose proof (L x (or_introl eq_refl)). pose proof (IH (fun y Y => L y (or_intror Y))). lia. Qed.
Lemma sum_eq {A} (f g : A -> nat) l : (forall x, In x l -> f x = g x) -> sum f l = sum g l.
Proof. intros E. apply Nat.le_antisymm; apply sum_le; intros x X; rewrite (E x X); reflexivity. Qed.
Lemma sum_plus {A} (f g : A -> nat) l : sum (fun x => f x + g x) l = sum f l + sum g l.
Proof. induction l as [|x l IH]; [reflexivity|]. cbn. rewrite IH. lia. Qed.
Lemma sum_const {A} k (l : list A) : sum (fun _ => k) l = length l * k.
Proof. induction l as [|x l IH]; [reflexivity|]. cbn. rewrite IH. lia. Qed.
Lemma sum_exchange {A B} (f : A -> B -> nat) l k : sum (fun x => sum (f x) k) l = sum (fun y => sum (fun x => f x y) l) k.
Proof.
  induction l as [|x l IH]; cbn [sum]; [rewrite sum_const; lia|]. rewrite IH. rewrite <- sum_plus. reflexivity.
Qed.
Lemma sum_flat_map {A B} (f : B -> nat) (g : A -> list B) l : sum f (flat_map g l) = sum (fun x => sum f (g x)) l.
Proof.
  assert (Ap : forall a b, sum f (a ++ b) = sum f a + sum f b) by (induction a as [|y a IH]; intros b; cbn; [reflexivity|rewrite IH; lia]).
  induction l as [|x l IH]; [reflexivity|]. cbn. rewrite Ap, IH. reflexivity.
Qed.
Lemma sum_map {A B} (f : B -> nat) (g : A -> B) l : sum f (map g l) = sum (fun x => f (g x)) l.
Proof. induction l as [|x l IH]; [reflexivity|]. cbn. rewrite IH. reflexivity. Qed.

Section Count.
Variable m : nat.
Lemma numbers_length : length (numbers m) = m. Proof. unfold numbers. rewrite map_length, seq_length. reflexivity. Qed.
Lemma outcomes_spec n l : In l (outcomes m n) <-> length l = n /\ Forall (fun v => In v (numbers m)) l.
Proof.
  revert l. induction n as [|n IH]; intros l; cbn [outcomes].
  - split; [intros [<- | []]; split; [reflexivity|constructor]|]. intros [E _]. left. destruct l; [reflexivity|discriminate].
  - rewrite in_flat_map. split.
    + intros [v [V X]]. apply in_map_iff in X as [l' [<- X]]. apply IH in X as [E F]. split; [cbn; congruence|constructor; assumption].
    + intros [E F]. destruct l as [|v l]; [discriminate|]. inversion F; subst. exists v. split; [assumption|]. apply in_map. apply IH. split; [cbn in E; lia|assumption].
Qed.
Lemma outcomes_length n : length (outcomes m n) = m ^ n.
Proof.
  induction n as [|n IH]; [reflexivity|]. cbn [outcomes]. rewrite <- (Nat.mul_1_r (length _)), <- (sum_const 1), sum_flat_map.
  rewrite (sum_eq _ (fun _ => m ^ n)); [rewrite sum_const, numbers_length; reflexivity|]. intros v _. rewrite sum_map, sum_const, IH. lia.
Qed.

(** Any place can be drawn first. *)
Definition insert (p : nat) (v : N) (l : list N) : list N := firstn p l ++ v :: skipn p l.
Lemma outcomes_at p : forall n (f : list N -> nat), p <= n ->
  sum f (outcomes m (Datatypes.S n)) = sum (fun v => sum (fun l => f (insert p v l)) (outcomes m n)) (numbers m).
Proof.
  induction p as [|p IH]; intros n f L.
  - cbn [outcomes]. rewrite sum_flat_map. apply sum_eq. intros v _. rewrite sum_map. reflexivity.
  - destruct n as [|n]; [lia|]. change (outcomes m (Datatypes.S (Datatypes.S n))) with (flat_map (fun v => map (cons v) (outcomes m (Datatypes.S n))) (numbers m)).
    rewrite sum_flat_map. rewrite (sum_eq _ (fun u => sum (fun v => sum (fun l => f (u :: insert p v l)) (outcomes m n)) (numbers m))).
    2:{ intros u _. rewrite sum_map. apply (IH n (fun l => f (u :: l))). lia. }
    rewrite sum_exchange. apply sum_eq. intros v _. cbn [outcomes]. rewrite sum_flat_map. apply sum_eq. intros u _. rewrite sum_map. reflexivity.
Qed.

(** The value at a place is less than all others. *)
Definition others (p : nat) (l : list N) : list N := firstn p l ++ skipn (Datatypes.S p) l.
Definition alone (p : nat) (l : list N) : bool := forallb (fun u => (nth p l 0 <? u)%N) (others p l).
Lemma others_insert : forall p v l, p <= length l -> others p (insert p v l) = l /\ nth p (insert p v l) 0%N = v.
Proof.
  unfold others, insert. induction p as [|p IH]; intros v l L; [split; reflexivity|]. destruct l as [|u l]; [cbn in L; lia|]. cbn in L.
  destruct (IH v l ltac:(lia)) as [A B]. split; [|exact B]. cbn [firstn app skipn]. f_equal. exact A.
Qed.
Lemma others_spec : forall p l u, p < length l -> (In u (others p l) <-> exists q, q < length l /\ q <> p /\ nth q l 0%N = u).
Proof.
  unfold others. induction p as [|p IH]; intros l u L; (destruct l as [|x l]; [cbn in L; lia|]); cbn in L.
  - cbn [firstn skipn app]. split.
    + intros X. destruct (In_nth _ _ 0%N X) as [q [Q E]]. exists (Datatypes.S q). cbn. split; [lia|]. split; [lia|exact E].
    + intros [q [Q [Nq E]]]. destruct q as [|q]; [contradiction|]. cbn in *. rewrite <- E. apply nth_In. lia.
  - cbn [firstn app]. change (skipn (Datatypes.S (Datatypes.S p)) (x :: l)) with (skipn (Datatypes.S p) l). cbn [In]. rewrite (IH l u ltac:(lia)). split.
    + intros [-> | [q [Q [Nq E]]]]; [exists 0; cbn; split; [lia|]; split; [lia|reflexivity]|]. exists (Datatypes.S q). cbn. split; [lia|]. split; [lia|exact E].
    + intros [q [Q [Nq E]]]. destruct q as [|q]; cbn in *; [left; exact E|]. right. exists q. split; [lia|]. split; [lia|exact E].
Qed.
Lemma alone_spec p l : p < length l -> (alone p l = true <-> forall q, q < length l -> q <> p -> (nth p l 0 < nth q l 0)%N).
Proof.
  intros L. unfold alone. rewrite forallb_forall. split.
  - intros F q Q Nq. apply N.ltb_lt, F, others_spec; [exact L|]. exists q. auto.
  - intros F u X. apply others_spec in X as [q [Q [Nq E]]]; [|exact L]. apply N.ltb_lt. rewrite <- E. apply F; assumption.
Qed.
Lemma alone_one p q l : p < length l -> q < length l -> alone p l = true -> alone q l = true -> p = q.
Proof.
  intros P Q A B. destruct (Nat.eq_dec p q) as [E|E]; [exact E|]. rewrite alone_spec in A, B by assumption.
  specialize (A q Q ltac:(auto)). specialize (B p P ltac:(auto)). lia.
Qed.
Lemma alone_count : forall n p, p <= n -> sum (fun l => b2n (alone p l)) (outcomes m (Datatypes.S n)) = sum (fun l => b2n (alone 0 l)) (outcomes m (Datatypes.S n)).
Proof.
  intros n p L. rewrite (outcomes_at p n) by exact L. rewrite (outcomes_at 0 n) by lia.
  apply sum_eq. intros v _. apply sum_eq. intros l X. apply outcomes_spec in X as [E _]. f_equal. unfold alone.
  destruct (others_insert p v l ltac:(lia)) as [-> ->], (others_insert 0 v l ltac:(lia)) as [-> ->]. reflexivity.
Qed.
Lemma alone_sum ps l : NoDup ps -> (forall p, In p ps -> p < length l) ->
  sum (fun p => b2n (alone p l)) ps = b2n (existsb (fun p => alone p l) ps).
Proof.
  induction ps as [|p ps IH]; intros D L; [reflexivity|]. inversion D as [|? ? Np D']; subst. cbn [sum existsb]. rewrite IH by (try assumption; intros q Q; apply L; right; exact Q).
  destruct (alone p l) eqn:A; cbn [orb b2n]; [|reflexivity]. destruct (existsb _ ps) eqn:X; [|reflexivity]. apply existsb_exists in X as [q [Q B]].
  exfalso. apply Np. rewrite (alone_one p q l); [exact Q|apply L; left; reflexivity|apply L; right; exact Q|exact A|exact B].
Qed.

(** Nobody is alone only if two values are the same. *)
Fixpoint dup (l : list N) : bool := match l with [] => false | v :: r => existsb (N.eqb v) r || dup r end.
Definition none (l : list N) : bool := negb (existsb (fun p => alone p l) (seq 0 (length l))).
Lemma dup_nth : forall l, dup l = false -> forall p q, p < length l -> q < length l -> nth p l 0%N = nth q l 0%N -> p = q.
Proof.
  induction l as [|v l IH]; intros D p q P Q E; [cbn in P; lia|]. cbn in D. apply orb_false_iff in D as [D1 D2]. cbn in P, Q.
  assert (X : forall k, k < length l -> nth k l 0%N <> v).
  { intros k K F. assert (existsb (N.eqb v) l = true) by (apply existsb_exists; exists (nth k l 0%N); split; [apply nth_In; exact K|rewrite F; apply N.eqb_refl]). congruence. }
  destruct p as [|p], q as [|q]; cbn in E; [reflexivity|exfalso; apply (X q); [lia|congruence]|exfalso; apply (X p); [lia|congruence]|].
  f_equal. apply IH; [exact D2|lia|lia|exact E].
Qed.
Lemma least_place : forall l, l <> [] -> exists p, p < length l /\ forall q, q < length l -> (nth p l 0 <= nth q l 0)%N.
Proof.
  induction l as [|v l IH]; [contradiction|]. intros _. destruct l as [|u l].
  - exists 0. split; [cbn; lia|]. intros q Q. cbn in Q. replace q with 0 by lia. reflexivity.
  - destruct (IH ltac:(discriminate)) as [p [P L]]. destruct (N.le_gt_cases v (nth p (u :: l) 0%N)) as [V|V].
    + exists 0. split; [cbn; lia|]. intros q Q. destruct q as [|q]; [reflexivity|]. etransitivity; [exact V|]. apply L. cbn in *. lia.
    + exists (Datatypes.S p). split; [cbn in *; lia|]. intros q Q. destruct q as [|q]; [cbn [nth]; apply N.lt_le_incl; exact V|]. apply L. cbn in *. lia.
Qed.
Lemma none_dup l : l <> [] -> b2n (none l) <= b2n (dup l).
Proof.
  intros N0. destruct (dup l) eqn:D; [destruct (none l); cbn; lia|]. destruct (least_place l N0) as [p [P L]].
  replace (none l) with false; [reflexivity|]. symmetry. unfold none. apply negb_false_iff, existsb_exists. exists p. split; [apply in_seq; lia|].
  apply alone_spec; [exact P|]. intros q Q Nq. specialize (L q Q). assert (nth p l 0%N <> nth q l 0%N) by (intros E; apply Nq; symmetry; apply (dup_nth l D); assumption). lia.
Qed.
Lemma dup_le v l : b2n (dup (v :: l)) <= sum (fun u => b2n (N.eqb v u)) l + b2n (dup l).
Proof.
  cbn [dup]. assert (E : b2n (existsb (N.eqb v) l) <= sum (fun u => b2n (N.eqb v u)) l).
  { induction l as [|u l IH]; [reflexivity|]. cbn. destruct (N.eqb v u); cbn; [lia|exact IH]. }
  destruct (existsb _ l), (dup l); cbn in *; lia.
Qed.
Lemma one_equal u : sum (fun v => b2n (N.eqb v u)) (numbers m) <= 1.
Proof.
  unfold numbers. rewrite sum_map. cut (forall a, sum (fun x => b2n (N.of_nat x =? u)%N) (seq a m) <= 1); [intros X; apply X|].
  induction m as [|k IH]; intros a; [cbn; lia|]. cbn [seq sum].
  destruct (N.eqb_spec (N.of_nat a) u) as [E|E]; cbn [b2n]; [|apply IH].
  rewrite (sum_eq _ (fun _ => 0)); [rewrite sum_const; lia|]. intros x X. apply in_seq in X. destruct (N.eqb_spec (N.of_nat x) u); [lia|reflexivity].
Qed.
Lemma dup_count n : 2 * m * sum (fun l => b2n (dup l)) (outcomes m n) <= n * (n - 1) * m ^ n.
Proof.
  induction n as [|n IH]; [cbn; lia|].
  assert (B : sum (fun l => b2n (dup l)) (outcomes m (Datatypes.S n)) <= n * m ^ n + m * sum (fun l => b2n (dup l)) (outcomes m n)).
  { cbn [outcomes]. rewrite sum_flat_map. rewrite (sum_eq _ (fun v => sum (fun l => b2n (dup (v :: l))) (outcomes m n))) by (intros v _; rewrite sum_map; reflexivity).
    etransitivity; [apply sum_le; intros v _; apply sum_le; intros l _; apply dup_le|].
    rewrite (sum_eq _ (fun v => sum (fun l => sum (fun u => b2n (N.eqb v u)) l) (outcomes m n) + sum (fun l => b2n (dup l)) (outcomes m n))) by (intros v _; apply sum_plus).
    rewrite sum_plus, sum_const, numbers_length. apply Nat.add_le_mono_r. rewrite sum_exchange.
    etransitivity; [apply (sum_le _ (fun _ => n))|rewrite sum_const, outcomes_length; lia].
    intros l X. apply outcomes_spec in X as [E _]. rewrite sum_exchange. etransitivity; [apply (sum_le _ (fun _ => 1)); intros u _; apply one_equal|]. rewrite sum_const. lia. }
  cbn [Nat.pow]. destruct n as [|n]; [cbn in *; lia|]. cbn [Nat.sub] in *. rewrite ?Nat.sub_0_r in *.
  set (T := sum _ (outcomes m (Datatypes.S n))) in *. set (T' := sum _ _) in *. set (P := m ^ Datatypes.S n) in *.
  apply (Nat.mul_le_mono_l _ _ (2 * m)) in B. apply (Nat.mul_le_mono_l _ _ m) in IH. etransitivity; [exact B|].
  replace (2 * m * (Datatypes.S n * P + m * T)) with (2 * m * (Datatypes.S n * P) + m * (2 * m * T)) by ring.
  replace (Datatypes.S (Datatypes.S n) * Datatypes.S n * (m * P)) with (2 * m * (Datatypes.S n * P) + m * (Datatypes.S n * n * P)) by ring. lia.
Qed.

(** ** Owners *)
Definition places_of (i : nat) (ow : list nat) : list nat := filter (fun p => nth p ow 0 =? i) (seq 0 (length ow)).
Lemma map_nth_seq {A} (d : A) : forall l, map (fun p => nth p l d) (seq 0 (length l)) = l.
Proof. induction l as [|x l IH]; [reflexivity|]. cbn. f_equal. rewrite <- seq_shift, map_map. exact IH. Qed.
Lemma places_count i ow : length (places_of i ow) = sum (fun x => b2n (x =? i)) ow.
Proof. unfold places_of. rewrite filter_sum. transitivity (sum (fun x => b2n (x =? i)) (map (fun p => nth p ow 0) (seq 0 (length ow)))); [rewrite sum_map; reflexivity|rewrite map_nth_seq; reflexivity]. Qed.
Lemma owners_count : forall draws a i, sum (fun x => b2n (x =? i)) (owners_from a draws) = if i <? a then 0 else nth (i - a) draws 0.
Proof.
  assert (Ap : forall f (a b : list nat), sum f (a ++ b) = sum f a + sum f b) by (intros f; induction a as [|y a IH]; intros b; cbn; [reflexivity|rewrite IH; lia]).
  induction draws as [|k draws IH]; intros a i; cbn [owners_from].
  { cbn [sum]. destruct (i <? a); [reflexivity|]. destruct (i - a); reflexivity. }
  rewrite Ap, IH. rewrite (sum_eq _ (fun _ => b2n (a =? i))) by (intros x X; apply repeat_spec in X; subst; reflexivity). rewrite sum_const, repeat_length.
  destruct (Nat.ltb_spec i a), (Nat.ltb_spec i (Datatypes.S a)), (Nat.eqb_spec a i); cbn [b2n]; try lia.
  - subst. replace (i - i) with 0 by lia. cbn. lia.
  - destruct (i - a) as [|j] eqn:E; [lia|]. replace (i - Datatypes.S a) with j by lia. cbn. lia.
Qed.
Lemma owners_length : forall draws a, length (owners_from a draws) = total draws.
Proof. induction draws as [|k draws IH]; intros a; [reflexivity|]. cbn. rewrite app_length, repeat_length, IH. reflexivity. Qed.
Lemma combine_spec : forall (ow : list nat) (l : list N), length ow = length l -> forall x,
  In x (combine ow l) <-> exists p, p < length l /\ x = (nth p ow 0, nth p l 0%N).
Proof.
  induction ow as [|o ow IH]; intros [|v l] E x; cbn in E; try discriminate.
  - cbn. split; [intros []|]. intros [p [P _]]. lia.
  - cbn [combine In]. rewrite (IH l ltac:(lia)). split.
    + intros [<- | [p [P ->]]]; [exists 0; cbn; split; [lia|reflexivity]|]. exists (Datatypes.S p). cbn. split; [lia|reflexivity].
    + intros [p [P ->]]. destruct p as [|p]; [left; reflexivity|]. right. exists p. cbn in *. split; [lia|reflexivity].
Qed.
Lemma wins_spec i (d : list (nat * N)) : wins i d = true <-> exists x, In x d /\ fst x = i /\ forall y, In y d -> fst y = i \/ (snd x < snd y)%N.
Proof.
  unfold wins. rewrite existsb_exists. split; intros [x [X F]]; exists x; split; try exact X.
  - apply andb_true_iff in F as [A B]. apply Nat.eqb_eq in A. split; [exact A|]. rewrite forallb_forall in B. intros y Y. specialize (B y Y).
    apply orb_true_iff in B as [B|B]; [left; apply Nat.eqb_eq; exact B|right; apply N.ltb_lt; exact B].
  - destruct F as [A B]. apply andb_true_iff. split; [apply Nat.eqb_eq; exact A|]. apply forallb_forall. intros y Y. apply orb_true_iff.
    destruct (B y Y) as [C|C]; [left; apply Nat.eqb_eq; exact C|right; apply N.ltb_lt; exact C].
Qed.
Lemma places_in i ow p : In p (places_of i ow) <-> p < length ow /\ nth p ow 0 = i.
Proof. unfold places_of. rewrite filter_In, in_seq, Nat.eqb_eq. lia. Qed.
Lemma pointwise i ow l : length ow = length l ->
  sum (fun p => b2n (alone p l)) (places_of i ow) <= b2n (wins i (combine ow l)) /\
  b2n (wins i (combine ow l)) <= sum (fun p => b2n (alone p l)) (places_of i ow) + b2n (none l).
Proof.
  intros E. rewrite alone_sum; [|apply NoDup_filter, seq_NoDup|intros p P; apply places_in in P; lia]. split.
  - destruct (existsb _ (places_of i ow)) eqn:X; [|cbn; lia]. apply existsb_exists in X as [p [P A]]. apply places_in in P as [P1 P2].
    replace (wins i (combine ow l)) with true; [reflexivity|]. symmetry. apply wins_spec. exists (nth p ow 0, nth p l 0%N).
    split; [apply combine_spec; [exact E|]; exists p; split; [lia|reflexivity]|]. split; [exact P2|]. intros y Y. apply combine_spec in Y as [q [Q ->]]; [|exact E]. cbn.
    destruct (Nat.eq_dec q p) as [-> |]; [left; exact P2|]. right. apply (proj1 (alone_spec p l ltac:(lia)) A q); assumption.
  - destruct (wins i (combine ow l)) eqn:W; [|cbn; lia]. destruct (none l) eqn:Z; [cbn; lia|]. unfold none in Z. apply negb_false_iff, existsb_exists in Z as [p [P A]]. apply in_seq in P.
    replace (existsb _ (places_of i ow)) with true; [cbn; lia|]. symmetry. apply existsb_exists. exists p. split; [|exact A]. apply places_in. split; [lia|].
    apply wins_spec in W as [x [X [Fx B]]]. apply combine_spec in X as [q [Q ->]]; [|exact E]. cbn in Fx, B.
    assert (Y : In (nth p ow 0, nth p l 0%N) (combine ow l)) by (apply combine_spec; [exact E|]; exists p; split; [lia|reflexivity]).
    destruct (B _ Y) as [C|C]; [exact C|]. cbn in C. destruct (Nat.eq_dec q p) as [-> |Nq]; [exact Fx|].
    pose proof (proj1 (alone_spec p l ltac:(lia)) A q Q Nq). lia.
Qed.
End Count.

Lemma share_lemma m draws i : let n := total draws in let k := nth i draws 0 in let w := winning_cases m draws i in
  2 * m * (n * w) <= 2 * m * (k * m ^ n) + n * n * (n - 1) * m ^ n /\ 2 * m * (k * m ^ n) <= 2 * m * (n * w) + n * n * (n - 1) * m ^ n.
Proof.
  intros n k w. set (ow := owners draws). assert (Lo : length ow = n) by apply owners_length.
  assert (Lp : length (places_of i ow) = k) by (rewrite places_count; unfold ow, owners; rewrite owners_count; cbn; rewrite Nat.sub_0_r; reflexivity).
  assert (Kn : k <= n) by (rewrite <- Lp, <- Lo; unfold places_of; rewrite <- (seq_length (length ow) 0) at 2; generalize (seq 0 (length ow)); intros s; induction s as [|a s IH]; cbn; [lia|]; destruct (_ =? i); cbn; lia).
  destruct n as [|n'] eqn:En.
  { assert (k = 0) by lia. replace k with 0 by lia. cbn. lia. }
  set (K := sum (fun l => b2n (alone 0 l)) (outcomes m (Datatypes.S n'))). set (T := sum (fun l => b2n (none l)) (outcomes m (Datatypes.S n'))).
  assert (Lx : forall l, In l (outcomes m (Datatypes.S n')) -> length ow = length l) by (intros l X; apply outcomes_spec in X as [X _]; lia).
  assert (S1 : sum (fun l => sum (fun p => b2n (alone p l)) (places_of i ow)) (outcomes m (Datatypes.S n')) = k * K).
  { rewrite sum_exchange. rewrite (sum_eq _ (fun _ => K)); [rewrite sum_const, Lp; reflexivity|]. intros p P. apply places_in in P. apply alone_count. lia. }
  assert (W : w = sum (fun l => b2n (wins i (combine ow l))) (outcomes m (Datatypes.S n'))) by (unfold w, winning_cases; rewrite filter_sum; fold ow; fold n; rewrite En; reflexivity).
  assert (W1 : k * K <= w) by (rewrite W, <- S1; apply sum_le; intros l X; apply pointwise; apply Lx; exact X).
  assert (W2 : w <= k * K + T) by (rewrite W, <- S1; unfold T; rewrite <- sum_plus; apply sum_le; intros l X; apply pointwise; apply Lx; exact X).
  assert (A : Datatypes.S n' * K + T = m ^ Datatypes.S n').
  { rewrite <- (outcomes_length m (Datatypes.S n')). rewrite <- (Nat.mul_1_r (length (outcomes _ _))), <- (sum_const 1).
    assert (S2 : sum (fun l => sum (fun p => b2n (alone p l)) (seq 0 (Datatypes.S n'))) (outcomes m (Datatypes.S n')) = Datatypes.S n' * K).
    { rewrite sum_exchange. rewrite (sum_eq _ (fun _ => K)); [rewrite sum_const, seq_length; reflexivity|]. intros p P. apply in_seq in P. apply alone_count. lia. }
    rewrite <- S2. unfold T. rewrite <- sum_plus. apply sum_eq. intros l X. pose proof (Lx l X) as E. rewrite Lo in E.
    rewrite alone_sum; [|apply seq_NoDup|intros p P; apply in_seq in P; lia]. unfold none. rewrite <- E. destruct (existsb _ _); reflexivity. }
  assert (D : 2 * m * T <= Datatypes.S n' * (Datatypes.S n' - 1) * m ^ Datatypes.S n').
  { etransitivity; [|apply dup_count]. apply Nat.mul_le_mono_l. apply sum_le. intros l X. apply none_dup. intros ->. specialize (Lx [] X). cbn in Lx. lia. }
  set (N' := Datatypes.S n') in *. set (P := m ^ N') in *. set (Z := N' - 1) in *. clearbody K T N' P Z w k. clear - Kn W1 W2 A D.
  assert (A' : k * P = N' * (k * K) + k * T) by (rewrite <- A; ring).
  assert (B1 : N' * w <= k * P + N' * T) by (apply (Nat.mul_le_mono_l _ _ N') in W2; lia).
  assert (B2 : k * P <= N' * w + N' * T) by (apply (Nat.mul_le_mono_l _ _ N') in W1; pose proof (Nat.mul_le_mono_r _ _ T Kn); lia).
  apply (Nat.mul_le_mono_l _ _ N') in D. replace (N' * (2 * m * T)) with (2 * m * (N' * T)) in D by ring. replace (N' * N' * Z * P) with (N' * (N' * Z * P)) by ring.
  apply (Nat.mul_le_mono_l _ _ (2 * m)) in B1, B2. rewrite Nat.mul_add_distr_l in B1, B2. split; lia.
Qed.

(** ** Credentials *)
Section Link.
Variable H : bytes -> bytes.
Lemma drawn_spec : forall cs a i v, In (i, v) (combine (owners_from a (map draws_made cs)) (hashes_from H draws_made cs)) <->
  exists c j, a <= i /\ nth_error cs (i - a) = Some c /\ (1 <= j < weight c)%N /\ v = counter_value H c j.
Proof.
  assert (Cp : forall {A B} (a b : list A) (c d : list B), length a = length c -> combine (a ++ b) (c ++ d) = combine a c ++ combine b d).
  { intros A B. induction a as [|x a IH]; intros b [|y c] d E; cbn in E; try discriminate; [reflexivity|]. cbn. f_equal. apply IH. lia. }
  induction cs as [|c cs IH]; intros a i v; cbn [map owners_from hashes_from].
  - cbn. split; [intros []|]. intros [c [j [_ [E _]]]]. destruct (i - a); discriminate.
  - rewrite Cp by (rewrite repeat_length, map_length, seq_length; reflexivity). rewrite in_app_iff, IH. split.
    + intros [X|[d [j [L [E R]]]]].
      * assert (Xi : i = a) by (apply in_combine_l in X; apply repeat_spec in X; exact X). apply in_combine_r in X. apply in_map_iff in X as [j [<- X]]. apply in_seq in X.
        exists c, (N.of_nat j). subst i. rewrite Nat.sub_diag. split; [lia|]. split; [reflexivity|]. split; [unfold draws_made in X; lia|reflexivity].
      * exists d, j. split; [lia|]. destruct (i - a) as [|k] eqn:Ek; [lia|]. replace (i - Datatypes.S a) with k in E by lia. split; [exact E|exact R].
    + intros [d [j [L [E [R ->]]]]]. destruct (Nat.eq_dec i a) as [-> |Ni].
      * left. rewrite Nat.sub_diag in E. cbn in E. assert (d = c) by congruence. subst d.
        assert (X : forall k s, In s (seq 1 k) -> In (a, counter_value H c (N.of_nat s)) (combine (repeat a k) (map (fun j0 => counter_value H c (N.of_nat j0)) (seq 1 k)))).
        { intros k. generalize 1 as b. induction k as [|k IHk]; intros b s Xs; [destruct Xs|]. cbn in Xs |- *. destruct Xs as [-> |Xs]; [left; reflexivity|right; apply IHk; exact Xs]. }
        rewrite <- (N2Nat.id j). apply X. apply in_seq. unfold draws_made. lia.
      * right. exists d, j. split; [lia|]. destruct (i - a) as [|k] eqn:Ek; [lia|]. replace (i - Datatypes.S a) with k by lia. split; [exact E|]. split; [exact R|reflexivity].
Qed.
Lemma link_lemma cs i : Forall complete cs -> Forall (fun c => 2 <= weight c)%N cs -> i < length cs ->
  (wins i (combine (owners (map draws_made cs)) (hashes_from H draws_made cs)) = true <-> leads_alone H cs i).
Proof.
  intros Cs Ws L. rewrite Forall_forall in Cs, Ws. destruct (nth_error cs i) as [c|] eqn:Ec; [|apply nth_error_None in Ec; lia].
  pose proof (Cs c (nth_error_In _ _ Ec)) as Cc. pose proof (Ws c (nth_error_In _ _ Ec)) as Wc.
  destruct (lowest_lemma H c Cc Wc) as [c' [a [Ea [[ja [Ja Va]] Ma]]]].
  rewrite wins_spec. unfold owners. split.
  - intros [[i' v] [X [Fx B]]]. cbn in Fx. subst i'. apply drawn_spec in X as [c0 [j [_ [E [R ->]]]]]. rewrite Nat.sub_0_r in E. assert (c0 = c) by congruence. subst c0.
    exists c. split; [exact Ec|]. intros k d Nk Ed. pose proof (Cs d (nth_error_In _ _ Ed)) as Cd. pose proof (Ws d (nth_error_In _ _ Ed)) as Wd.
    destruct (lowest_lemma H d Cd Wd) as [d' [b [Eb [[jb [Jb Vb]] Mb]]]].
    apply (before_iff H c d a b Cc Cd); [exists c'; exact Ea|exists d'; exact Eb|].
    assert (Y : In (k, counter_value H d jb) (combine (owners_from 0 (map draws_made cs)) (hashes_from H draws_made cs))).
    { apply drawn_spec. exists d, jb. rewrite Nat.sub_0_r. split; [lia|]. split; [exact Ed|]. split; [lia|reflexivity]. }
    destruct (B _ Y) as [C|C]; cbn in C; [contradiction|]. specialize (Ma j ltac:(lia)). lia.
  - intros [c0 [E B]]. assert (c0 = c) by congruence. subst c0. exists (i, a). split; [|split; [reflexivity|]].
    + apply drawn_spec. exists c, ja. rewrite Nat.sub_0_r. split; [lia|]. split; [exact Ec|]. split; [lia|congruence].
    + intros [k v] Y. cbn. apply drawn_spec in Y as [d [j [_ [Ed [R ->]]]]]. rewrite Nat.sub_0_r in Ed. destruct (Nat.eq_dec k i) as [-> |Nk]; [left; reflexivity|]. right.
      pose proof (Cs d (nth_error_In _ _ Ed)) as Cd. pose proof (Ws d (nth_error_In _ _ Ed)) as Wd.
      destruct (lowest_lemma H d Cd Wd) as [d' [b [Eb [_ Mb]]]]. specialize (Mb j ltac:(lia)).
      pose proof (B k d Nk Ed) as X. apply (before_iff H c d a b Cc Cd) in X; [lia|exists c'; exact Ea|exists d'; exact Eb].
Qed.
End Link.
