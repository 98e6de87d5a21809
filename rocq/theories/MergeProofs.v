(** Proofs for C156. *)
From Coq Require Import Permutation.
From Verif Require Import Base BaseFacts MultisigModel MultisigSpec MultisigProofs AssemblySpec AssemblyProofs.

Lemma same_trans a b c : same_preimage a b -> same_preimage b c -> same_preimage a c.
Proof. unfold same_preimage. intros (A & B & C) (D & E & F). repeat split; congruence. Qed.
Lemma same_sym a b : same_preimage a b -> same_preimage b a.
Proof. unfold same_preimage. intros (A & B & C). repeat split; congruence. Qed.
Lemma slots_ext : forall l l' : list subsig, map key l = map key l' ->
  (forall i s, (exists e, nth_error l i = Some e /\ sig e = Some s) <-> (exists e, nth_error l' i = Some e /\ sig e = Some s)) -> l = l'.
Proof.
  induction l as [|x l IH]; intros [|y l'] K S; try discriminate; [reflexivity|]. cbn [map] in K. injection K as K1 K2. f_equal.
  - destruct x as [k s], y as [k' s']. cbn in K1. subst k'. f_equal. destruct s as [s|].
    + destruct (proj1 (S 0%nat s)) as (e & E & F); [eexists; split; reflexivity|]. cbn in E. injection E as <-. cbn in F. congruence.
    + destruct s' as [s'|]; [|reflexivity]. destruct (proj2 (S 0%nat s')) as (e & E & F); [eexists; split; reflexivity|]. cbn in E. injection E as <-. cbn in F. congruence.
  - apply IH; [exact K2|]. intros i s. exact (S (Datatypes.S i) s).
Qed.
Lemma multisig_ext a b : same_preimage a b -> (forall i s, slot_sig a i s <-> slot_sig b i s) -> a = b.
Proof.
  intros (A & B & C) S. destruct a as [v t l], b as [v' t' l']. cbn in *. subst. f_equal. apply slots_ext; [exact C|exact S].
Qed.
Lemma merge_ok a b c : merge a b = Ok c <-> same_preimage a b /\ ~ slot_conflict a b /\ same_preimage a c /\ forall i s, slot_sig c i s <-> slot_sig a i s \/ slot_sig b i s.
Proof.
  destruct (merge_lemma a b) as (_ & X & Y). split.
  - intros E. destruct (proj1 X (ex_intro _ c E)) as [P Q]. destruct (Y c E) as [R S]. auto.
  - intros (P & Q & R & S). destruct (proj2 X (conj P Q)) as [c' E]. rewrite E. f_equal. destruct (Y c' E) as [R' S']. apply multisig_ext.
    + exact (same_trans _ _ _ (same_sym _ _ R') R).
    + intros i s. rewrite S, S'. reflexivity.
Qed.
Lemma conflict_sym a b : slot_conflict a b -> slot_conflict b a.
Proof. intros (i & s & s' & A & B & D). exists i, s', s. auto. Qed.
Lemma merge_comm a b c : merge a b = Ok c -> merge b a = Ok c.
Proof.
  rewrite !merge_ok. intros (P & Q & R & S). split; [apply same_sym, P|]. split; [intros X; apply Q, conflict_sym, X|]. split; [exact (same_trans _ _ _ (same_sym _ _ P) R)|].
  intros i s. rewrite S. tauto.
Qed.
Lemma slot_fun a i s s' : slot_sig a i s -> slot_sig a i s' -> s = s'.
Proof. intros (e & E & F) (e' & E' & F'). congruence. Qed.
Lemma merge_same a : merge a a = Ok a.
Proof.
  apply merge_ok. split; [repeat split|]. split; [|split; [repeat split|tauto]]. intros (i & s & s' & A & B & D). apply D. exact (slot_fun _ _ _ _ A B).
Qed.
(** Three at once. *)
Definition three a b c d : Prop :=
  same_preimage a b /\ same_preimage a c /\ ~ slot_conflict a b /\ ~ slot_conflict a c /\ ~ slot_conflict b c /\
  same_preimage a d /\ forall i s, slot_sig d i s <-> slot_sig a i s \/ slot_sig b i s \/ slot_sig c i s.
Lemma union_exists a b : same_preimage a b -> ~ slot_conflict a b -> exists c, merge a b = Ok c.
Proof. intros P Q. destruct (merge_lemma a b) as (_ & X & _). apply X. auto. Qed.
Lemma left_three a b c d : (exists ab, merge a b = Ok ab /\ merge ab c = Ok d) <-> three a b c d.
Proof.
  split.
  - intros (ab & E & F). apply merge_ok in E as (P & Q & R & S). apply merge_ok in F as (P' & Q' & R' & S'). unfold three.
    split; [exact P|]. split; [exact (same_trans _ _ _ R P')|]. split; [exact Q|]. split; [|split; [|split; [exact (same_trans _ _ _ R R')|]]].
    + intros (i & s & s' & A & B & D). apply Q'. exists i, s, s'. rewrite S. auto.
    + intros (i & s & s' & A & B & D). apply Q'. exists i, s, s'. rewrite S. auto.
    + intros i s. rewrite S', S. tauto.
  - intros (P1 & P2 & Q1 & Q2 & Q3 & R & S). destruct (union_exists a b P1 Q1) as [ab E]. exists ab. split; [exact E|]. apply merge_ok in E as (_ & _ & R' & S').
    apply merge_ok. split; [exact (same_trans _ _ _ (same_sym _ _ R') P2)|]. split; [|split; [exact (same_trans _ _ _ (same_sym _ _ R') R)|]].
    + intros (i & s & s' & A & B & D). apply S' in A as [A|A]; [apply Q2|apply Q3]; exists i, s, s'; auto.
    + intros i s. rewrite S, S'. tauto.
Qed.
Lemma right_three a b c d : (exists bc, merge b c = Ok bc /\ merge a bc = Ok d) <-> three a b c d.
Proof.
  split.
  - intros (bc & E & F). apply merge_ok in E as (P & Q & R & S). apply merge_ok in F as (P' & Q' & R' & S'). unfold three.
    assert (same_preimage a b) as AB by exact (same_trans _ _ _ P' (same_sym _ _ R)).
    split; [exact AB|]. split; [exact (same_trans _ _ _ AB P)|]. split; [|split; [|split; [exact Q|split; [exact R'|]]]].
    + intros (i & s & s' & A & B & D). apply Q'. exists i, s, s'. rewrite S. auto.
    + intros (i & s & s' & A & B & D). apply Q'. exists i, s, s'. rewrite S. auto.
    + intros i s. rewrite S', S. tauto.
  - intros (P1 & P2 & Q1 & Q2 & Q3 & R & S). destruct (union_exists b c (same_trans _ _ _ (same_sym _ _ P1) P2) Q3) as [bc E]. exists bc. split; [exact E|]. apply merge_ok in E as (_ & _ & R' & S').
    apply merge_ok. split; [exact (same_trans _ _ _ P1 R')|]. split; [|split; [exact R|]].
    + intros (i & s & s' & A & B & D). apply S' in B as [B|B]; [apply Q1|apply Q2]; exists i, s, s'; auto.
    + intros i s. rewrite S, S'. tauto.
Qed.
Lemma merge_groups a b c d : (exists ab, merge a b = Ok ab /\ merge ab c = Ok d) <-> (exists bc, merge b c = Ok bc /\ merge a bc = Ok d).
Proof. rewrite left_three, right_three. reflexivity. Qed.
Lemma signed_dec u i : {s | slot_sig u i s} + {unsigned u i}.
Proof.
  destruct (nth_error (subsigs u) i) as [[k [s|]]|] eqn:E.
  - left. exists s. exists (mkSubsig k (Some s)). auto.
  - right. intros s (e & E' & F). rewrite E in E'. injection E' as <-. discriminate.
  - right. intros s (e & E' & F). congruence.
Qed.
Lemma latest_any us i : (forall u v, In u us -> In v us -> ~ slot_conflict u v) -> forall s, latest us i s <-> exists u, In u us /\ slot_sig u i s.
Proof.
  intros NC s. split.
  - intros (x & u & y & -> & S & _). exists u. split; [apply in_elt|exact S].
  - intros (u & I' & S). assert (forall l, (exists v, In v l /\ exists s', slot_sig v i s') -> exists s', latest l i s') as Ex.
    { induction l as [|w l IH]; intros (v & V & s' & S'); [destruct V|].
      destruct (Exists_dec (fun v => exists s', slot_sig v i s') l) as [D|D].
      - intros x. destruct (signed_dec x i) as [[s0 S0]|U]; [left; exists s0; exact S0|right; intros (s0 & S0); exact (U s0 S0)].
      - apply Exists_exists in D as (v' & V' & S0). destruct (IH (ex_intro _ v' (conj V' S0))) as (s1 & x & u1 & y & E & A & B). exists s1, (w :: x), u1, y. split; [cbn; rewrite E; reflexivity|auto].
      - exists s', [], w, l. assert (v = w) as -> by (destruct V as [->|V]; [reflexivity|]; exfalso; apply D, Exists_exists; exists v; split; [exact V|exists s'; exact S']).
        split; [reflexivity|]. split; [exact S'|]. apply Forall_forall. intros z Z s0 S0. apply D, Exists_exists. exists z. split; [exact Z|exists s0; exact S0]. }
    destruct (Ex us (ex_intro _ u (conj I' (ex_intro _ s S)))) as (s' & L). destruct (L) as (x & u' & y & E & S' & _).
    assert (s' = s) as <-; [|exact L]. destruct (bytes_eq_dec s' s) as [|D]; [assumption|]. exfalso. apply (NC u' u); [rewrite E; apply in_elt|exact I'|]. exists i, s', s. auto.
Qed.
Lemma assemble_order us vs m : assemble us = Ok m -> (forall u v, In u us -> In v us -> ~ slot_conflict u v) ->
  (forall u, In u us <-> In u vs) -> (2 <= length vs)%nat -> assemble vs = Ok m.
Proof.
  intros E NC Same L. destruct (assemble_lemma us) as (_ & X & Y). destruct (assemble_lemma vs) as (_ & X' & Y').
  destruct (proj1 X (ex_intro _ m E)) as [_ P]. destruct (proj2 X') as [m' E'].
  { split; [exact L|]. intros u v A B. apply P; apply Same; assumption. }
  rewrite E'. f_equal. destruct (Y m E) as [A B]. destruct (Y' m' E') as [A' B'].
  assert (exists u, In u vs) as [u U] by (destruct vs as [|u vs]; [cbn in L; lia|exists u; left; reflexivity]).
  apply multisig_ext; [exact (same_trans _ _ _ (same_sym _ _ (A' u U)) (A u (proj2 (Same u) U)))|]. intros i s. rewrite B, B', !latest_any; [|exact NC|intros a b Ha Hb; apply NC; apply Same; assumption].
  split; intros (w & W & S); exists w; (split; [apply Same, W|exact S]).
Qed.
Lemma assemble_merge a b c : merge a b = Ok c -> assemble [a; b] = Ok c.
Proof.
  intros E. apply merge_ok in E as (P & Q & R & S). destruct (assemble_lemma [a; b]) as (_ & X & Y).
  assert (forall u v, In u [a; b] -> In v [a; b] -> same_preimage u v) as Pre.
  { intros u v [<-|[<-|[]]] [<-|[<-|[]]]; try exact P; try (apply same_sym; exact P); repeat split. }
  destruct (proj2 X) as [m E]; [split; [cbn; lia|exact Pre]|]. rewrite E. f_equal. destruct (Y m E) as [A B].
  apply multisig_ext; [exact (same_trans _ _ _ (same_sym _ _ (A a (or_introl eq_refl))) R)|]. intros i s. rewrite B, latest_any, S.
  - split; [intros (u & [<-|[<-|[]]] & U); auto|]. intros [U|U]; [exists a|exists b]; (split; [cbn; tauto|exact U]).
  - intros u v [<-|[<-|[]]] [<-|[<-|[]]]; try exact Q; try (intros C; apply Q, conflict_sym, C); intros (j & t & t' & T & T' & D); apply D; exact (slot_fun _ _ _ _ T T').
Qed.
