(** What it means for coordinates to be those of a point of edwards25519. *)
From Verif Require Import Base Digits OtsModel VrfModel CurveModel.
Local Open Scope Z_scope.

Definition q : Z := 2 ^ 255 - 19.
(** Extended coordinates (X : Y : Z : T) of the point (X/Z, Y/Z) of the curve -x^2 + y^2 = 1 - (121665/121666) x^2 y^2,
    with T = XY/Z, all modulo 2^255 - 19. *)
Definition valid (Q : point) : Prop :=
  (0 <= px Q < q /\ 0 <= py Q < q /\ 0 <= pz Q < q /\ 0 <= p_t Q < q) /\ pz Q <> 0 /\
  (px Q * py Q) mod q = (pz Q * p_t Q) mod q /\
  (121666 * ((py Q * py Q - px Q * px Q) * (pz Q * pz Q))) mod q =
  (121666 * (pz Q * pz Q * (pz Q * pz Q)) - 121665 * (px Q * px Q * (py Q * py Q))) mod q.
(** Coordinates of the same point *)
Definition same (Q Q' : point) : Prop :=
  (px Q * pz Q') mod q = (px Q' * pz Q) mod q /\ (py Q * pz Q') mod q = (py Q' * pz Q) mod q.

(** As [VrfSpec.lucky], with points compared by their coordinates: only one challenge could have been answered. *)
Definition answered (y hash_point gamma : point) (c s : N) : point * point :=
  (@psub edwards25519 (@smul edwards25519 s base_point) (@smul edwards25519 c y),
   @psub edwards25519 (@smul edwards25519 s hash_point) (@smul edwards25519 c gamma)).
Definition lucky_hit (pk data proof : bytes) : Prop :=
  exists y gamma c s,
    edwards_decompress pk = Some y /\ decode edwards25519 proof = Some (gamma, c, s) /\
    forall c' s', (c' < base_order_25519)%N -> (s' < base_order_25519)%N ->
      let h := hash_to_curve edwards25519 pk data in
      same (fst (answered y h gamma c' s')) (fst (answered y h gamma c s)) ->
      same (snd (answered y h gamma c' s')) (snd (answered y h gamma c s)) -> c' = c.

(** ** Signatures *)
(** One of the three signatures was made with a nonce that is zero modulo the order of the base point. *)
Definition zero_nonce (o : ots) : Prop :=
  exists seed msg, ed_nonce seed msg = 0%N /\
    (o_sig o = ed_sign seed msg \/ o_pk1_sig o = ed_sign seed msg \/ o_pk2_sig o = ed_sign seed msg).
