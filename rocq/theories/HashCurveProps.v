(** Property C143: hashing to the curve. *)
From Verif Require Import Base Digits VrfModel CurveModel Curve25519Spec HashCurveProofs.
Local Open Scope Z_scope.

(** The coordinate computed from a number is one of the Montgomery curve v^2 = u^3 + 486662 u^2 + u. *)
Theorem c143_on_montgomery :
  forall r, 0 <= r < q -> let u := elligator_encode r in
  0 <= u < q /\ exists v, (v * v) mod q = (u * u * u + 486662 * (u * u) + u) mod q.
Proof. exact montgomery_on. Qed.
Print Assumptions c143_on_montgomery.

(** Every string has a point: with r its first 255 bits modulo 2^255 - 19 and u the coordinate computed from r, it
    is 8 times the point with y = (u - 1) / (u + 1) whose x has the sign in bit 256. *)
Theorem c143_defined :
  forall s, let n := Z.of_N (le_num (firstn 32 s)) in let r := n mod 2 ^ 255 mod q in let u := elligator_encode r in
  exists P, valid P /\ pz P = 1 /\ (py P * (u + 1)) mod q = (u - 1) mod q /\ (px P = 0 \/ Z.odd (px P) = (2 ^ 255 <=? n)) /\
  elligator_25519 s = edwards_mul 8 P.
Proof. exact hashed_point. Qed.
Print Assumptions c143_defined.

(** The step that could fail never does. *)
Theorem c143_no_failure :
  forall r sign, 0 <= r < q -> exists P, to_edwards (elligator_encode r) sign = Some P.
Proof. exact always_some. Qed.
Print Assumptions c143_no_failure.

(** The point is a multiple of the base point's kind: its order divides the prime order. *)
Theorem c143_prime_order :
  forall s, valid (elligator_25519 s) /\ same (edwards_mul (2 ^ 252 + 27742317777372353535851937790883648493) (elligator_25519 s)) identity.
Proof. exact hashed_order. Qed.
Print Assumptions c143_prime_order.

(** Four numbers at most have the same coordinate: r and r' have it exactly if r' = r, -r, 1/(2r) or -1/(2r). *)
Theorem c143_same_coordinate :
  forall r r', 0 <= r < q -> 0 <= r' < q ->
  (elligator_encode r = elligator_encode r' <->
   (r * r) mod q = (r' * r') mod q \/ (4 * (r * r) * (r' * r')) mod q = 1 mod q).
Proof. exact fibres. Qed.
Print Assumptions c143_same_coordinate.

(** 2 and 1/4 have the same coordinate, 1 another. *)
Example c143_case :
  (4 * (2 * 2) * (finv 4 * finv 4)) mod q = 1 mod q /\ finv 4 <> 2 /\ finv 4 <> fneg 2 /\
  elligator_encode 2 = elligator_encode (finv 4) /\ elligator_encode 1 <> elligator_encode 2 /\
  (exists P, to_edwards (elligator_encode 1) true = Some P /\ px P <> 0 /\ Z.odd (px P) = true).
Proof.
  split; [vm_compute; reflexivity|]. split; [vm_compute; discriminate|]. split; [vm_compute; discriminate|]. split; [vm_compute; reflexivity|].
  split; [vm_compute; discriminate|].
  destruct (to_edwards (elligator_encode 1) true) as [P|] eqn:E; [|vm_compute in E; discriminate E].
  exists P. split; [reflexivity|]. vm_compute in E. injection E as <-. split; [discriminate|reflexivity].
Qed.
