(** Properties C01-C06 and C94: Merkle tree over an array. *)
From Coq Require Import Permutation.
From Verif Require Import Base MerkleArrayModel MerkleArraySpec MerkleArrayProofs Toy.

(** C01.  Building the tree, asking for a proof of any in-range positions and
    verifying it against the root with the hashes of the elements there succeeds. *)
Theorem c01_honest_proof_verifies :
  forall (H : bytes -> bytes) (xs : list bytes) (idxs : list N) (elems : list (N * bytes)),
  (N.of_nat (length xs) <= 2 ^ 64)%N ->
  Forall (fun p => p < N.of_nat (length xs))%N idxs ->
  NoDup (map fst elems) ->
  (forall p, In p (map fst elems) <-> In p idxs) ->
  (forall p h, In (p, h) elems -> exists x, nth_error xs (N.to_nat p) = Some x /\ h = H x) ->
  exists t r proof,
    from_array H xs = Some t /\ root t = Ok r /\
    prove H t idxs = Ok proof /\ verify H r elems proof = Some (Ok tt).
Proof. exact complete_full_lemma. Qed.
Print Assumptions c01_honest_proof_verifies.

Definition ex_array : list bytes := [str "TXa"; str "TXb"; str "TXc"; str "TXd"; str "TXe"].
Definition ex_claim (p : N) : N * bytes := (p, nth (N.to_nat p) ex_array []).

(** Five elements, positions 4, 0, 4, 1 requested: a proof of three hashes that verifies. *)
Example c01_case :
  exists t r proof, from_array toy_hash ex_array = Some t /\ root t = Ok r /\
    prove toy_hash t [4; 0; 4; 1]%N = Ok proof /\ length proof = 3 /\
    verify toy_hash r
      (map (fun e => (fst e, toy_hash (snd e))) [ex_claim 0; ex_claim 4; ex_claim 1]) proof
    = Some (Ok tt).
Proof. do 3 eexists. repeat split; vm_compute; reflexivity. Qed.

(** C02.  Whatever proof is accepted for claims "element [d] is at position [p]",
    every claim is true, or a collision (or zero preimage) is among the strings
    hashed while building and verifying. *)
Theorem c02_accepted_proof_is_true :
  forall (H : bytes -> bytes), hash32 H ->
  forall (xs : list bytes) t r (claims nodes : list (N * bytes)) (proof : list bytes),
  from_array H xs = Some t -> root t = Ok r ->
  Forall leaf_data xs ->
  Forall (fun e => leaf_data (snd e)) claims ->
  NoDup (map fst claims) ->
  Forall (fun h => length h = 32) proof ->
  Permutation nodes (map (fun e => (fst e, H (snd e))) claims) ->
  sorted_by_position nodes ->
  verify H r (map (fun e => (fst e, H (snd e))) claims) proof = Some (Ok tt) ->
  let S := tree_strings H xs ++ map snd claims ++ climb_strings H 65 nodes proof in
  (forall p d, In (p, d) claims -> nth_error xs (N.to_nat p) = Some d) \/
  collision_in H S S \/ zero_preimage_in H S.
Proof. exact verify_sound_lemma. Qed.
Print Assumptions c02_accepted_proof_is_true.

(** The premises are met by the run of [c01_case]; a forged element is refused. *)
Example c02_case :
  exists t r proof, from_array toy_hash ex_array = Some t /\ root t = Ok r /\
    prove toy_hash t [1; 4]%N = Ok proof /\
    verify toy_hash r
      (map (fun e => (fst e, toy_hash (snd e))) [ex_claim 1; ex_claim 4]) proof = Some (Ok tt) /\
    verify toy_hash r
      (map (fun e => (fst e, toy_hash (snd e))) [ex_claim 1; (4%N, str "TXd")]) proof
    = Some (Err tt) /\
    sorted_by_position (map (fun e => (fst e, toy_hash (snd e))) [ex_claim 1; ex_claim 4]) /\
    Forall leaf_data ex_array.
Proof.
  do 3 eexists. repeat split; try (vm_compute; reflexivity).
  - intros i j a b Ei Ej L. destruct i as [|[|i]], j as [|[|j]]; cbn [map nth_error] in Ei, Ej; try lia;
      try (destruct i; discriminate); try (destruct j; discriminate); try discriminate.
    apply (f_equal (option_map fst)) in Ei, Ej. cbn [option_map fst] in Ei, Ej. 
    assert (fst a = 1%N /\ fst b = 4%N) as [-> ->] by (unfold ex_claim in Ei, Ej; cbn [fst] in Ei, Ej; split; congruence). reflexivity.
  - repeat constructor; intros [s E]; discriminate.
Qed.

(** C03.  A position at or beyond the length makes the whole request fail. *)
Theorem c03_out_of_range_position_fails :
  forall (H : bytes -> bytes) (xs : list bytes) t (idxs : list N) (p : N),
  from_array H xs = Some t -> In p idxs -> (N.of_nat (length xs) <= p)%N ->
  prove H t idxs = Err tt.
Proof. exact prove_err_lemma. Qed.
Print Assumptions c03_out_of_range_position_fails.

Example c03_case :
  exists t, from_array toy_hash ex_array = Some t /\ prove toy_hash t [0; 5; 2]%N = Err tt /\
    (exists p, prove toy_hash t [0; 4; 2]%N = Ok p).
Proof. eexists. repeat split; [vm_compute; reflexivity..|]. eexists. vm_compute. reflexivity. Qed.

(** No request makes the prover panic. *)
Theorem c03_prove_never_panics :
  forall (H : bytes -> bytes) (xs : list bytes) t (idxs : list N),
  from_array H xs = Some t -> prove H t idxs <> Panic.
Proof. exact prove_total_lemma. Qed.
Print Assumptions c03_prove_never_panics.

(** C04.  Only the set of requested positions matters. *)
Theorem c04_proof_depends_on_set_only :
  forall (H : bytes -> bytes) (xs : list bytes) t (idxs idxs' : list N),
  from_array H xs = Some t -> (forall p, In p idxs <-> In p idxs') ->
  prove H t idxs = prove H t idxs'.
Proof. exact prove_same_set_lemma. Qed.
Print Assumptions c04_proof_depends_on_set_only.

Example c04_case :
  exists t proof, from_array toy_hash ex_array = Some t /\
    prove toy_hash t [3; 0; 3; 2]%N = Ok proof /\ prove toy_hash t [2; 3; 0]%N = Ok proof /\
    proof <> [].
Proof. do 2 eexists. repeat split; [vm_compute; reflexivity..|]. discriminate. Qed.

(** C05.  Two arrays of the same length with the same root are equal, or two strings
    hashed while building the two trees collide. *)
Theorem c05_root_commits_same_length :
  forall (H : bytes -> bytes), hash32 H ->
  forall (xs ys : list bytes) t u r,
  from_array H xs = Some t -> from_array H ys = Some u ->
  root t = Ok r -> root u = Ok r -> length xs = length ys ->
  xs = ys \/ collision_in H (tree_strings H xs) (tree_strings H ys).
Proof. exact binding_same_length_lemma. Qed.
Print Assumptions c05_root_commits_same_length.

(** For arrays of any lengths the elements must not look like interior nodes, and a
    preimage of the zero hash is the second way to fail. *)
Theorem c05_root_commits :
  forall (H : bytes -> bytes), hash32 H ->
  forall (xs ys : list bytes) t u r,
  from_array H xs = Some t -> from_array H ys = Some u ->
  root t = Ok r -> root u = Ok r ->
  Forall leaf_data xs -> Forall leaf_data ys ->
  xs = ys \/ collision_in H (tree_strings H xs) (tree_strings H ys) \/
  zero_preimage_in H (tree_strings H xs ++ tree_strings H ys).
Proof. exact binding_lemma. Qed.
Print Assumptions c05_root_commits.

(** The condition on the elements cannot be dropped: without it there are, for every
    hash function, two different arrays with the same root. *)
Theorem c05_separation_is_needed :
  forall (H : bytes -> bytes) (a b : bytes),
  exists t u r,
    from_array H [a; b] = Some t /\ from_array H [node_string (H a) (H b)] = Some u /\
    root t = Ok r /\ root u = Ok r.
Proof. exact no_separation_lemma. Qed.
Print Assumptions c05_separation_is_needed.

(** Two different arrays of length three with different roots. *)
Example c05_case :
  exists t u r s,
    from_array toy_hash [str "TXa"; str "TXb"; str "TXc"] = Some t /\
    from_array toy_hash [str "TXa"; str "TXc"; str "TXb"] = Some u /\
    root t = Ok r /\ root u = Ok s /\ bytes_eqb r s = false.
Proof. do 4 eexists. repeat split; vm_compute; reflexivity. Qed.

(** C06.  The verifier accepts or refuses: no panic, and the 65 level computations
    the model allows it are always enough. *)
Theorem c06_verify_gives_a_verdict :
  forall (H : bytes -> bytes) (r : bytes) (elems : list (N * bytes)) (proof : list bytes),
  verify H r elems proof = Some (Ok tt) \/ verify H r elems proof = Some (Err tt).
Proof. exact verify_total_lemma. Qed.
Print Assumptions c06_verify_gives_a_verdict.

(** A proof of seventy elements for one position is refused. *)
Example c06_case :
  verify toy_hash zero32 [(5%N, zero32)] (repeat zero32 70) = Some (Err tt).
Proof. vm_compute. reflexivity. Qed.

(** C94.  Whatever proof is accepted is the one the prover gives for these positions, or a
    collision (or zero preimage) is among the strings hashed. *)
Theorem c94_only_honest_proof :
  forall (H : bytes -> bytes), hash32 H ->
  forall (xs : list bytes) t r (claims nodes : list (N * bytes)) (proof : list bytes),
  from_array H xs = Some t -> root t = Ok r ->
  Forall leaf_data xs ->
  Forall (fun e => leaf_data (snd e)) claims ->
  NoDup (map fst claims) ->
  Forall (fun h => length h = 32) proof ->
  Permutation nodes (map (fun e => (fst e, H (snd e))) claims) ->
  sorted_by_position nodes ->
  verify H r (map (fun e => (fst e, H (snd e))) claims) proof = Some (Ok tt) ->
  let S := tree_strings H xs ++ map snd claims ++ climb_strings H 65 nodes proof in
  prove H t (map fst claims) = Ok proof \/
  collision_in H S S \/ zero_preimage_in H S.
Proof. exact verify_unique_lemma. Qed.
Print Assumptions c94_only_honest_proof.

(** The honest proof is accepted, a longer one and one for no positions are not. *)
Example c94_case :
  exists t r proof, from_array toy_hash ex_array = Some t /\ root t = Ok r /\
    prove toy_hash t [1; 4]%N = Ok proof /\
    let elems := map (fun e => (fst e, toy_hash (snd e))) [ex_claim 1; ex_claim 4] in
    verify toy_hash r elems proof = Some (Ok tt) /\
    verify toy_hash r elems (proof ++ [zero32]) = Some (Err tt) /\
    verify toy_hash r [] [zero32] = Some (Err tt) /\ verify toy_hash r [] [] = Some (Ok tt).
Proof. do 3 eexists. repeat split; vm_compute; reflexivity. Qed.
