(** Property C160: Merkle proofs for roots of unknown origin. *)
From Coq Require Import Permutation.
From Verif Require Import Base BaseFacts Toy MerkleArrayModel MerkleArraySpec AnyRootSpec AnyRootProofs.

(** C160, partial.  Whatever the root is, two accepted proofs with which the verifier climbs the same number of levels
    agree about the positions both are about, or two strings hashed collide.  Missing: different numbers of levels. *)
Theorem c160_same_height_partial :
  forall (H : bytes -> bytes), hash32 H ->
  forall r (claims claims' nodes nodes' : list (N * bytes)) (proof proof' : list bytes),
  NoDup (map fst claims) -> NoDup (map fst claims') ->
  Forall (fun h => length h = 32) proof -> Forall (fun h => length h = 32) proof' ->
  Permutation nodes (map (fun e => (fst e, H (snd e))) claims) -> sorted_by_position nodes ->
  Permutation nodes' (map (fun e => (fst e, H (snd e))) claims') -> sorted_by_position nodes' ->
  verify H r (map (fun e => (fst e, H (snd e))) claims) proof = Some (Ok tt) ->
  verify H r (map (fun e => (fst e, H (snd e))) claims') proof' = Some (Ok tt) ->
  levels_climbed H 65 nodes proof = levels_climbed H 65 nodes' proof' ->
  forall p d d', In (p, d) claims -> In (p, d') claims' ->
  d = d' \/
  collision_in H (map snd claims ++ climb_strings H 65 nodes proof) (map snd claims' ++ climb_strings H 65 nodes' proof').
Proof. exact same_height_lemma. Qed.
Print Assumptions c160_same_height_partial.

(** Proofs of the same length for the same positions are such proofs: they are about the same elements, and are the same
    proof, or two strings hashed collide. *)
Theorem c160_same_positions_partial :
  forall (H : bytes -> bytes), hash32 H ->
  forall r (claims claims' nodes nodes' : list (N * bytes)) (proof proof' : list bytes),
  NoDup (map fst claims) -> NoDup (map fst claims') ->
  Forall (fun h => length h = 32) proof -> Forall (fun h => length h = 32) proof' ->
  Permutation nodes (map (fun e => (fst e, H (snd e))) claims) -> sorted_by_position nodes ->
  Permutation nodes' (map (fun e => (fst e, H (snd e))) claims') -> sorted_by_position nodes' ->
  verify H r (map (fun e => (fst e, H (snd e))) claims) proof = Some (Ok tt) ->
  verify H r (map (fun e => (fst e, H (snd e))) claims') proof' = Some (Ok tt) ->
  Permutation (map fst claims) (map fst claims') -> length proof = length proof' ->
  Permutation claims claims' /\ proof = proof' \/
  collision_in H (map snd claims ++ climb_strings H 65 nodes proof) (map snd claims' ++ climb_strings H 65 nodes' proof').
Proof. exact any_root_lemma. Qed.
Print Assumptions c160_same_positions_partial.

(** The same of a single position. *)
Theorem c160_one_position_partial :
  forall (H : bytes -> bytes), hash32 H ->
  forall r p (d d' : bytes) (proof proof' : list bytes),
  Forall (fun h => length h = 32) proof -> Forall (fun h => length h = 32) proof' ->
  verify H r [(p, H d)] proof = Some (Ok tt) -> verify H r [(p, H d')] proof' = Some (Ok tt) ->
  length proof = length proof' ->
  d = d' /\ proof = proof' \/
  collision_in H (d :: climb_strings H 65 [(p, H d)] proof) (d' :: climb_strings H 65 [(p, H d')] proof').
Proof. exact one_position_lemma. Qed.
Print Assumptions c160_one_position_partial.

(** Neither root nor proof says how many levels there are.  So for every hash function and any two pieces of data there
    is a root for which both are accepted at position 1, one with a proof of one hash and one with a proof of two. *)
Theorem c160_any_root_refuted :
  forall (H : bytes -> bytes), hash32 H -> forall d d',
  exists r proof proof',
    Forall (fun h => length h = 32) (r :: proof ++ proof') /\
    verify H r [(1%N, H d)] proof = Some (Ok tt) /\ verify H r [(1%N, H d')] proof' = Some (Ok tt).
Proof.
  intros H Hl d d'.
  exists (H (node_string (H (node_string zero32 (H d'))) (H d))), [H (node_string zero32 (H d'))], [zero32; H d].
  split; [|exact (two_heights H zero32 d d')].
  repeat constructor; try apply Hl.
Qed.
Print Assumptions c160_any_root_refuted.

(** ** Concrete cases *)

(** The refutation with the toy hash: two different elements at position 1, and no string hashes like another. *)
Example c160_case :
  let H := toy_hash in
  let r := H (node_string (H (node_string zero32 (H (str "TLb")))) (H (str "TLa"))) in
  verify H r [(1%N, H (str "TLa"))] [H (node_string zero32 (H (str "TLb")))] = Some (Ok tt) /\
  verify H r [(1%N, H (str "TLb"))] [zero32; H (str "TLa")] = Some (Ok tt) /\
  verify H r [(1%N, H (str "TLc"))] [H (node_string zero32 (H (str "TLb")))] = Some (Err tt) /\
  verify H r [(1%N, H (str "TLa")); (2%N, H (str "TLb"))] [zero32] = Some (Err tt).
Proof. split; [vm_compute; reflexivity|]. split; [vm_compute; reflexivity|]. split; vm_compute; reflexivity. Qed.

(** Proofs for different sets of positions of an array of three elements, both with two levels. *)
Example c160_height_case :
  let H := toy_hash in
  exists t r p1 p2,
    from_array H [str "TLa"; str "TLb"; str "TLc"] = Some t /\ root t = Ok r /\
    prove H t [0; 1]%N = Ok p1 /\ prove H t [1; 2]%N = Ok p2 /\
    let n1 := [(0%N, H (str "TLa")); (1%N, H (str "TLb"))] in let n2 := [(1%N, H (str "TLb")); (2%N, H (str "TLc"))] in
    verify H r n1 p1 = Some (Ok tt) /\ verify H r n2 p2 = Some (Ok tt) /\ length p1 <> length p2 /\
    levels_climbed H 65 n1 p1 = 2 /\ levels_climbed H 65 n2 p2 = 2.
Proof.
  do 4 eexists. split; [vm_compute; reflexivity|]. split; [vm_compute; reflexivity|].
  split; [vm_compute; reflexivity|]. split; [vm_compute; reflexivity|]. cbv zeta.
  split; [vm_compute; reflexivity|]. split; [vm_compute; reflexivity|]. split; [vm_compute; discriminate|].
  split; vm_compute; reflexivity.
Qed.
