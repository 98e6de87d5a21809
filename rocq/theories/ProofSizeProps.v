(** Property C152: Merkle proofs are as short as they can be. *)
From Verif Require Import Base Toy MerkleArrayModel ProofSizeSpec ProofSizeProofs.
Local Open Scope N_scope.

(** C152.  A proof has exactly one hash for every node on the way to the root whose neighbour is not
    on the way. *)
Theorem c152_exact :
  forall H xs t idxs proof, from_array H xs = Some t -> prove H t idxs = Ok proof ->
  length proof = missing (tree_height (length xs)) idxs.
Proof. exact prove_size. Qed.
Print Assumptions c152_exact.

(** So the proof for one position has as many hashes as the tree has levels above the leaves. *)
Theorem c152_one :
  forall H xs t p proof, from_array H xs = Some t -> prove H t [p] = Ok proof ->
  N.of_nat (length proof) = N.log2_up (N.of_nat (length xs)).
Proof.
  exact (fun H xs t p proof T P => eq_trans (f_equal N.of_nat (eq_trans (prove_size H xs t [p] proof T P) (missing_one _ p))) (N2Nat.id _)).
Qed.
Print Assumptions c152_one.

(** For many positions, whatever their order and repetitions, at most so many for each. *)
Theorem c152_many :
  forall H xs t idxs proof, from_array H xs = Some t -> prove H t idxs = Ok proof ->
  (length proof <= length (nodup N.eq_dec idxs) * N.to_nat (N.log2_up (N.of_nat (length xs))))%nat.
Proof. exact (fun H xs t idxs proof T P => eq_ind_r (fun n => (n <= _)%nat) (missing_le _ idxs) (prove_size H xs t idxs proof T P)). Qed.
Print Assumptions c152_many.

(** For all positions of a full tree nothing is needed. *)
Theorem c152_all :
  forall H xs t idxs proof k, length xs = (2 ^ k)%nat -> (forall p, p < 2 ^ N.of_nat k <-> In p idxs) ->
  from_array H xs = Some t -> prove H t idxs = Ok proof -> proof = [].
Proof.
  exact (fun H xs t idxs proof k L A T P => proj1 (length_zero_iff_nil proof)
    (eq_trans (prove_size H xs t idxs proof T P) (eq_trans (f_equal (fun n => missing n idxs) (eq_trans (f_equal tree_height L) (height_pow k))) (missing_all k idxs A)))).
Qed.
Print Assumptions c152_all.

(** Eleven elements, so four levels: one position needs four hashes; positions 2 and 3 share three; 0, 5
    and 10 need seven; and the last position needs four, too, although its neighbours are empty. *)
Definition eleven : list bytes := map (fun c => [c]) (str "abcdefghijk").
Definition proof_length (idxs : list N) : option nat :=
  match from_array toy_hash eleven with
  | Some t => match prove toy_hash t idxs with Ok p => Some (length p) | _ => None end
  | None => None
  end.
Example c152_case :
  proof_length [7] = Some 4%nat /\ proof_length [3; 2; 3] = Some 3%nat /\ proof_length [10; 0; 5] = Some 7%nat /\ proof_length [10] = Some 4%nat /\
  proof_length [0; 1; 2; 3; 4; 5; 6; 7; 8; 9; 10] = Some 2%nat /\ missing 4 [10; 0; 5] = 7%nat /\ tree_height 11 = 4%nat.
Proof. vm_compute. repeat split. Qed.
