(** C165. *)
From Verif Require Import Base BaseFacts TrieModel TrieSpec TrieProofs TrieProps TrieNodeSizeModel TrieNodeSizeProofs Toy.

(** After any history with keys of at most 181 bytes no stored node is bigger than documented. *)
Theorem c165_documented_size :
  forall (H : bytes -> bytes), hash32 H ->
  forall (m : mode) (n : nat) (ops : list op) xs t id c,
  Forall (key_upto n) ops -> small_history n ops -> n <= 181 ->
  run H m ops new_trie = Ok (xs, t) -> storage (tstore t) id = Some c -> (N.of_nat (length c) <= MAX_NODE_SERIALIZED_SIZE)%N.
Proof.
  intros H H32 m n ops xs t id c Hk Hs Hn E Hst.
  pose proof (stored_size H H32 m n ops xs t id c Hk Hs E ltac:(lia) Hst). unfold MAX_NODE_SERIALIZED_SIZE. lia.
Qed.
Print Assumptions c165_documented_size.
(** With longer keys, the key and 2819 bytes. *)
Theorem c165_longer_keys :
  forall (H : bytes -> bytes), hash32 H ->
  forall (m : mode) (n : nat) (ops : list op) xs t id c,
  Forall (key_upto n) ops -> small_history n ops -> run H m ops new_trie = Ok (xs, t) ->
  (N.of_nat n < 16384)%N -> storage (tstore t) id = Some c -> length c <= 2819 + Nat.max 32 n.
Proof. exact stored_size. Qed.
Print Assumptions c165_longer_keys.

(** A node with twenty children, before and after hashing, and its leaves; and a key that is too long. *)
Definition wide_history : list op := map (fun i => Add [b8 (N.of_nat (12 * i)); x01; x02; x03]) (seq 0 20).
Definition sizes (t : trie) : list nat :=
  flat_map (fun id => match storage (tstore t) id with Some c => [length c] | None => [] end) (map N.of_nat (seq 0 60)).
Example c165_case :
  Forall (key_upto 4) wide_history /\ small_history 4 wide_history /\
  look wide_history sizes = Some (repeat 5 20 ++ [42]) /\
  look (wide_history ++ [RootHash]) sizes = Some (repeat 5 20 ++ [74]) /\
  look [Add (repeat x01 2998)] (fun t => Nat.eqb (length (sizes t)) 1) = Some true /\
  look [Add (repeat x01 2998)] (fun t => (MAX_NODE_SERIALIZED_SIZE <? N.of_nat (list_sum (sizes t)))%N) = Some true.
Proof.
  split; [repeat constructor|]. split; [split; vm_compute; reflexivity|]. repeat split; vm_compute; reflexivity.
Qed.
