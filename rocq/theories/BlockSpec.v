(** Vocabulary for blocks. *)
From Verif Require Import Base BlockModel TxCodecSpec UpgradeSpec MerkleArraySpec.
Local Open Scope N_scope.

(** ** C47 *)
(** The genesis fields a transaction may have in a block with this header. *)
Definition genesis_fields_ok (p : params) (h : header) (t : transaction) : Prop :=
  support_signed_tx_in_block p = true ->
  (tx_genesis_id (tx_head t) = [] \/ tx_genesis_id (tx_head t) = genesis_id h) /\
  (if require_genesis_hash p then tx_genesis_hash (tx_head t) <> zero32 /\ tx_genesis_hash (tx_head t) = genesis_hash h
   else tx_genesis_hash (tx_head t) = zero32 \/ tx_genesis_hash (tx_head t) = genesis_hash h).

(** ** C48 *)
(** A group: one transaction without group, or transactions with one group identifier. *)
Definition is_group {A} (group_of : A -> bytes) (g : list A) : Prop :=
  (exists x, g = [x] /\ group_of x = zero32) \/
  (g <> [] /\ exists i, i <> zero32 /\ Forall (fun x => group_of x = i) g).
(** Neighbouring groups do not belong together. *)
Fixpoint apart {A} (group_of : A -> bytes) (gs : list (list A)) : Prop :=
  match gs with
  | g :: ((g' :: _) as r) =>
      (forall x y, In x g -> In y g' -> group_of x = group_of y -> group_of x = zero32) /\ apart group_of r
  | _ => True
  end.
Definition grouping {A} (group_of : A -> bytes) (l : list A) (gs : list (list A)) : Prop :=
  concat gs = l /\ Forall (is_group group_of) gs /\ apart group_of gs.

(** ** C55 *)
(** The upgrade state that follows from a state and a vote, protocol [p] being in force. *)
Definition proposal_made (p : params) (s : upgrade_state) (r : N) (v : upgrade_vote) (s1 : upgrade_state) : Prop :=
  (propose v = current s /\ delay v = 0 /\ s1 = s) \/
  (propose v <> current s /\ next_protocol s = Some (current s) /\
   min_upgrade_wait_rounds p <= delay v /\ delay v <= max_upgrade_wait_rounds p /\
   s1 = mkUpgrade (current s) (Some (propose v)) 0 (r + upgrade_vote_rounds p) (r + upgrade_vote_rounds p + wait p v)).
Definition vote_counted (s1 : upgrade_state) (r : N) (v : upgrade_vote) (s2 : upgrade_state) : Prop :=
  (approve v = false /\ s2 = s1) \/
  (approve v = true /\ next_protocol s1 <> Some (current s1) /\ r < vote_before s1 /\
   s2 = mkUpgrade (current s1) (next_protocol s1) (approvals s1 + 1) (vote_before s1) (switch_on s1)).
Definition failure_cleared (p : params) (s2 : upgrade_state) (r : N) (s3 : upgrade_state) : Prop :=
  ((r = vote_before s2 /\ approvals s2 < upgrade_threshold p) /\ s3 = mkUpgrade (current s2) None 0 0 0) \/
  (~ (r = vote_before s2 /\ approvals s2 < upgrade_threshold p) /\ s3 = s2).
Definition switched (s3 : upgrade_state) (r : N) (s4 : upgrade_state) : Prop :=
  (r = switch_on s3 /\ exists n, next_protocol s3 = Some n /\ s4 = mkUpgrade n None 0 0 0) \/ (r <> switch_on s3 /\ s4 = s3).
Definition upgrade_follows (p : params) (s : upgrade_state) (r : N) (v : upgrade_vote) (s' : upgrade_state) : Prop :=
  exists s1 s2 s3, proposal_made p s r v s1 /\ vote_counted s1 r v s2 /\ failure_cleared p s2 r s3 /\ switched s3 r s'.

Definition time_ok (p : params) (prev_time time : N) : Prop :=
  prev_time <> 0 -> prev_time <= time /\ time <= prev_time + max_timestamp_increment p.
Definition genesis_ok (p : params) (prev h : header) : Prop :=
  genesis_id h <> [] /\ (genesis_id prev <> [] -> genesis_id h = genesis_id prev) /\
  (if support_genesis_hash p
   then genesis_hash h <> zero32 /\ (genesis_hash prev <> zero32 -> genesis_hash h = genesis_hash prev)
   else genesis_hash h = zero32).
(** Header [h] is a valid successor of [prev]. *)
Definition successor (table : list (version * params)) (H : bytes -> bytes) (prev h : header) : Prop :=
  exists p q, lookup (current (upgrade h)) table = Some p /\ lookup (current (upgrade prev)) table = Some q /\
    round h = round prev + 1 /\ branch h = H (str "BH" ++ encode (header_value prev)) /\
    upgrade_follows q (upgrade prev) (round h) (vote h) (upgrade h) /\
    time_ok p (timestamp prev) (timestamp h) /\ genesis_ok p prev h.
(** No 64-bit overflow in the successor's numbers. *)
Definition successor_fits (table : list (version * params)) (prev h : header) : Prop :=
  rounds_fit table (round prev + 1) /\ round prev + 1 < 2 ^ 64 /\ approvals (upgrade prev) + 1 < 2 ^ 64 /\
  forall v p, lookup v table = Some p -> timestamp prev + max_timestamp_increment p < 2 ^ 64.

(** ** C56 *)
Definition header_fits (h : header) : Prop :=
  n64 (round h) /\ short (branch h) /\ short (seed h) /\ short (tx_root h) /\ n64 (timestamp h) /\ short (genesis_id h) /\
  short (genesis_hash h) /\ short (rs_fee_sink (rewards h)) /\ short (rs_rewards_pool (rewards h)) /\ n64 (level (rewards h)) /\
  n64 (rate (rewards h)) /\ n64 (residue (rewards h)) /\ n64 (recalculation_round (rewards h)) /\ n64 (delay (vote h)) /\
  n64 (tx_counter h) /\ (length (compact_certs h) <= 1)%nat /\
  Forall (fun e => short (voters (snd e)) /\ n64 (voters_total (snd e)) /\ n64 (cert_next_round (snd e))) (compact_certs h).
(** Everything in the header but the upgrade state. *)
Definition same_but_upgrade (h h' : header) : Prop := h' = set_upgrade h (upgrade h').

(** ** C57 *)
(** Equal, or with the two genesis flags exchanged. *)
Definition flags_exchanged (s s' : signed_tx_in_block) : Prop :=
  stib_tx s = stib_tx s' /\ has_genesis_id s <> has_genesis_hash s /\
  has_genesis_id s' = has_genesis_hash s /\ has_genesis_hash s' = has_genesis_id s.
Definition alike (s s' : signed_tx_in_block) : Prop := s = s' \/ flags_exchanged s s'.
(** The strings hashed for the commitment of a block, decoded transactions [l] given. *)
Definition leaf_inputs (l : list signed_tx_with_ad) (p : list signed_tx_in_block) : list bytes :=
  flat_map (fun x => [tx_hash_rep (stx_tx (fst (fst x))); stib_hash_rep (snd x)]) (combine l p).
Definition commit_strings (table : list (version * params)) (H : bytes -> bytes) (b : block) : list bytes :=
  payset_rep (payset b) ::
  match decode_payset_flat table b with
  | Ok l => leaf_inputs l (payset b) ++
            tree_strings H (map (fun x => str "TL" ++ H (tx_hash_rep (stx_tx (fst (fst x)))) ++ H (stib_hash_rep (snd x))) (combine l (payset b)))
  | _ => []
  end.
Definition payset_fits (b : block) : Prop := short (payset b) /\ Forall stib_fits (payset b).
(** Strings and lists shorter than 2^32, also after decoding. *)
Definition block_fits (table : list (version * params)) (b : block) : Prop :=
  payset_fits b /\ forall l, decode_payset_flat table b = Ok l -> Forall (fun t => tx_fits (stx_tx (fst t))) l.
