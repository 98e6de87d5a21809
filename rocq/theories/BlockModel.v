(** Blocks and headers, src/data/bookkeeping/block.rs, with
    src/crypto/merklearray/merkle.rs:38-67 and src/data/bookkeeping/genesis.rs. *)
From Verif Require Import Base AddressModel.
From Verif Require Export UpgradeModel RewardsModel.
From Verif Require Export TxModel.
From Verif Require MerkleArrayModel.
Local Open Scope N_scope.

(** src/protocol/mod.rs:21-24 *)
Inductive cert_type := Basic.
(** block.rs:171-185 *)
Record cert_state := mkCertState { voters : bytes; voters_total : N; cert_next_round : N }.

(** block.rs:28-110.  [compact_certs], a hash map with a single possible key, is the list of its entries. *)
Record header := mkHeader {
  round : N;
  branch : bytes;
  seed : bytes;
  tx_root : bytes;
  timestamp : N;
  genesis_id : bytes;
  genesis_hash : bytes;
  rewards : rewards_state;
  upgrade : upgrade_state;
  vote : upgrade_vote;
  tx_counter : N;
  compact_certs : list (cert_type * cert_state)
}.
(** block.rs:21-25 *)
Record block := mkBlock { head : header; payset : list signed_tx_in_block }.

(** ** Hashing *)

(** The derived [Serialize] of the version writes the variant name. src/protocol/consensus.rs *)
Definition variant_name (v : version) : bytes :=
  match v with
  | DeprecatedV0 => str "DeprecatedV0" | DeprecatedV1 => str "DeprecatedV1" | DeprecatedV2 => str "DeprecatedV2"
  | DeprecatedV3 => str "DeprecatedV3" | DeprecatedV4 => str "DeprecatedV4" | DeprecatedV5 => str "DeprecatedV5"
  | DeprecatedV6 => str "DeprecatedV6" | V7 => str "V7" | V8 => str "V8" | V9 => str "V9" | V10 => str "V10"
  | V11 => str "V11" | V12 => str "V12" | V13 => str "V13" | V14 => str "V14" | V15 => str "V15" | V16 => str "V16"
  | V17 => str "V17" | V18 => str "V18" | V19 => str "V19" | V20 => str "V20" | V21 => str "V21" | V22 => str "V22"
  | V23 => str "V23" | V24 => str "V24" | V25 => str "V25" | V26 => str "V26" | V27 => str "V27" | V28 => str "V28"
  | V29 => str "V29" | V30 => str "V30" | Future => str "Future"
  end.
(** block.rs:113-136, positional *)
Definition rewards_value (r : rewards_state) : value :=
  VArr [VBin (rs_fee_sink r); VBin (rs_rewards_pool r); VNum (level r); VNum (rate r); VNum (residue r); VNum (recalculation_round r)].
(** block.rs:139-149 *)
Definition vote_value (v : upgrade_vote) : value := VArr [VStr (variant_name (propose v)); VNum (delay v); VBool (approve v)].
(** block.rs:171-185 *)
Definition cert_value (c : cert_state) : value := VArr [VBytes (voters c); VNum (voters_total c); VNum (cert_next_round c)].
(** block.rs:28-110: positional; [upgrade_state] is skipped (97) *)
Definition header_value (h : header) : value :=
  VArr [VNum (round h); VBytes (branch h); VBytes (seed h); VBytes (tx_root h); VNum (timestamp h); VStr (genesis_id h);
        VBytes (genesis_hash h); rewards_value (rewards h); vote_value (vote h); VNum (tx_counter h);
        VMap (map (fun e => (VStr (str "Basic"), cert_value (snd e))) (compact_certs h))].
(** block.rs:770-775 *)
Definition header_rep (h : header) : bytes := hash_rep BLOCK_HEADER (encode (header_value h)).

(** ** Transactions in a block *)

(** the assignments at block.rs:469,509 *)
Definition with_genesis_id (s : signed_tx) (i : bytes) : signed_tx :=
  let t := stx_tx s in let h := tx_head t in
  mkSigned (stx_sig s) (stx_msig s) (stx_lsig s)
    (mkTx (mkTxHeader (sender h) (fee h) (first_valid h) (last_valid h) (note h) i (tx_genesis_hash h) (group h) (lease h) (rekey_to h)) (fields t))
    (stx_auth s).
(** the assignments at block.rs:480-482,521 *)
Definition with_genesis_hash (s : signed_tx) (g : bytes) : signed_tx :=
  let t := stx_tx s in let h := tx_head t in
  mkSigned (stx_sig s) (stx_msig s) (stx_lsig s)
    (mkTx (mkTxHeader (sender h) (fee h) (first_valid h) (last_valid h) (note h) (tx_genesis_id h) g (group h) (lease h) (rekey_to h)) (fields t))
    (stx_auth s).
(** helper: [tx.header.genesis_id], block.rs:464-514 *)
Definition id_of (s : signed_tx) : bytes := tx_genesis_id (tx_head (stx_tx s)).
(** helper: [tx.header.genesis_hash], block.rs:472-484,519-533 *)
Definition hash_of (s : signed_tx) : bytes := tx_genesis_hash (tx_head (stx_tx s)).

Section Table.
(** [config::CONSENSUS], src/config/consensus.rs *)
Variable table : list (version * params).

(** [config::CONSENSUS.0\[&self.upgrade_state.current_protocol\]]; block.rs:204,279,358,459,497 *)
Definition params_of (h : header) : option params := lookup (current (upgrade h)) table.

(** block.rs:453-486 *)
Definition decode_signed_tx (h : header) (stb : signed_tx_in_block) : outcome invalid_block signed_tx_with_ad :=
  match params_of h with
  | None => Panic
  | Some proto =>
      let (st, ad) := stib_tx stb in
      if negb (support_signed_tx_in_block proto) then Ok (st, ad)
      else if negb (is_empty (id_of st)) then Err NonEmptyGenesisID
      else
        let s1 := if has_genesis_id stb then with_genesis_id st (genesis_id h) else st in
        if negb (is_zero (hash_of st)) then Err NonEmptyGenesisHash
        else if require_genesis_hash proto then
          if has_genesis_hash stb then Err RedundantHasGenesisHash
          else Ok (with_genesis_hash s1 (genesis_hash h), ad)
        else if has_genesis_hash stb then Ok (with_genesis_hash s1 (genesis_hash h), ad)
        else Ok (s1, ad)
  end.
(** block.rs:489-541 *)
Definition encode_signed_tx (h : header) (st : signed_tx) (ad : apply_data) : outcome invalid_block signed_tx_in_block :=
  match params_of h with
  | None => Panic
  | Some proto =>
      if negb (support_signed_tx_in_block proto) then Ok (mkStib (st, ad) false false)
      else
        let with_id :=
          if negb (is_empty (id_of st)) then
            if bytes_eqb (id_of st) (genesis_id h) then Ok (with_genesis_id st [], true) else Err GenesisIDMismatch
          else Ok (st, false) in
        (let? r := with_id in
         let (s1, has_id) := r in
         if negb (is_zero (hash_of s1)) then
           if bytes_eqb (hash_of s1) (genesis_hash h)
           then Ok (mkStib (with_genesis_hash s1 zero32, ad) has_id (negb (require_genesis_hash proto)))
           else Err UpgradeModel.GenesisHashMismatch
         else if require_genesis_hash proto then Err MissingGenesisHash
         else Ok (mkStib (s1, ad) has_id false))%outcome
  end.

(** The loop of block.rs:310-328 and 747-760: [last] is [last_group]. *)
Fixpoint groups_loop {A} (group_of : A -> bytes) (last : list A) (l : list A) : list (list A) :=
  match l with
  | [] => if is_empty last then [] else [last]
  | x :: r =>
      match last with
      | f :: _ =>
          if negb (bytes_eqb (group_of f) (group_of x)) || is_zero (group_of f)
          then last :: groups_loop group_of [x] r
          else groups_loop group_of (last ++ [x]) r
      | [] => groups_loop group_of [x] r
      end
  end.
(** helper: [tx.header.group], block.rs:744-761 *)
Definition tx_group (s : signed_tx) : bytes := group (tx_head (stx_tx s)).
(** block.rs:744-761 *)
Definition signed_txs_to_group (l : list signed_tx) : list (list signed_tx) := groups_loop tx_group [] l.
(** block.rs:764-768 *)
Definition signed_tx_groups_flatten (g : list (list signed_tx)) : list signed_tx := concat g.
(** block.rs:331-338 *)
Fixpoint decode_all (h : header) (l : list signed_tx_in_block) : outcome invalid_block (list signed_tx_with_ad) :=
  match l with
  | [] => Ok []
  | s :: r => (let? t := decode_signed_tx h s in let? ts := decode_all h r in Ok (t :: ts))%outcome
  end.
(** block.rs:331-338 *)
Definition decode_payset_flat (b : block) : outcome invalid_block (list signed_tx_with_ad) := decode_all (head b) (payset b).
(** block.rs:307-329; decoding and grouping do not depend on each other, the first error is the same *)
Definition decode_payset_groups (b : block) : outcome invalid_block (list (list signed_tx_with_ad)) :=
  (let? l := decode_all (head b) (payset b) in Ok (groups_loop (fun s => tx_group (fst s)) [] l))%outcome.

(** block.rs:432-450 *)
Definition next_version_info (m : mode) (h : header) : option (option version * N * bool) :=
  let u := upgrade h in
  if (vote_before u <=? round h) && (round h <? switch_on u) then Some (next_protocol u, switch_on u, true)
  else match add64 m (round h) 1 with Some r => Some (Some (current u), r, true) | None => None end.

Section Hash.
Variable H : bytes -> bytes.

(** block.rs:190-193 *)
Definition header_hash (h : header) : bytes := H (header_rep h).

(** merkle.rs:38-54: the bytes hashed for a leaf *)
Definition leaf_rep (t : signed_tx_with_ad) (s : signed_tx_in_block) : bytes :=
  hash_rep TX_MERKLE_LEAF (tx_id H (stx_tx (fst t)) ++ H (stib_hash_rep s)).
(** merkle.rs:38-54 for all transactions of a block *)
Fixpoint leaf_reps (h : header) (l : list signed_tx_in_block) : option (list bytes) :=
  match l with
  | [] => Some []
  | s :: r => match decode_signed_tx h s with
              | Ok t => match leaf_reps h r with Some ls => Some (leaf_rep t s :: ls) | None => None end
              | _ => None (* unwrap *)
              end
  end.
(** merkle.rs:38-67 with 70-77; [None] is a panic *)
Definition tx_merkle_root (b : block) : option bytes :=
  match leaf_reps (head b) (payset b) with
  | None => None
  | Some ls => match MerkleArrayModel.from_array H ls with
               | Some t => match MerkleArrayModel.root t with Ok r => Some r | _ => None end
               | None => None
               end
  end.
(** block.rs:278-288; an error never comes, [None] is a panic *)
Definition payset_commit_of (b : block) : option bytes :=
  match params_of (head b) with
  | None => None
  | Some p => match payset_commit p with
              | Flat => Some (commit_flat H (payset b))
              | Merkle => tx_merkle_root b
              | Unsupported => None
              end
  end.
(** block.rs:293-304 *)
Definition contents_match_header (b : block) : option bool :=
  match payset_commit_of b with Some c => Some (bytes_eqb c (tx_root (head b))) | None => None end.

(** helper: the header with another upgrade state, which block.rs:732-733 changes *)
Definition set_upgrade (h : header) (u : upgrade_state) : header :=
  mkHeader (round h) (branch h) (seed h) (tx_root h) (timestamp h) (genesis_id h) (genesis_hash h) (rewards h) u (vote h)
    (tx_counter h) (compact_certs h).

(** block.rs:245-250 *)
Definition block_time (m : mode) (p : params) (prev_time now : N) : option N :=
  if 0 <? prev_time then
    if now <? prev_time then Some prev_time
    else match add64 m prev_time (max_timestamp_increment p) with
         | None => None
         | Some l => if l <? now then Some l else Some now
         end
  else Some now.
(** block.rs:235-274, with the clock value [now]; the previous header is changed in place *)
Definition new_block (m : mode) (now : N) (prev : header) : header * option block :=
  match process_upgrade_params table m (round prev) (upgrade prev) with
  | (u, Ok v) =>
      (set_upgrade prev u,
       match lookup (current u) table with
       | None => None
       | Some p =>
           match block_time m p (timestamp prev) now, add64 m (round prev) 1 with
           | Some time, Some r =>
               let h root := mkHeader r (header_hash prev) zero32 root time (genesis_id prev) (genesis_hash prev)
                 (mkRewards (rs_fee_sink (rewards prev)) (rs_rewards_pool (rewards prev)) 0 0 0 0) u v 0 [] in
               match payset_commit_of (mkBlock (h zero32) []) with
               | Some root => Some (mkBlock (h root) [])
               | None => None
               end
           | _, _ => None
           end
       end)
  | (u, _) => (set_upgrade prev u, None)
  end.

(** derived [PartialEq]; block.rs:158-169 *)
Definition upgrade_eqb (a b : upgrade_state) : bool :=
  version_eqb (current a) (current b) &&
  match next_protocol a, next_protocol b with
  | Some x, Some y => version_eqb x y | None, None => true | _, _ => false
  end && (approvals a =? approvals b) && (vote_before a =? vote_before b) && (switch_on a =? switch_on b).

(** block.rs:386-427, the checks that follow those of the upgrade state *)
Definition check_rest (m : mode) (p : params) (self prev : header) : outcome invalid_block unit :=
  let genesis :=
    if is_empty (genesis_id self) then Err MissingGenesisID
    else if negb (is_empty (genesis_id prev)) && negb (bytes_eqb (genesis_id self) (genesis_id prev)) then Err GenesisIDMismatch
    else if support_genesis_hash p then
      if is_zero (genesis_hash self) then Err MissingGenesisHash
      else if negb (is_zero (genesis_hash prev)) && negb (bytes_eqb (genesis_hash prev) (genesis_hash self)) then Err UpgradeModel.GenesisHashMismatch
      else Ok tt
    else if negb (is_zero (genesis_hash self)) then Err GenesisHashNotSupported
    else Ok tt in
  if 0 <? timestamp prev then
    if timestamp self <? timestamp prev then Err BadEarlyTimestamp
    else match add64 m (timestamp prev) (max_timestamp_increment p) with
         | None => Panic
         | Some l => if l <? timestamp self then Err BadLateTimestamp else genesis
         end
  else genesis.
(** block.rs:356-427; the previous header is changed in place *)
Definition pre_check (m : mode) (self prev : header) : header * outcome invalid_block unit :=
  match params_of self with
  | None => (prev, Panic)
  | Some p =>
      match add64 m (round prev) 1 with
      | None => (prev, Panic)
      | Some r =>
          if negb (r =? round self) then (prev, Err WrongRound)
          else if negb (bytes_eqb (branch self) (header_hash prev)) then (prev, Err WrongBranch)
          else
            match apply_upgrade_vote table m (upgrade prev) r (vote self) with
            | (u, Ok _) =>
                (set_upgrade prev u, if upgrade_eqb u (upgrade self) then check_rest m p self prev else Err WrongUpgradeState)
            | (u, Err e) => (set_upgrade prev u, Err e)
            | (u, Panic) => (set_upgrade prev u, Panic)
            end
      end
  end.
End Hash.

(** ** Genesis *)

(** genesis.rs:160-166 *)
Record genesis_balances := mkBalances {
  balances : list (bytes * account);
  gb_fee_sink : bytes;
  gb_rewards_pool : bytes;
  gb_timestamp : N
}.
(** indexing of the map at genesis.rs:87 *)
Fixpoint find {A} (k : bytes) (l : list (bytes * A)) : option A :=
  match l with [] => None | (k', a) :: r => if bytes_eqb k k' then Some a else find k r end.
(** genesis.rs:70-120; [None] is a panic *)
Definition create_block (H : bytes -> bytes) (proto : version) (gb : genesis_balances) (id hash : bytes) : option block :=
  match lookup proto table with
  | None => None
  | Some p =>
      match find (gb_rewards_pool gb) (balances gb) with
      | None => None
      | Some a =>
          let initial := micro_algos a in
          match div64 (if initial_rewards_rate_calculation p then sat_sub initial (min_balance p) else initial) (rewards_rate_refresh_interval p) with
          | None => None
          | Some r =>
              Some (mkBlock
                (mkHeader 0 zero32 hash (commit_genesis H []) (gb_timestamp gb) id
                   (if support_genesis_hash p then hash else zero32)
                   (mkRewards (gb_fee_sink gb) (gb_rewards_pool gb) 0 r 0 (rewards_rate_refresh_interval p))
                   (mkUpgrade proto None 0 0 0) no_vote 0 []) [])
          end
      end
  end.
End Table.
