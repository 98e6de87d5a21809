(** The protocol upgrade state machine, src/data/bookkeeping/block.rs:138-170, 615-741. *)
From Verif Require Import Base.
From Verif Require Export ConsensusModel.
Local Open Scope N_scope.

(** src/data/bookkeeping/errors.rs:10-62; payloads repeat arguments and are left out *)
Inductive invalid_block :=
| WrongRound | WrongBranch | WrongUpgradeState | BadEarlyTimestamp | BadLateTimestamp
| MissingGenesisID | GenesisIDMismatch | MissingGenesisHash | GenesisHashMismatch | GenesisHashNotSupported
| NonEmptyGenesisID | NonEmptyGenesisHash | RedundantHasGenesisHash
| CompetingProposal | DelayOutOfRange | NonZeroDelayWithoutProposal | ApprovalNoneActive | ApprovalAfterDeadline.

(** block.rs:138-149; the default proposes the current version (src/protocol/consensus.rs:127-131) *)
Record upgrade_vote := mkVote { propose : version; delay : N; approve : bool }.
(** [UpgradeVote::default()], block.rs:142-143 *)
Definition no_vote : upgrade_vote := mkVote CURRENT_CONSENSUS_VERSION 0 false.

(** block.rs:155-167 *)
Record upgrade_state := mkUpgrade {
  current : version;
  next_protocol : option version;
  approvals : N;
  vote_before : N;
  switch_on : N
}.
(** [UpgradeState::default()], block.rs:158-159 *)
Definition no_upgrade : upgrade_state := mkUpgrade CURRENT_CONSENSUS_VERSION None 0 0 0.

(** [self.next_protocol == Some(v)], block.rs:633, 667 *)
Definition is_next (s : upgrade_state) (v : version) : bool :=
  match next_protocol s with Some n => version_eqb n v | None => false end.

(** The three parts of block.rs:623-701.  They change [self] in place; the model returns the
    changed state together with the outcome. *)
(** src/data/bookkeeping/block.rs:632-666 *)
Definition apply_proposal (m : mode) (p : params) (s : upgrade_state) (round : N) (v : upgrade_vote)
  : upgrade_state * outcome invalid_block unit :=
  if negb (version_eqb (propose v) (current s)) then
    if negb (is_next s (current s)) then (s, Err CompetingProposal)
    else if (max_upgrade_wait_rounds p <? delay v) || (delay v <? min_upgrade_wait_rounds p) then (s, Err DelayOutOfRange)
    else
      let d := if delay v =? 0 then default_upgrade_wait_rounds p else delay v in
      match add64 m round (upgrade_vote_rounds p) with
      | None => (mkUpgrade (current s) (Some (propose v)) 0 (vote_before s) (switch_on s), Panic)
      | Some before =>
          match add64 m before d with
          | None => (mkUpgrade (current s) (Some (propose v)) 0 before (switch_on s), Panic)
          | Some on => (mkUpgrade (current s) (Some (propose v)) 0 before on, Ok tt)
          end
      end
  else if negb (delay v =? 0) then (s, Err NonZeroDelayWithoutProposal)
  else (s, Ok tt).
(** src/data/bookkeeping/block.rs:668-682 *)
Definition apply_approval (m : mode) (s : upgrade_state) (round : N) (v : upgrade_vote)
  : upgrade_state * outcome invalid_block unit :=
  if approve v then
    if is_next s (current s) then (s, Err ApprovalNoneActive)
    else if vote_before s <=? round then (s, Err ApprovalAfterDeadline)
    else match add64 m (approvals s) 1 with
         | None => (s, Panic)
         | Some n => (mkUpgrade (current s) (next_protocol s) n (vote_before s) (switch_on s), Ok tt)
         end
  else (s, Ok tt).
(** src/data/bookkeeping/block.rs:684-692 *)
Definition clear_failed (p : params) (s : upgrade_state) (round : N) : upgrade_state :=
  if (round =? vote_before s) && (approvals s <? upgrade_threshold p) then mkUpgrade (current s) None 0 0 0 else s.
(** src/data/bookkeeping/block.rs:694-700 *)
Definition switch_over (s : upgrade_state) (round : N) : upgrade_state * outcome invalid_block unit :=
  if round =? switch_on s then
    match next_protocol s with
    | Some n => (mkUpgrade n None 0 0 0, Ok tt)
    | None => (s, Panic)
    end
  else (s, Ok tt).
(** block.rs:623-701; [table] is [config::CONSENSUS], an unknown version panics (629) *)
Definition apply_upgrade_vote (table : list (version * params)) (m : mode) (s : upgrade_state) (round : N) (v : upgrade_vote)
  : upgrade_state * outcome invalid_block unit :=
  match lookup (current s) table with
  | None => (s, Panic)
  | Some p =>
      match apply_proposal m p s round v with
      | (s1, Ok _) =>
          match apply_approval m s1 round v with
          | (s2, Ok _) => switch_over (clear_failed p s2 round) round
          | r => r
          end
      | r => r
      end
  end.

(** block.rs:706-741, on the previous block's round and upgrade state.  [iter().next()] of the
    hash map of approved upgrades is the first entry of the association list. *)
Definition our_vote (p : params) (m : mode) (prev_round : N) (s : upgrade_state) : option (N * upgrade_vote) :=
  let v0 := match next_protocol s, approved_upgrades p with
            | None, (k, d) :: _ => mkVote k d true
            | _, _ => no_vote
            end in
  match add64 m prev_round 1 with
  | None => None
  | Some round =>
      if round <? vote_before s then
        match next_protocol s with
        | None => None
        | Some n => Some (round, mkVote (propose v0) (delay v0) (match lookup n (approved_upgrades p) with Some _ => true | None => false end))
        end
      else Some (round, v0)
  end.
(** block.rs:706-740 *)
Definition process_upgrade_params (table : list (version * params)) (m : mode) (prev_round : N) (s : upgrade_state)
  : upgrade_state * outcome invalid_block upgrade_vote :=
  match lookup (current s) table with
  | None => (s, Panic)
  | Some p =>
      match our_vote p m prev_round s with
      | None => (s, Panic)
      | Some (round, v) =>
          match apply_upgrade_vote table m s round v with
          | (s', Ok _) => (s', Ok v)
          | (s', Err e) => (s', Err e)
          | (s', Panic) => (s', Panic)
          end
      end
  end.
