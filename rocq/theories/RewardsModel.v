(** Reward levels, src/data/bookkeeping/block.rs:112-136, 543-613. *)
From Verif Require Import Base.
From Verif Require Export ConsensusModel.
Local Open Scope N_scope.

(** block.rs:114-136 *)
Record rewards_state := mkRewards {
  rs_fee_sink : bytes;
  rs_rewards_pool : bytes;
  level : N;
  rate : N;
  residue : N;
  recalculation_round : N
}.

(** [checked_add]; std, for src/data/bookkeeping/block.rs:560,570,591,601 *)
Definition checked_add (a b : N) : option N := if a + b <? two64 then Some (a + b) else None.

(** block.rs:556-585: the rate and the next recalculation round *)
Definition refresh (m : mode) (s : rewards_state) (next_round : N) (p : params) (pool : N) : option rewards_state :=
  let over :=
    if pending_residue_rewards p then
      match checked_add (min_balance p) (residue s) with Some n => n | None => pool end
    else min_balance p in
  let new_rate := match checked_add pool over with Some n => n | None => 0 end in
  match div64 new_rate (rewards_rate_refresh_interval p) with
  | None => None
  | Some r =>
      match add64 m next_round (rewards_rate_refresh_interval p) with
      | None => None
      | Some next => Some (mkRewards (rs_fee_sink s) (rs_rewards_pool s) (level s) r (residue s) next)
      end
  end.
(** block.rs:547-613; [None] is a panic *)
Definition next_state (m : mode) (s : rewards_state) (next_round : N) (p : params) (pool units : N) : option rewards_state :=
  match (if next_round =? recalculation_round s then refresh m s next_round p pool else Some s) with
  | None => None
  | Some n =>
      if units =? 0 then Some n
      else match checked_add (rate s) (residue s) with
           | None => Some n
           | Some total =>
               match checked_add (level s) (total / units) with
               | None => Some n
               | Some l => Some (mkRewards (rs_fee_sink n) (rs_rewards_pool n) l (rate n) (total mod units) (recalculation_round n))
               end
           end
  end.
