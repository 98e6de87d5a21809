(** Vocabulary for rewards. *)
From Verif Require Import Base RewardsModel.
Local Open Scope N_scope.

(** What one round hands in: its number, the protocol, the pool balance, the reward units. *)
Record round_input := mkRound { in_round : N; in_params : params; in_pool : N; in_units : N }.
(** No overflow while computing the next level. *)
Definition level_fits (s : rewards_state) (units : N) : Prop :=
  rate s + residue s < 2 ^ 64 /\ level s + (rate s + residue s) / units < 2 ^ 64.

(** A run of rounds with its states, in all of which there are units and no overflow. *)
Inductive rounds (m : mode) : rewards_state -> list round_input -> rewards_state -> Prop :=
| RoundsStart s : rounds m s [] s
| RoundsStep s i s' l s'' : in_units i <> 0 -> level_fits s (in_units i) ->
    next_state m s (in_round i) (in_params i) (in_pool i) (in_units i) = Some s' ->
    rounds m s' l s'' -> rounds m s (i :: l) s''.
(** Handed out to the accounts along a run: level increase times units, round by round. *)
Inductive handed_out (m : mode) : rewards_state -> list round_input -> N -> N -> Prop :=
| HandedStart s : handed_out m s [] 0 0
| HandedStep s i s' l paid rates :
    next_state m s (in_round i) (in_params i) (in_pool i) (in_units i) = Some s' ->
    handed_out m s' l paid rates ->
    handed_out m s (i :: l) ((level s' - level s) * in_units i + paid) (rate s + rates).

(** The balance of the pool that may be spent by the next refresh. *)
Definition spendable (p : params) (pool residue : N) : N :=
  pool - min_balance p - (if pending_residue_rewards p then residue else 0).
