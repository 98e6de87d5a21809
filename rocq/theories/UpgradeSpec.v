(** Vocabulary for protocol upgrades: a history of blocks and what an upgrade needs. *)
From Verif Require Import Base UpgradeModel.
Local Open Scope N_scope.

(** No proposal pending. *)
Definition idle (s : upgrade_state) : Prop :=
  (next_protocol s = None \/ next_protocol s = Some (current s)) /\ approvals s = 0 /\ vote_before s = 0 /\ switch_on s = 0.
(** Version [n] pending. *)
Definition pending (s : upgrade_state) (n : version) : Prop := next_protocol s = Some n /\ n <> current s.

(** One round of a history: the vote in its block and the protocol in force after the block. *)
Record round_event := mkEvent { ev_vote : upgrade_vote; ev_protocol : version }.

(** Rounds [first], [first + 1], ... with accepted votes: the history and the states. *)
Inductive history (table : list (version * params)) (m : mode) : upgrade_state -> N -> list round_event -> upgrade_state -> Prop :=
| HistoryStart s round : history table m s round [] s
| HistoryStep s round ev s' s'' v :
    apply_upgrade_vote table m s round v = (s', Ok tt) ->
    history table m s' (round + 1) ev s'' ->
    history table m s round (mkEvent v (current s') :: ev) s''.

(** The delay a proposal asks for. *)
Definition wait (p : params) (v : upgrade_vote) : N := if delay v =? 0 then default_upgrade_wait_rounds p else delay v.
(** It lies between the least and the greatest delay that the protocol allows. *)
Definition delay_allowed (p : params) (v : upgrade_vote) : Prop := min_upgrade_wait_rounds p <= delay v <= max_upgrade_wait_rounds p.
(** Votes in favour in a stretch of history. *)
Definition in_favour (ev : list round_event) : N := N.of_nat (length (filter (fun e => approve (ev_vote e)) ev)).

(** The block number [i] of the history changed the protocol from [old] to [new]. *)
Definition changes (start : version) (ev : list round_event) (i : nat) (old new : version) : Prop :=
  (exists e, nth_error ev i = Some e /\ ev_protocol e = new) /\
  match i with
  | O => old = start
  | S j => exists e, nth_error ev j = Some e /\ ev_protocol e = old
  end /\ old <> new.

(** What the change needs: a block [k] that proposed [new] with a delay that is allowed, enough votes in favour among the
    blocks from [k] on before the deadline, and exactly the announced number of rounds. *)
Definition voted_in (table : list (version * params)) (ev : list round_event) (i : nat) (old new : version) : Prop :=
  exists p k e,
    lookup old table = Some p /\ nth_error ev k = Some e /\ propose (ev_vote e) = new /\ delay_allowed p (ev_vote e) /\
    N.of_nat i = N.of_nat k + upgrade_vote_rounds p + wait p (ev_vote e) /\
    upgrade_threshold p <= in_favour (firstn (N.to_nat (upgrade_vote_rounds p)) (skipn k ev)).

(** Round numbers stay within 64 bits: deadlines and switch rounds set up to round [last]. *)
Definition rounds_fit (table : list (version * params)) (last : N) : Prop :=
  forall v p, lookup v table = Some p ->
    last + upgrade_vote_rounds p + N.max (default_upgrade_wait_rounds p) (max_upgrade_wait_rounds p) < 2 ^ 64.
