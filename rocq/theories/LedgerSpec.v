(** Vocabulary for rewards across accounts. *)
From Verif Require Import Base BasicsModel RewardsModel RewardsSpec.
Local Open Scope N_scope.

(** The rewards state of the last header together with all accounts. *)
Record book := mkBook { bk_rewards : rewards_state; bk_accounts : list account }.

Definition participating (a : account) : bool := match acc_status a with NotParticipating => false | _ => true end.
(** The reward units of all accounts that participate, as stored. *)
Fixpoint all_units (p : params) (l : list account) : N :=
  match l with [] => 0 | a :: r => (if participating a then micro_algos a / reward_unit p else 0) + all_units p r end.
(** The money of all accounts as reported at a level; [None] if reporting one panics. *)
Fixpoint all_money (m : mode) (p : params) (l : list account) (level : N) : option N :=
  match l with
  | [] => Some 0
  | a :: r => match money m p a level, all_money m p r level with Some (x, _), Some y => Some (x + y) | _, _ => None end
  end.

(** A new round with its number, protocol and pool balance, or an account (given by its place) to
    which its rewards are applied, as happens when a transaction touches it. *)
Inductive event := NewRound (r : N) (p : params) (pool : N) | Touch (p : params) (i : nat).
Definition event_params (e : event) : params := match e with NewRound _ p _ => p | Touch p _ => p end.

Fixpoint touch (m : mode) (p : params) (level : N) (i : nat) (l : list account) : option (list account) :=
  match l, i with
  | [], _ => Some []
  | a :: r, O => match with_updated_rewards m p a level with Some a' => Some (a' :: r) | None => None end
  | a :: r, S j => match touch m p level j r with Some r' => Some (a :: r') | None => None end
  end.
(** The rate of the last round is handed out unless there are no units or the level does not fit. *)
Definition handed (s : rewards_state) (units : N) : N :=
  if (units =? 0) then 0
  else if (rate s + residue s <? 2 ^ 64) && (level s + (rate s + residue s) / units <? 2 ^ 64) then rate s else 0.
(** The next book and what was handed out. *)
Definition event_step (m : mode) (b : book) (e : event) : option (book * N) :=
  match e with
  | NewRound r p pool =>
      let units := all_units p (bk_accounts b) in
      match next_state m (bk_rewards b) r p pool units with
      | Some s => Some (mkBook s (bk_accounts b), handed (bk_rewards b) units)
      | None => None
      end
  | Touch p i =>
      match touch m p (level (bk_rewards b)) i (bk_accounts b) with Some l => Some (mkBook (bk_rewards b) l, 0) | None => None end
  end.
Fixpoint events (m : mode) (b : book) (l : list event) : option (book * N) :=
  match l with
  | [] => Some (b, 0)
  | e :: r =>
      match event_step m b e with
      | Some (b', x) => match events m b' r with Some (b'', y) => Some (b'', x + y) | None => None end
      | None => None
      end
  end.

(** Numbers fit 64 bits and no account is ahead of the level. *)
Definition book_ok (b : book) : Prop :=
  level (bk_rewards b) < 2 ^ 64 /\
  Forall (fun a => micro_algos a < 2 ^ 64 /\ rewards_base a < 2 ^ 64 /\ rewarded_micro_algos a < 2 ^ 64 /\
                   (participating a = true -> rewards_base a <= level (bk_rewards b))) (bk_accounts b).

(** An account after its rewards have been applied at each of the levels. *)
Fixpoint touched (m : mode) (p : params) (a : account) (levels : list N) : option account :=
  match levels with
  | [] => Some a
  | l :: r => match with_updated_rewards m p a l with Some a' => touched m p a' r | None => None end
  end.
(** The levels rise from [from] up to at most [to]. *)
Fixpoint rising (from : N) (levels : list N) (to : N) : Prop :=
  match levels with [] => from <= to | l :: r => from <= l /\ rising l r to end.
(** Some of the elements, in the same order. *)
Inductive among {A} : list A -> list A -> Prop :=
| AmongNil : among [] []
| AmongSkip x l l' : among l l' -> among l (x :: l')
| AmongKeep x l l' : among l l' -> among (x :: l) (x :: l').
