(** Specification vocabulary of the lockup properties. Nothing here is used by the model. *)
From Coq Require Import NArith List Bool String.
From Verif Require Import Prelude LockupModel LockupWorld.
Import ListNotations.
Open Scope N_scope.

(** * Schedules *)

(** A sane vesting schedule: start <= cliff <= end, of positive length. *)
Definition sane (vs : vesting_schedule) : Prop :=
  start_timestamp vs <= cliff_timestamp vs /\ cliff_timestamp vs <= end_timestamp vs /\
  start_timestamp vs < end_timestamp vs /\ end_timestamp vs < U64_BOUND.

(** Vesting: nothing before the cliff, then linear from start to end, rounded down. *)
Definition not_vested (amount : N) (vs : vesting_schedule) (now : N) : N :=
  if now <? cliff_timestamp vs then amount
  else if now <? end_timestamp vs
  then amount * (end_timestamp vs - now) / (end_timestamp vs - start_timestamp vs)
  else 0.

(** The time the lockup ends and the release starts; [None] while transfers are disabled. Times are 64-bit
    numbers and additions saturate. *)
Definition later (a b : N) : N := N.min (a + b) (U64_BOUND - 1).
Definition lockup_end (i : lockup_info) : option N :=
  match transfers_information i with
  | TransfersDisabled _ => None
  | TransfersEnabled t => Some (N.max (later t (lockup_duration i))
                                  (match lockup_timestamp i with Some x => x | None => 0 end))
  end.
(** Release: linear over the release duration, if there is one; rounded down. *)
Definition not_released (i : lockup_info) (from now : N) : N :=
  match release_duration i with
  | None => 0
  | Some d => if now <? later from d then lockup_amount i * (later from d - now) / d else 0
  end.

(** The part held back by the vesting agreement. A private schedule does not show. *)
Definition held_by_vesting (s : contract) (now : N) : N :=
  match vesting_information s with
  | VSchedule vs => not_vested (lockup_amount (lockup_information s)) vs now
  | VTerminating ti => unvested_amount ti
  | VNone | VHash _ => 0
  end.

(** The locked amount. *)
Definition locked (s : contract) (now : N) : N :=
  let i := lockup_information s in
  match lockup_end i with
  | Some e => if now <? e then lockup_amount i - termination_withdrawn_tokens i
              else N.max (not_released i e now - termination_withdrawn_tokens i) (held_by_vesting s now)
  | None => lockup_amount i - termination_withdrawn_tokens i
  end.

(** What the owner may transfer: what the account has above the storage reserve, without touching what is
    locked. *)
Definition liquid (s : contract) (now balance : N) : N :=
  N.min (balance + get_known_deposited_balance s - locked s now) (balance - MIN_BALANCE_FOR_STORAGE).

(** A contract state whose numbers are in range, whose schedule, if public, is sane, and in which the
    foundation's share and what it took already fit in the lockup amount. *)
Record well_formed (s : contract) : Prop := mkWf {
  wf_amount : lockup_amount (lockup_information s) < U128_BOUND;
  wf_withdrawn : termination_withdrawn_tokens (lockup_information s) <= lockup_amount (lockup_information s);
  wf_timestamp : u64_opt (lockup_timestamp (lockup_information s));
  wf_vesting : match vesting_information s with
               | VSchedule vs => sane vs /\ termination_withdrawn_tokens (lockup_information s) = 0
               | VHash _ => termination_withdrawn_tokens (lockup_information s) = 0
               | VTerminating ti => unvested_amount ti + termination_withdrawn_tokens (lockup_information s)
                                    <= lockup_amount (lockup_information s)
               | VNone => True
               end
}.

(** * Histories *)

(** Schedules that are public from the start are sane. *)
Definition public_schedule_sane (s : contract) : Prop :=
  match vesting_information s with VSchedule vs => sane vs | _ => True end.

(** The event makes a staking pool fail to answer a view. *)
Definition view_fails (w : world) (ev : event) : bool :=
  match ev with
  | EDeliver n OFail =>
      match nth_error (w_msgs w) n with
      | Some (MCall (RPool _ op) _) => is_view op
      | _ => false
      end
  | _ => false
  end.
Fixpoint views_answer (g : genesis) (w : world) (evs : list event) : Prop :=
  match evs with
  | [] => True
  | ev :: r => view_fails w ev = false /\ views_answer g (step g w ev) r
  end.

(** A termination that reveals a private schedule reveals a sane one that is covered by the lockup at that
    moment, as the documentation of private schedules demands. Only accepted terminations count. *)
Definition reveals_covered (g : genesis) (w : world) (ev : event) : Prop :=
  match ev with
  | ECall who _ (TerminateVesting (Some (vs, salt))) =>
      In (BCalled who (TerminateVesting (Some (vs, salt))) true) (snd (step_obs g w ev)) ->
      sane vs /\
      not_vested (lockup_amount (lockup_information (w_lockup w))) vs (w_time w) <= locked (w_lockup w) (w_time w)
  | _ => True
  end.
Fixpoint all_reveals_covered (g : genesis) (w : world) (evs : list event) : Prop :=
  match evs with
  | [] => True
  | ev :: r => reveals_covered g w ev /\ all_reveals_covered g (step g w ev) r
  end.

(** * Tokens *)
Definition total {A} (f : A -> N) (l : list A) : N := fold_right (fun x n => f x + n) 0 l.

(** Tokens in flight to the lockup account, or from it to a staking pool. *)
Definition in_flight (m : msg) : N :=
  match m with
  | MTokens a => a
  | MCall (RPool _ (PDeposit a)) _ | MCall (RPool _ (PDepositAndStake a)) _ => a
  | _ => 0
  end.
(** A payment of unvested tokens to the foundation that was sent and whose callback has not run. *)
Definition to_foundation_pending (m : msg) : N :=
  match m with
  | MCall (RTransfer _ a) (Some _) => a
  | MBack (OnWithdrawUnvestedAmount a _) (Some _) => a
  | _ => 0
  end.
(** What the lockup owns at the staking pool it has selected. *)
Definition at_pool (w : world) : N :=
  match get_staking_pool_account_id (w_lockup w) with
  | Some p => fst (w_pools w p) + snd (w_pools w p)
  | None => 0
  end.
(** All tokens under the control of the lockup. *)
Definition controlled (w : world) : N := w_balance w + total in_flight (w_msgs w) + at_pool w.

(** Unvested tokens the foundation has received. *)
Definition received (l : list obs) : N :=
  total (fun b => match b with BPaid _ a true => a | _ => 0 end) l.

(** * Staking operations *)
Definition staking_callback (m : call) : bool :=
  match m with
  | OnStakingPoolDeposit _ | OnStakingPoolDepositAndStake _ | OnStakingPoolWithdraw _ | OnStakingPoolStake _
  | OnStakingPoolUnstake _ | OnStakingPoolUnstakeAll | OnGetAccountTotalBalance
  | OnGetAccountUnstakedBalanceToWithdrawByOwner | OnGetAccountStakedBalanceToUnstake
  | OnStakingPoolUnstakeForTermination _ | OnGetAccountUnstakedBalanceToWithdraw
  | OnStakingPoolWithdrawForTermination _ => true
  | _ => false
  end.
(** A message of an operation with the staking pool. *)
Definition staking_msg (m : msg) : bool :=
  match m with
  | MCall (RPool _ _) _ => true
  | MBack cb _ => staking_callback cb
  | _ => false
  end.
Definition outstanding (w : world) : nat := List.length (filter staking_msg (w_msgs w)).
Definition busy (s : contract) : bool :=
  match staking_information s with
  | Some i => match status i with Busy => true | Idle => false end
  | None => false
  end.

(** The work left of the outstanding operation: how many deliveries at most until it is over. *)
Definition work_of (m : msg) : N :=
  match m with
  | MCall (RPool _ op) _ => if is_view op then 4 else 2
  | MBack OnGetAccountUnstakedBalanceToWithdrawByOwner _ | MBack OnGetAccountStakedBalanceToUnstake _
  | MBack OnGetAccountUnstakedBalanceToWithdraw _ => 3
  | MBack cb _ => if staking_callback cb then 1 else 0
  | MTokens _ => 0
  | MCall _ _ => 0
  end.
Definition work (w : world) : N := total work_of (w_msgs w).

(** The staking pool in use after a history: the last one a callback accepted with the answer "whitelisted",
    unless it was unselected since. *)
Fixpoint in_use (now : option account_id) (l : list obs) : option account_id :=
  match l with
  | [] => now
  | BCallback (OnWhitelistIsWhitelisted p) (Some (ABool true)) true :: r => in_use (Some p) r
  | BCalled _ UnselectStakingPool true :: r => in_use None r
  | _ :: r => in_use now r
  end.

(** * Termination *)

(** The documented life of a termination. *)
Definition documented (a b : option termination_status) : bool :=
  match a, b with
  | None, Some VestingTerminatedWithDeficit => true
  | None, Some ReadyToWithdraw => true
  | Some VestingTerminatedWithDeficit, Some UnstakingInProgress => true
  | Some UnstakingInProgress, Some EverythingUnstaked => true
  | Some UnstakingInProgress, Some VestingTerminatedWithDeficit => true
  | Some EverythingUnstaked, Some WithdrawingFromStakingPoolInProgress => true
  | Some WithdrawingFromStakingPoolInProgress, Some ReadyToWithdraw => true
  | Some WithdrawingFromStakingPoolInProgress, Some EverythingUnstaked => true
  | Some ReadyToWithdraw, Some WithdrawingFromAccountInProgress => true
  | Some WithdrawingFromAccountInProgress, Some ReadyToWithdraw => true
  | Some WithdrawingFromAccountInProgress, None => true
  | _, _ => false
  end.

(** The schedule a termination is based on. *)
Definition schedule_of (s : contract) (o : option (vesting_schedule * string)) : option vesting_schedule :=
  match vesting_information s with
  | VSchedule vs => Some vs
  | VHash _ => option_map fst o
  | _ => None
  end.

(** An event by which the foundation terminates the vesting, at a state where this is accepted; the amount
    not vested then. *)
Definition terminates (g : genesis) (w : world) (ev : event) (u : N) : Prop :=
  exists f o vs l,
    ev = ECall f 0 (TerminateVesting o) /\
    step_obs g w ev = (step g w ev, BCalled f (TerminateVesting o) true :: l) /\
    schedule_of (w_lockup w) o = Some vs /\
    get_unvested_amount (w_lockup w) (w_time w) vs = Ok u.

(** A staking pool keeps the staked and the unstaked balance apart: neither drops by itself, and unstaking moves
    at least what it was asked to. *)
Definition keeps_apart (w : world) (ev : event) : Prop :=
  match ev with
  | EGrowth p s u => fst (w_pools w p) <= s /\ snd (w_pools w p) <= u
  | EDeliver n (OPool s u) =>
      match nth_error (w_msgs w) n with
      | Some (MCall (RPool p (PUnstake a)) _) => snd (w_pools w p) + a <= u
      | _ => True
      end
  | _ => True
  end.
Fixpoint all_keep_apart (g : genesis) (w : world) (evs : list event) : Prop :=
  match evs with
  | [] => True
  | ev :: r => keeps_apart w ev /\ all_keep_apart g (step g w ev) r
  end.

(** Receivers that cooperate: they answer every request in some possible way, the pool answers views, lets the
    lockup unstake what is staked and withdraw what is unstaked, and transfers arrive. *)
Record cooperative (answers : world -> remote -> outcome) : Prop := mkCooperative {
  co_possible : forall w r cb, execute w r cb (answers w r) <> None;
  co_view : forall w p op, is_view op = true -> answers w (RPool p op) = OView;
  co_unstake : forall w p a, a <= fst (w_pools w p) -> fst (w_pools w p) + snd (w_pools w p) < U128_BOUND ->
    exists s u, answers w (RPool p (PUnstake a)) = OPool s u;
  co_apart : forall w p a s u, answers w (RPool p (PUnstake a)) = OPool s u -> snd (w_pools w p) + a <= u;
  co_withdraw : forall w p a, a <= snd (w_pools w p) -> fst (w_pools w p) + snd (w_pools w p) < U128_BOUND ->
    exists s u, answers w (RPool p (PWithdraw a)) = OPool s u;
  co_transfer : forall w r a, answers w (RTransfer r a) = ODone
}.

(** * Callers *)
Definition owner_method (m : call) : bool :=
  match m with
  | SelectStakingPool _ | UnselectStakingPool | DepositToStakingPool _ | DepositAndStake _
  | RefreshStakingPoolBalance | WithdrawFromStakingPool _ | WithdrawAllFromStakingPool | Stake _ | Unstake _
  | UnstakeAll | CheckTransfersVote | Transfer _ _ | AddFullAccessKey _ => true
  | _ => false
  end.
Definition foundation_method (m : call) : bool :=
  match m with
  | TerminateVesting _ | TerminationPrepareToWithdraw | TerminationWithdraw _ => true
  | _ => false
  end.


(** Histories made only of calls of the termination methods by [f] and of deliveries of outstanding messages,
    answered as given. *)
Definition only_foundation (answers : world -> remote -> outcome) (f : account_id) (w : world) (ev : event) : Prop :=
  match ev with
  | ECall who 0 m => who = f /\ foundation_method m = true
  | EDeliver n o => exists r cb, nth_error (w_msgs w) n = Some (MCall r cb) /\ o = answers w r
  | ERun _ => True
  | _ => False
  end.
Fixpoint all_only_foundation answers f (g : genesis) (w : world) (evs : list event) : Prop :=
  match evs with
  | [] => True
  | ev :: r => only_foundation answers f w ev /\ all_only_foundation answers f g (step g w ev) r
  end.

(** * Gas: requirements documented at the methods (lockup/src/owner.rs:8, 45, 78, 124, 170, 213, 256, 298, 341,
    384, 423, 462, 491; foundation.rs:9, 51, 131), in Tgas. *)
Definition gas_requirement (m : call) : N :=
  match m with
  | SelectStakingPool _ => 75
  | UnselectStakingPool => 25
  | DepositToStakingPool _ => 100
  | DepositAndStake _ => 125
  | RefreshStakingPoolBalance => 75
  | WithdrawFromStakingPool _ => 125
  | WithdrawAllFromStakingPool => 175
  | Stake _ | Unstake _ | UnstakeAll => 125
  | CheckTransfersVote => 75
  | Transfer _ _ => 50
  | AddFullAccessKey _ => 50
  | TerminateVesting _ => 25
  | TerminationPrepareToWithdraw => 175
  | TerminationWithdraw _ => 75
  | _ => 0
  end * 1000000000000.
(** The gas a call needs that sends a promise: the base cost, 25 Tgas, the gas it attaches to the promise and
    the gas it reserves for the callback. *)
Definition chain_gas (p : promise) : N :=
  25000000000000 + p_gas p + match p_then p with Some (_, g) => g | None => 0 end.
