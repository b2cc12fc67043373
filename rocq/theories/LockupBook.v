(** The lockup contract as an agreement on paper: for every method, when a call is accepted, what it changes
    and what is asked of another account. Exact arithmetic, no panics. Nothing here is used by the model, and of
    the model only its types and the hash function of the environment are used. *)
From Coq Require Import NArith List Bool String.
From Verif Require Import Prelude LockupModel LockupWorld LockupSpec.
Import ListNotations.
Open Scope N_scope.

(** * Conditions *)

Definition from_owner (c : ctx) (s : contract) : bool := String.eqb (ctx_predecessor c) (owner_account_id s).
Definition from_foundation (c : ctx) (s : contract) : bool :=
  match foundation_account_id s with Some f => String.eqb (ctx_predecessor c) f | None => false end.
Definition from_itself (c : ctx) : bool := String.eqb (ctx_predecessor c) (ctx_current c).

Definition terminating (s : contract) : bool :=
  match vesting_information s with VTerminating _ => true | _ => false end.
Definition selected (s : contract) : bool :=
  match staking_information s with Some _ => true | None => false end.
Definition enabled (s : contract) : bool :=
  match transfers_information (lockup_information s) with TransfersEnabled _ => true | TransfersDisabled _ => false end.
(** The tokens recorded as deposited at the pool. *)
Definition recorded (s : contract) : N :=
  match staking_information s with Some i => deposit_amount i | None => 0 end.
Definition stage (s : contract) : option termination_status :=
  match vesting_information s with VTerminating ti => Some (t_status ti) | _ => None end.
Definition owed (s : contract) : N :=
  match vesting_information s with VTerminating ti => unvested_amount ti | _ => 0 end.
(** What the account has above the 3.5 NEAR kept for storage. *)
Definition spare (balance : N) : N := balance - 3500000000000000000000000.

(** The owner may use the staking pool: one is selected, nothing is going on, nothing is being terminated. *)
Definition owner_at_pool (c : ctx) (s : contract) : bool :=
  from_owner c s && selected s && negb (busy s) && negb (terminating s).

(** The callback waited for one promise. *)
Definition one_result (c : ctx) : bool := match ctx_results c with [_] => true | _ => false end.
Definition succeeded (c : ctx) : bool := match ctx_results c with Some _ :: _ => true | _ => false end.
Definition told_bool (c : ctx) : option bool :=
  match ctx_results c with Some (ABool b) :: _ => Some b | _ => None end.
Definition told_balance (c : ctx) : option N :=
  match ctx_results c with Some (ABalance x) :: _ => Some x | _ => None end.
Definition told_poll (c : ctx) : option (option N) :=
  match ctx_results c with Some (APollResult r) :: _ => Some r | _ => None end.

(** The vesting schedule by which a termination goes: the public one if nothing is presented, or the presented
    one if it has, with its salt, the hash that was agreed on. *)
Definition schedule_presented (c : ctx) (s : contract) (o : option (vesting_schedule * string))
    : option vesting_schedule :=
  match vesting_information s, o with
  | VHash h, Some (vs, salt) => if String.eqb (ctx_hash c vs salt) h then Some vs else None
  | VSchedule vs, None => Some vs
  | _, _ => None
  end.
(** Of a schedule that makes no sense the unvested amount may be undefined, or too large for a 128-bit number. *)
Definition defined (amount : N) (vs : vesting_schedule) (now : N) : bool :=
  (now <? cliff_timestamp vs) || (end_timestamp vs <=? now) ||
  (start_timestamp vs <? end_timestamp vs) && (not_vested amount vs now <? U128_BOUND).

(** * When a call is accepted *)
Definition accepted (c : ctx) (s : contract) (m : call) : bool :=
  (ctx_attached c =? 0) &&
  match m with
  (* the owner *)
  | SelectStakingPool p => from_owner c s && is_valid_account_id p && negb (selected s) && negb (terminating s)
  | UnselectStakingPool => owner_at_pool c s && (recorded s =? 0)
  | DepositToStakingPool a | DepositAndStake a =>
      owner_at_pool c s && (0 <? a) && (a <=? spare (ctx_balance c))
  | WithdrawFromStakingPool a | Stake a | Unstake a => owner_at_pool c s && (0 <? a)
  | RefreshStakingPoolBalance | WithdrawAllFromStakingPool | UnstakeAll => owner_at_pool c s
  | CheckTransfersVote => from_owner c s && negb (enabled s) && negb (terminating s)
  | Transfer a r =>
      from_owner c s && enabled s && negb (busy s) && negb (terminating s) &&
      (0 <? a) && is_valid_account_id r &&
      (* neither what is locked nor what is kept for storage is touched *)
      (a <=? ctx_balance c + recorded s - locked s (ctx_timestamp c)) && (a <=? spare (ctx_balance c))
  | AddFullAccessKey _ =>
      from_owner c s && enabled s && negb (busy s) && negb (terminating s) && (locked s (ctx_timestamp c) =? 0)
  (* the foundation *)
  | TerminateVesting o =>
      from_foundation c s &&
      match schedule_presented c s o with
      | Some vs => defined (lockup_amount (lockup_information s)) vs (ctx_timestamp c) &&
                   (0 <? not_vested (lockup_amount (lockup_information s)) vs (ctx_timestamp c))
      | None => false
      end
  | TerminationPrepareToWithdraw =>
      from_foundation c s && selected s && negb (busy s) &&
      match stage s with Some VestingTerminatedWithDeficit | Some EverythingUnstaked => true | _ => false end
  | TerminationWithdraw r =>
      from_foundation c s && is_valid_account_id r &&
      match stage s with Some ReadyToWithdraw => true | _ => false end &&
      (0 <? owed s) && (0 <? spare (ctx_balance c))
  (* callbacks *)
  | OnWhitelistIsWhitelisted _ =>
      from_itself c && match told_bool c with Some true => true | _ => false end &&
      negb (selected s) && negb (terminating s)
  | OnStakingPoolDeposit a | OnStakingPoolDepositAndStake a =>
      from_itself c && one_result c && selected s && (negb (succeeded c) || (recorded s + a <? U128_BOUND))
  | OnStakingPoolWithdraw _ | OnStakingPoolStake _ | OnStakingPoolUnstake _ | OnStakingPoolUnstakeAll =>
      from_itself c && one_result c && selected s
  | OnGetResultFromTransferPoll =>
      from_itself c && match told_poll c with Some _ => true | None => false end && negb (enabled s)
  | OnGetAccountTotalBalance | OnGetAccountUnstakedBalanceToWithdrawByOwner =>
      from_itself c && match told_balance c with Some _ => true | None => false end && selected s
  | OnGetAccountStakedBalanceToUnstake | OnGetAccountUnstakedBalanceToWithdraw =>
      from_itself c && selected s &&
      match told_balance c with Some x => (0 <? x) || terminating s | None => false end
  | OnStakingPoolUnstakeForTermination _ | OnStakingPoolWithdrawForTermination _ =>
      from_itself c && one_result c && selected s && terminating s
  | OnWithdrawUnvestedAmount a _ =>
      from_itself c && one_result c &&
      (if succeeded c then termination_withdrawn_tokens (lockup_information s) + a <? U128_BOUND
       else terminating s)
  end.

(** * What an accepted call changes *)
Definition with_pool (s : contract) (i : option staking_info) : contract :=
  mkContract (owner_account_id s) (lockup_information s) (vesting_information s)
    (staking_pool_whitelist_account_id s) i (foundation_account_id s).
Definition with_vesting (s : contract) (v : vesting_info) : contract :=
  mkContract (owner_account_id s) (lockup_information s) v
    (staking_pool_whitelist_account_id s) (staking_information s) (foundation_account_id s).
(** The pool stays selected; its status and the recorded deposit are given. *)
Definition pool_now (s : contract) (st : tx_status) (d : N) : contract :=
  with_pool s (option_map (fun i => mkStaking (staking_pool_account_id i) st d) (staking_information s)).
Definition begun (s : contract) : contract := pool_now s Busy (recorded s).
Definition over (s : contract) : contract := pool_now s Idle (recorded s).
(** The termination, if one is in progress, moves to a stage. *)
Definition at_stage (s : contract) (st : termination_status) : contract :=
  match vesting_information s with
  | VTerminating ti => with_vesting s (VTerminating (mkTermination (unvested_amount ti) st))
  | _ => s
  end.

Definition effect_of (c : ctx) (s : contract) (m : call) : contract :=
  let i := lockup_information s in
  match m with
  | SelectStakingPool _ | CheckTransfersVote | Transfer _ _ | AddFullAccessKey _ => s
  | UnselectStakingPool => with_pool s None
  | DepositToStakingPool _ | DepositAndStake _ | WithdrawFromStakingPool _ | Stake _ | Unstake _
  | RefreshStakingPoolBalance | WithdrawAllFromStakingPool | UnstakeAll => begun s
  | TerminateVesting o =>
      match schedule_presented c s o with
      | Some vs =>
          let u := not_vested (lockup_amount i) vs (ctx_timestamp c) in
          with_vesting s (VTerminating (mkTermination u
            (if selected s && (spare (ctx_balance c) <? u) then VestingTerminatedWithDeficit else ReadyToWithdraw)))
      | None => s
      end
  | TerminationPrepareToWithdraw =>
      at_stage (begun s) match stage s with
                         | Some VestingTerminatedWithDeficit => UnstakingInProgress
                         | _ => WithdrawingFromStakingPoolInProgress
                         end
  | TerminationWithdraw _ => at_stage s WithdrawingFromAccountInProgress
  | OnWhitelistIsWhitelisted p => with_pool s (Some (mkStaking p Idle 0))
  | OnStakingPoolDeposit a | OnStakingPoolDepositAndStake a =>
      pool_now s Idle (if succeeded c then recorded s + a else recorded s)
  | OnStakingPoolWithdraw a => pool_now s Idle (if succeeded c then recorded s - a else recorded s)
  | OnStakingPoolStake _ | OnStakingPoolUnstake _ | OnStakingPoolUnstakeAll => over s
  | OnGetResultFromTransferPoll =>
      match told_poll c with
      | Some (Some t) =>
          mkContract (owner_account_id s)
            (mkLockup (lockup_amount i) (termination_withdrawn_tokens i) (lockup_duration i) (release_duration i)
               (lockup_timestamp i) (TransfersEnabled t))
            (vesting_information s) (staking_pool_whitelist_account_id s) (staking_information s)
            (foundation_account_id s)
      | _ => s
      end
  | OnGetAccountTotalBalance =>
      match told_balance c with Some x => pool_now s Idle x | None => s end
  | OnGetAccountUnstakedBalanceToWithdrawByOwner =>
      match told_balance c with Some 0 => over s | _ => s end
  | OnGetAccountStakedBalanceToUnstake =>
      match told_balance c with Some 0 => at_stage (over s) EverythingUnstaked | _ => s end
  | OnStakingPoolUnstakeForTermination _ =>
      at_stage (over s) (if succeeded c then EverythingUnstaked else VestingTerminatedWithDeficit)
  | OnGetAccountUnstakedBalanceToWithdraw =>
      match told_balance c with Some 0 => at_stage (over s) ReadyToWithdraw | _ => s end
  | OnStakingPoolWithdrawForTermination a =>
      if succeeded c then at_stage (pool_now s Idle (recorded s - a)) ReadyToWithdraw
      else at_stage (over s) EverythingUnstaked
  | OnWithdrawUnvestedAmount a _ =>
      if succeeded c then
        (* what was taken is recorded; when nothing is owed any more, vesting and the foundation are gone *)
        mkContract (owner_account_id s)
          (mkLockup (lockup_amount i) (termination_withdrawn_tokens i + a) (lockup_duration i) (release_duration i)
             (lockup_timestamp i) (transfers_information i))
          (if a <? owed s then VTerminating (mkTermination (owed s - a) ReadyToWithdraw) else VNone)
          (staking_pool_whitelist_account_id s) (staking_information s)
          (if a <? owed s then foundation_account_id s else None)
      else at_stage s ReadyToWithdraw
  end.

(** * What an accepted call asks for, and which callback gets the answer *)
Definition to_pool (s : contract) (op : pool_op) (cb : call) : option (remote * option call) :=
  option_map (fun i => (RPool (staking_pool_account_id i) op, Some cb)) (staking_information s).

Definition request_of (c : ctx) (s : contract) (m : call) : option (remote * option call) :=
  match m with
  | SelectStakingPool p =>
      Some (RIsWhitelisted (staking_pool_whitelist_account_id s) p, Some (OnWhitelistIsWhitelisted p))
  | DepositToStakingPool a => to_pool s (PDeposit a) (OnStakingPoolDeposit a)
  | DepositAndStake a => to_pool s (PDepositAndStake a) (OnStakingPoolDepositAndStake a)
  | WithdrawFromStakingPool a => to_pool s (PWithdraw a) (OnStakingPoolWithdraw a)
  | Stake a => to_pool s (PStake a) (OnStakingPoolStake a)
  | Unstake a => to_pool s (PUnstake a) (OnStakingPoolUnstake a)
  | UnstakeAll => to_pool s PUnstakeAll OnStakingPoolUnstakeAll
  | RefreshStakingPoolBalance => to_pool s PGetTotal OnGetAccountTotalBalance
  | WithdrawAllFromStakingPool => to_pool s PGetUnstaked OnGetAccountUnstakedBalanceToWithdrawByOwner
  | CheckTransfersVote =>
      match transfers_information (lockup_information s) with
      | TransfersDisabled poll => Some (RGetResult poll, Some OnGetResultFromTransferPoll)
      | TransfersEnabled _ => None
      end
  | Transfer a r => Some (RTransfer r a, None)
  | AddFullAccessKey pk => Some (RAddFullAccessKey pk, None)
  | TerminationPrepareToWithdraw =>
      match stage s with
      | Some VestingTerminatedWithDeficit => to_pool s PGetStaked OnGetAccountStakedBalanceToUnstake
      | _ => to_pool s PGetUnstaked OnGetAccountUnstakedBalanceToWithdraw
      end
  | TerminationWithdraw r =>
      let a := N.min (owed s) (spare (ctx_balance c)) in
      Some (RTransfer r a, Some (OnWithdrawUnvestedAmount a r))
  (* an answer that there is something to unstake or to withdraw leads to the next request *)
  | OnGetAccountUnstakedBalanceToWithdrawByOwner =>
      match told_balance c with
      | None | Some 0 => None
      | Some x => to_pool s (PWithdraw x) (OnStakingPoolWithdraw x)
      end
  | OnGetAccountStakedBalanceToUnstake =>
      match told_balance c with
      | None | Some 0 => None
      | Some x => to_pool s (PUnstake x) (OnStakingPoolUnstakeForTermination x)
      end
  | OnGetAccountUnstakedBalanceToWithdraw =>
      match told_balance c with
      | None | Some 0 => None
      | Some x => to_pool s (PWithdraw x) (OnStakingPoolWithdrawForTermination x)
      end
  | _ => None
  end.

(** * The answer of the agreement: refused, or the new state and the request *)
Definition by_the_book (c : ctx) (s : contract) (m : call)
    : option (contract * option (remote * option call)) :=
  if accepted c s m then Some (effect_of c s m, request_of c s m) else None.

(** What the contract answered, without messages and gas (for which see C61). *)
Definition answered (r : res output) : option (contract * option (remote * option call)) :=
  match r with
  | Ok (s, p) => Some (s, option_map (fun p => (p_remote p, option_map fst (p_then p))) p)
  | Panic _ => None
  end.

(** The times of a schedule that is presented are 64-bit numbers. *)
Definition call_in_range (m : call) : Prop :=
  match m with TerminateVesting (Some (vs, _)) => u64_schedule vs | _ => True end.

(** * Whole histories, by the book *)

(** One call of the lockup in the world. *)
Definition run_by_the_book (g : genesis) (w : world) (who : account_id) (attached : N)
    (results : list (option answer)) (m : call) : option world * list obs :=
  let c := mkCtx (g_self g) who attached (w_time w) (w_balance w + attached) results (g_hash g) in
  match by_the_book c (w_lockup w) m with
  | None => (None, [])
  | Some (s, None) => (Some (mkWorld s (w_balance w) (w_time w) (w_pools w) (w_msgs w)), [])
  | Some (s, Some (r, cb)) =>
      (Some (mkWorld s (w_balance w - attached_to r) (w_time w) (w_pools w) (w_msgs w ++ [MCall r cb])), [BSent r])
  end.
(** Calls and callbacks go by the book; the other events are not the contract's doing. *)
Definition step_by_the_book (g : genesis) (w : world) (ev : event) : world * list obs :=
  match ev with
  | ECall who attached m =>
      if String.eqb who (g_self g) then (w, [])
      else match run_by_the_book g w who attached [] m with
           | (Some w', l) => (w', BCalled who m true :: l)
           | (None, _) => (w, [BCalled who m false])
           end
  | ERun n =>
      match nth_error (w_msgs w) n with
      | Some (MBack m r) =>
          let w1 := mkWorld (w_lockup w) (w_balance w) (w_time w) (w_pools w) (drop_nth n (w_msgs w)) in
          match run_by_the_book g w1 (g_self g) 0 [r] m with
          | (Some w', l) => (w', BCallback m r true :: l)
          | (None, _) => (w1, [BCallback m r false])
          end
      | _ => step_obs g w ev
      end
  | _ => step_obs g w ev
  end.
Fixpoint final_by_the_book (g : genesis) (w : world) (evs : list event) : world :=
  match evs with [] => w | ev :: r => final_by_the_book g (fst (step_by_the_book g w ev)) r end.
Fixpoint log_by_the_book (g : genesis) (w : world) (evs : list event) : list obs :=
  match evs with
  | [] => []
  | ev :: r => snd (step_by_the_book g w ev) ++ log_by_the_book g (fst (step_by_the_book g w ev)) r
  end%list.

(** The numbers stay in the range of the machine: the balance and the recorded deposit together are a 128-bit
    number, the times presented with a private schedule are 64-bit numbers. *)
Definition modest (w : world) (ev : event) : Prop :=
  w_balance w + recorded (w_lockup w) < U128_BOUND /\
  match ev with ECall _ _ m => call_in_range m | _ => True end.
Fixpoint all_modest (g : genesis) (w : world) (evs : list event) : Prop :=
  match evs with [] => True | ev :: r => modest w ev /\ all_modest g (step g w ev) r end.

(** * Views *)

(** The unvested amount a view shows for a schedule. *)
Definition unvested_shown (s : contract) (vs : vesting_schedule) (now : N) : N :=
  match vesting_information s with
  | VTerminating ti => unvested_amount ti
  | VNone => 0
  | VHash _ | VSchedule _ => not_vested (lockup_amount (lockup_information s)) vs now
  end.
