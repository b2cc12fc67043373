(** Model of the lockup contract: lockup/src/{lib,types,getters,internal,owner,owner_callbacks,foundation,
    foundation_callbacks,gas}.rs. Definitions only. Logging is not modelled; public keys, hashes and salts
    are opaque strings; what a call gives back is in LockupAnswers. *)
From Coq Require Import NArith List Bool String.
From Verif Require Import Prelude.
Import ListNotations.
Open Scope string_scope.
Open Scope N_scope.

(** lockup/src/lib.rs:33 *)
Definition MIN_BALANCE_FOR_STORAGE : N := 3500000000000000000000000.

(** lockup/src/types.rs:59-69 *)
Inductive transfers_info :=
| TransfersEnabled (transfers_timestamp : N)
| TransfersDisabled (transfer_poll_account_id : account_id).

(** lockup/src/types.rs:29-54 *)
Record lockup_info := mkLockup {
  lockup_amount : N;
  termination_withdrawn_tokens : N;
  lockup_duration : N;
  release_duration : option N;
  lockup_timestamp : option N;
  transfers_information : transfers_info
}.

(** lockup/src/types.rs:75-80 *)
Inductive tx_status := Idle | Busy.

(** lockup/src/types.rs:84-94 *)
Record staking_info := mkStaking {
  staking_pool_account_id : account_id;
  status : tx_status;
  deposit_amount : N
}.

(** lockup/src/types.rs:99-108 *)
Record vesting_schedule := mkSchedule { start_timestamp : N; cliff_timestamp : N; end_timestamp : N }.

(** lockup/src/types.rs:111-124. No code calls it. *)
Definition assert_valid (vs : vesting_schedule) : res unit :=
  assert! start_timestamp vs <=? cliff_timestamp vs
    orelse "Cliff timestamp can't be earlier than vesting start timestamp" ;;
  assert! cliff_timestamp vs <=? end_timestamp vs
    orelse "Cliff timestamp can't be later than vesting end timestamp" ;;
  require (start_timestamp vs <? end_timestamp vs) "The total vesting time should be positive".

(** lockup/src/types.rs:164-177 *)
Inductive termination_status :=
| VestingTerminatedWithDeficit
| UnstakingInProgress
| EverythingUnstaked
| WithdrawingFromStakingPoolInProgress
| ReadyToWithdraw
| WithdrawingFromAccountInProgress.

(** lockup/src/types.rs:182-190 *)
Record termination_info := mkTermination { unvested_amount : N; t_status : termination_status }.

(** lockup/src/types.rs:142-156 *)
Inductive vesting_info :=
| VNone
| VHash (h : string)
| VSchedule (vs : vesting_schedule)
| VTerminating (ti : termination_info).

(** lockup/src/types.rs:130-137 *)
Inductive schedule_or_hash := ArgHash (h : string) | ArgSchedule (vs : vesting_schedule).

(** lockup/src/lib.rs:121-141 *)
Record contract := mkContract {
  owner_account_id : account_id;
  lockup_information : lockup_info;
  vesting_information : vesting_info;
  staking_pool_whitelist_account_id : account_id;
  staking_information : option staking_info;
  foundation_account_id : option account_id
}.

Definition set_lockup (s : contract) (i : lockup_info) : contract :=
  mkContract (owner_account_id s) i (vesting_information s) (staking_pool_whitelist_account_id s)
    (staking_information s) (foundation_account_id s).
Definition set_vesting (s : contract) (v : vesting_info) : contract :=
  mkContract (owner_account_id s) (lockup_information s) v (staking_pool_whitelist_account_id s)
    (staking_information s) (foundation_account_id s).
Definition set_staking (s : contract) (i : option staking_info) : contract :=
  mkContract (owner_account_id s) (lockup_information s) (vesting_information s)
    (staking_pool_whitelist_account_id s) i (foundation_account_id s).
Definition set_foundation (s : contract) (f : option account_id) : contract :=
  mkContract (owner_account_id s) (lockup_information s) (vesting_information s)
    (staking_pool_whitelist_account_id s) (staking_information s) f.

(** What a promise answers. *)
Inductive answer :=
| AVoid
| ABool (b : bool)
| ABalance (x : N)
| APollResult (r : option N).

(** The runtime environment of one call. [ctx_results] are the results of the promises the call waited for
    ([None]: failed). [ctx_hash] is SHA-256 of the Borsh bytes of a schedule with salt
    (lockup/src/types.rs:206-210), an arbitrary function here. *)
Record ctx := mkCtx {
  ctx_current : account_id;
  ctx_predecessor : account_id;
  ctx_attached : N;
  ctx_timestamp : N;
  ctx_balance : N;
  ctx_results : list (option answer);
  ctx_hash : vesting_schedule -> string -> string
}.

(** * Initialisation *)

(** lockup/src/lib.rs:180-243; [#[init]] refuses when there is a state. *)
Definition new (c : ctx) (state_exists : bool) (owner : account_id) (duration : N) (timestamp : option N)
    (transfers : transfers_info) (vesting : option schedule_or_hash) (release : option N)
    (whitelist : account_id) (foundation : option account_id) : res contract :=
  assert! ctx_attached c =? 0 orelse "Method new doesn't accept deposit" ;;
  assert! negb state_exists orelse "The contract has already been initialized" ;;
  assert! is_valid_account_id owner orelse "The account ID of the owner is invalid" ;;
  assert! is_valid_account_id whitelist orelse "The staking pool whitelist account ID is invalid" ;;
  assert! match transfers with TransfersDisabled p => is_valid_account_id p | _ => true end
    orelse "The transfer poll account ID is invalid" ;;
  let info := mkLockup (ctx_balance c) 0 duration release timestamp transfers in
  let! v := match vesting with
            | None =>
                assert! match foundation with None => true | Some _ => false end
                  orelse "Foundation account can't be added without vesting schedule" ;;
                Ok VNone
            | Some (ArgHash h) => Ok (VHash h)
            | Some (ArgSchedule vs) => Ok (VSchedule vs)
            end in
  let! _ := match v with
            | VNone => Ok tt
            | _ => let! f := expect foundation "called `Option::unwrap()` on a `None` value" in
                   require (is_valid_account_id f) "Foundation account should be added for vesting schedule"
            end in
  Ok (mkContract owner info v whitelist None foundation).

(** * Getters *)

(** lockup/src/internal.rs:10-14 *)
Definition get_account_balance (balance : N) : N := sat_sub balance MIN_BALANCE_FOR_STORAGE.

(** lockup/src/getters.rs:9-30 *)
Definition get_owner_account_id (s : contract) : account_id := owner_account_id s.
Definition get_staking_pool_account_id (s : contract) : option account_id :=
  option_map staking_pool_account_id (staking_information s).
Definition get_known_deposited_balance (s : contract) : N :=
  match staking_information s with Some i => deposit_amount i | None => 0 end.

(** lockup/src/getters.rs:33-62 *)
Definition get_termination_status (s : contract) : option termination_status :=
  match vesting_information s with VTerminating ti => Some (t_status ti) | _ => None end.
Definition get_terminated_unvested_balance (s : contract) : N :=
  match vesting_information s with VTerminating ti => unvested_amount ti | _ => 0 end.
Definition get_terminated_unvested_balance_deficit (s : contract) (balance : N) : N :=
  sat_sub (get_terminated_unvested_balance s) (get_account_balance balance).

(** lockup/src/getters.rs:123-152 *)
Definition get_unvested_amount (s : contract) (now : N) (vs : vesting_schedule) : res N :=
  match vesting_information s with
  | VTerminating ti => Ok (unvested_amount ti)
  | VNone => Ok 0
  | _ =>
      if now <? cliff_timestamp vs then Ok (lockup_amount (lockup_information s))
      else if end_timestamp vs <=? now then Ok 0
      else
        let! time_left := sub_chk (end_timestamp vs) now in
        let! total_time := sub_chk (end_timestamp vs) (start_timestamp vs) in
        let! m := mul256 (lockup_amount (lockup_information s)) time_left in
        let! q := div_chk m total_time in
        as_u128 q
  end.

(** lockup/src/getters.rs:65-113 *)
Definition get_locked_amount (s : contract) (now : N) : res N :=
  let li := lockup_information s in
  let all := sub_chk (lockup_amount li) (termination_withdrawn_tokens li) in
  match transfers_information li with
  | TransfersDisabled _ => all
  | TransfersEnabled transfers_timestamp =>
      let lockup_ts := N.max (sat_add64 transfers_timestamp (lockup_duration li))
                             (match lockup_timestamp li with Some t => t | None => 0 end) in
      if lockup_ts <=? now then
        let! unreleased :=
          match release_duration li with
          | Some d =>
              let end_ts := sat_add64 lockup_ts d in
              if end_ts <=? now then Ok 0
              else
                let! time_left := sub_chk end_ts now in
                let! m := mul256 (lockup_amount li) time_left in
                let! q := div_chk m d in
                as_u128 q
          | None => Ok 0
          end in
        let! unvested :=
          match vesting_information s with
          | VSchedule vs => get_unvested_amount s now vs
          | VTerminating ti => Ok (unvested_amount ti)
          | _ => Ok 0
          end in
        Ok (N.max (sat_sub unreleased (termination_withdrawn_tokens li)) unvested)
      else all
  end.

(** lockup/src/getters.rs:117-119 *)
Definition get_locked_vested_amount (s : contract) (now : N) (vs : vesting_schedule) : res N :=
  let! a := get_locked_amount s now in
  let! b := get_unvested_amount s now vs in
  sub_chk a b.

(** lockup/src/getters.rs:155-186 *)
Definition get_vesting_information (s : contract) : vesting_info := vesting_information s.
Definition get_owners_balance (s : contract) (now balance : N) : res N :=
  let! b := add128 balance (get_known_deposited_balance s) in
  let! l := get_locked_amount s now in
  Ok (sat_sub b l).
Definition get_balance (s : contract) (balance : N) : res N := add128 balance (get_known_deposited_balance s).
Definition get_liquid_owners_balance (s : contract) (now balance : N) : res N :=
  let! o := get_owners_balance s now balance in
  Ok (N.min o (get_account_balance balance)).
Definition are_transfers_enabled (s : contract) : bool :=
  match transfers_information (lockup_information s) with
  | TransfersEnabled _ => true
  | TransfersDisabled _ => false
  end.

(** * Internal methods *)

(** lockup/src/internal.rs:16-21 *)
Definition set_staking_pool_status (s : contract) (st : tx_status) : res contract :=
  let! i := expect (staking_information s) "Staking pool should be selected" in
  Ok (set_staking s (Some (mkStaking (staking_pool_account_id i) st (deposit_amount i)))).

(** lockup/src/internal.rs:23-31 *)
Definition set_termination_status (s : contract) (st : termination_status) : res contract :=
  match vesting_information s with
  | VTerminating ti => Ok (set_vesting s (VTerminating (mkTermination (unvested_amount ti) st)))
  | _ => Panic "The vesting information is not at the terminating stage"
  end.

(** lockup/src/internal.rs:33-60 *)
Definition assert_vesting (c : ctx) (s : contract) (o : option (vesting_schedule * string))
    : res vesting_schedule :=
  match vesting_information s with
  | VHash h =>
      match o with
      | Some (vs, salt) =>
          assert! String.eqb (ctx_hash c vs salt) h
            orelse "Presented vesting schedule and salt don't match the hash" ;;
          Ok vs
      | None => Panic "Expected vesting schedule and salt, but it was not provided"
      end
  | VSchedule vs =>
      assert! match o with None => true | Some _ => false end orelse "Explicit vesting schedule exists" ;;
      Ok vs
  | VTerminating _ => Panic "Vesting was terminated"
  | VNone => Panic "Vesting is None"
  end.

(** lockup/src/internal.rs:62-66 *)
Definition assert_no_termination (s : contract) : res unit :=
  match vesting_information s with
  | VTerminating _ => Panic "All operations are blocked until vesting termination is completed"
  | _ => Ok tt
  end.

(** lockup/src/internal.rs:68-77 *)
Definition assert_transfers_enabled (s : contract) : res unit :=
  require (are_transfers_enabled s) "Transfers are disabled".
Definition assert_transfers_disabled (s : contract) : res unit :=
  require (negb (are_transfers_enabled s)) "Transfers are already enabled".

(** lockup/src/internal.rs:79-88 *)
Definition assert_no_staking_or_idle (s : contract) : res unit :=
  match staking_information s with
  | Some i => match status i with
              | Idle => Ok tt
              | Busy => Panic "Contract is currently busy with another operation"
              end
  | None => Ok tt
  end.

(** lockup/src/internal.rs:90-101; the result is the id of the pool, for the promise that follows. *)
Definition assert_staking_pool_is_idle (s : contract) : res account_id :=
  match staking_information s with
  | Some i => match status i with
              | Idle => Ok (staking_pool_account_id i)
              | Busy => Panic "Contract is currently busy with another operation"
              end
  | None => Panic "Staking pool is not selected"
  end.

(** lockup/src/internal.rs:103-108 *)
Definition assert_staking_pool_is_not_selected (s : contract) : res unit :=
  match staking_information s with
  | None => Ok tt
  | Some _ => Panic "Staking pool is already selected"
  end.

(** lockup/src/internal.rs:110-120 *)
Definition assert_called_by_foundation (c : ctx) (s : contract) : res unit :=
  match foundation_account_id s with
  | Some f => require (String.eqb (ctx_predecessor c) f) "Can only be called by NEAR Foundation"
  | None => Panic "No NEAR Foundation account is specified in the contract"
  end.

(** lockup/src/internal.rs:122-128 *)
Definition assert_owner (c : ctx) (s : contract) : res unit :=
  require (String.eqb (ctx_predecessor c) (owner_account_id s)) "Can only be called by the owner".

(** near-sdk 3.1.0: [assert_self] and [is_promise_success]. *)
Definition assert_self (c : ctx) : res unit :=
  require (String.eqb (ctx_predecessor c) (ctx_current c)) "Method is private".
Definition is_promise_success (c : ctx) : res bool :=
  match ctx_results c with
  | [r] => Ok (match r with Some _ => true | None => false end)
  | _ => Panic "Contract expected a result on the callback"
  end.

(** near-sdk 3.1.0: a [#[callback]] argument is the result of the first promise; the call fails when that
    promise failed or answered something else. *)
Definition callback_arg (c : ctx) : res answer :=
  match ctx_results c with
  | Some a :: _ => Ok a
  | _ => Panic "Callback computation 0 was not successful"
  end.
Definition callback_bool (c : ctx) : res bool :=
  let! a := callback_arg c in
  match a with ABool b => Ok b | _ => Panic "Failed to deserialize callback using JSON" end.
Definition callback_balance (c : ctx) : res N :=
  let! a := callback_arg c in
  match a with ABalance x => Ok x | _ => Panic "Failed to deserialize callback using JSON" end.
Definition callback_poll (c : ctx) : res (option N) :=
  let! a := callback_arg c in
  match a with APollResult r => Ok r | _ => Panic "Failed to deserialize callback using JSON" end.

(** * Gas: lockup/src/gas.rs *)
Definition BASE_GAS : N := 25000000000000.
Definition G_IS_WHITELISTED := BASE_GAS.
Definition G_DEPOSIT := BASE_GAS * 2.
Definition G_DEPOSIT_AND_STAKE := BASE_GAS * 3.
Definition G_WITHDRAW := BASE_GAS * 3.
Definition G_STAKE := BASE_GAS * 3.
Definition G_UNSTAKE := BASE_GAS * 3.
Definition G_UNSTAKE_ALL := BASE_GAS * 3.
Definition G_GET_ACCOUNT_STAKED_BALANCE := BASE_GAS.
Definition G_GET_ACCOUNT_UNSTAKED_BALANCE := BASE_GAS.
Definition G_GET_ACCOUNT_TOTAL_BALANCE := BASE_GAS.
Definition G_GET_RESULT := BASE_GAS.
Definition G_ON_WHITELIST_IS_WHITELISTED := BASE_GAS.
Definition G_ON_STAKING_POOL_DEPOSIT := BASE_GAS.
Definition G_ON_STAKING_POOL_DEPOSIT_AND_STAKE := BASE_GAS.
Definition G_ON_STAKING_POOL_WITHDRAW := BASE_GAS.
Definition G_ON_STAKING_POOL_STAKE := BASE_GAS.
Definition G_ON_STAKING_POOL_UNSTAKE := BASE_GAS.
Definition G_ON_STAKING_POOL_UNSTAKE_ALL := BASE_GAS.
Definition G_ON_VOTING_GET_RESULT := BASE_GAS.
Definition G_ON_GET_ACCOUNT_TOTAL_BALANCE := BASE_GAS.
Definition G_ON_GET_ACCOUNT_UNSTAKED_BALANCE_TO_WITHDRAW_BY_OWNER :=
  BASE_GAS + G_WITHDRAW + G_ON_STAKING_POOL_WITHDRAW.
Definition G_ON_STAKING_POOL_UNSTAKE_FOR_TERMINATION := BASE_GAS.
Definition G_ON_GET_ACCOUNT_STAKED_BALANCE_TO_UNSTAKE :=
  BASE_GAS + G_UNSTAKE + G_ON_STAKING_POOL_UNSTAKE_FOR_TERMINATION.
Definition G_ON_STAKING_POOL_WITHDRAW_FOR_TERMINATION := BASE_GAS.
Definition G_ON_GET_ACCOUNT_UNSTAKED_BALANCE_TO_WITHDRAW :=
  BASE_GAS + G_WITHDRAW + G_ON_STAKING_POOL_WITHDRAW_FOR_TERMINATION.
Definition G_ON_WITHDRAW_UNVESTED_AMOUNT := BASE_GAS.

(** * Promises *)

(** lockup/src/lib.rs:36-54; the amount of the first two is attached. *)
Inductive pool_op :=
| PDeposit (amount : N)
| PDepositAndStake (amount : N)
| PWithdraw (amount : N)
| PStake (amount : N)
| PUnstake (amount : N)
| PUnstakeAll
| PGetStaked
| PGetUnstaked
| PGetTotal.

(** What is asked of another account (or, for a key, of the account itself). *)
Inductive remote :=
| RIsWhitelisted (whitelist pool : account_id)
| RGetResult (poll : account_id)
| RPool (pool : account_id) (op : pool_op)
| RTransfer (receiver : account_id) (amount : N)
| RAddFullAccessKey (pk : public_key).

(** All exported methods that change the state, with their arguments. *)
Inductive call :=
| SelectStakingPool (pool : account_id)
| UnselectStakingPool
| DepositToStakingPool (amount : N)
| DepositAndStake (amount : N)
| RefreshStakingPoolBalance
| WithdrawFromStakingPool (amount : N)
| WithdrawAllFromStakingPool
| Stake (amount : N)
| Unstake (amount : N)
| UnstakeAll
| CheckTransfersVote
| Transfer (amount : N) (receiver : account_id)
| AddFullAccessKey (pk : public_key)
| TerminateVesting (o : option (vesting_schedule * string))
| TerminationPrepareToWithdraw
| TerminationWithdraw (receiver : account_id)
| OnWhitelistIsWhitelisted (pool : account_id)
| OnStakingPoolDeposit (amount : N)
| OnStakingPoolDepositAndStake (amount : N)
| OnStakingPoolWithdraw (amount : N)
| OnStakingPoolStake (amount : N)
| OnStakingPoolUnstake (amount : N)
| OnStakingPoolUnstakeAll
| OnGetResultFromTransferPoll
| OnGetAccountTotalBalance
| OnGetAccountUnstakedBalanceToWithdrawByOwner
| OnGetAccountStakedBalanceToUnstake
| OnStakingPoolUnstakeForTermination (amount : N)
| OnGetAccountUnstakedBalanceToWithdraw
| OnStakingPoolWithdrawForTermination (amount : N)
| OnWithdrawUnvestedAmount (amount : N) (receiver : account_id).

(** A promise: what is asked, with which gas, and the callback on the contract itself, with its gas. *)
Record promise := mkPromise { p_remote : remote; p_gas : N; p_then : option (call * N) }.

(** The tokens a promise takes out of the account. *)
Definition attached_to (r : remote) : N :=
  match r with
  | RPool _ (PDeposit a) | RPool _ (PDepositAndStake a) => a
  | RTransfer _ a => a
  | _ => 0
  end.

Definition output := (contract * option promise)%type.
Definition ask (s : contract) (r : remote) (g : N) (cb : call) (g' : N) : res output :=
  Ok (s, Some (mkPromise r g (Some (cb, g')))).

(** * Owner's methods *)

(** lockup/src/owner.rs:12-41 *)
Definition select_staking_pool (c : ctx) (s : contract) (pool : account_id) : res output :=
  let! _ := assert_owner c s in
  assert! is_valid_account_id pool orelse "The staking pool account ID is invalid" ;;
  let! _ := assert_staking_pool_is_not_selected s in
  let! _ := assert_no_termination s in
  ask s (RIsWhitelisted (staking_pool_whitelist_account_id s) pool) G_IS_WHITELISTED
    (OnWhitelistIsWhitelisted pool) G_ON_WHITELIST_IS_WHITELISTED.

(** lockup/src/owner.rs:49-74 *)
Definition unselect_staking_pool (c : ctx) (s : contract) : res output :=
  let! _ := assert_owner c s in
  let! _ := assert_staking_pool_is_idle s in
  let! _ := assert_no_termination s in
  assert! get_known_deposited_balance s =? 0 orelse "There is still a deposit on the staking pool" ;;
  Ok (set_staking s None, None).

(** lockup/src/owner.rs:81-120 *)
Definition deposit_to_staking_pool (c : ctx) (s : contract) (amount : N) : res output :=
  let! _ := assert_owner c s in
  assert! 0 <? amount orelse "Amount should be positive" ;;
  let! pool := assert_staking_pool_is_idle s in
  let! _ := assert_no_termination s in
  assert! amount <=? get_account_balance (ctx_balance c)
    orelse "The balance that can be deposited to the staking pool is lower than the extra amount" ;;
  let! s := set_staking_pool_status s Busy in
  ask s (RPool pool (PDeposit amount)) G_DEPOSIT (OnStakingPoolDeposit amount) G_ON_STAKING_POOL_DEPOSIT.

(** lockup/src/owner.rs:127-166 *)
Definition deposit_and_stake (c : ctx) (s : contract) (amount : N) : res output :=
  let! _ := assert_owner c s in
  assert! 0 <? amount orelse "Amount should be positive" ;;
  let! pool := assert_staking_pool_is_idle s in
  let! _ := assert_no_termination s in
  assert! amount <=? get_account_balance (ctx_balance c)
    orelse "The balance that can be deposited to the staking pool is lower than the extra amount" ;;
  let! s := set_staking_pool_status s Busy in
  ask s (RPool pool (PDepositAndStake amount)) G_DEPOSIT_AND_STAKE
    (OnStakingPoolDepositAndStake amount) G_ON_STAKING_POOL_DEPOSIT_AND_STAKE.

(** lockup/src/owner.rs:176-209 *)
Definition refresh_staking_pool_balance (c : ctx) (s : contract) : res output :=
  let! _ := assert_owner c s in
  let! pool := assert_staking_pool_is_idle s in
  let! _ := assert_no_termination s in
  let! s := set_staking_pool_status s Busy in
  ask s (RPool pool PGetTotal) G_GET_ACCOUNT_TOTAL_BALANCE
    OnGetAccountTotalBalance G_ON_GET_ACCOUNT_TOTAL_BALANCE.

(** lockup/src/owner.rs:216-252 *)
Definition withdraw_from_staking_pool (c : ctx) (s : contract) (amount : N) : res output :=
  let! _ := assert_owner c s in
  assert! 0 <? amount orelse "Amount should be positive" ;;
  let! pool := assert_staking_pool_is_idle s in
  let! _ := assert_no_termination s in
  let! s := set_staking_pool_status s Busy in
  ask s (RPool pool (PWithdraw amount)) G_WITHDRAW (OnStakingPoolWithdraw amount) G_ON_STAKING_POOL_WITHDRAW.

(** lockup/src/owner.rs:259-294 *)
Definition withdraw_all_from_staking_pool (c : ctx) (s : contract) : res output :=
  let! _ := assert_owner c s in
  let! pool := assert_staking_pool_is_idle s in
  let! _ := assert_no_termination s in
  let! s := set_staking_pool_status s Busy in
  ask s (RPool pool PGetUnstaked) G_GET_ACCOUNT_UNSTAKED_BALANCE
    OnGetAccountUnstakedBalanceToWithdrawByOwner G_ON_GET_ACCOUNT_UNSTAKED_BALANCE_TO_WITHDRAW_BY_OWNER.

(** lockup/src/owner.rs:301-337 *)
Definition stake (c : ctx) (s : contract) (amount : N) : res output :=
  let! _ := assert_owner c s in
  assert! 0 <? amount orelse "Amount should be positive" ;;
  let! pool := assert_staking_pool_is_idle s in
  let! _ := assert_no_termination s in
  let! s := set_staking_pool_status s Busy in
  ask s (RPool pool (PStake amount)) G_STAKE (OnStakingPoolStake amount) G_ON_STAKING_POOL_STAKE.

(** lockup/src/owner.rs:344-380 *)
Definition unstake (c : ctx) (s : contract) (amount : N) : res output :=
  let! _ := assert_owner c s in
  assert! 0 <? amount orelse "Amount should be positive" ;;
  let! pool := assert_staking_pool_is_idle s in
  let! _ := assert_no_termination s in
  let! s := set_staking_pool_status s Busy in
  ask s (RPool pool (PUnstake amount)) G_UNSTAKE (OnStakingPoolUnstake amount) G_ON_STAKING_POOL_UNSTAKE.

(** lockup/src/owner.rs:387-419 *)
Definition unstake_all (c : ctx) (s : contract) : res output :=
  let! _ := assert_owner c s in
  let! pool := assert_staking_pool_is_idle s in
  let! _ := assert_no_termination s in
  let! s := set_staking_pool_status s Busy in
  ask s (RPool pool PUnstakeAll) G_UNSTAKE_ALL OnStakingPoolUnstakeAll G_ON_STAKING_POOL_UNSTAKE_ALL.

(** lockup/src/owner.rs:428-458 *)
Definition check_transfers_vote (c : ctx) (s : contract) : res output :=
  let! _ := assert_owner c s in
  let! _ := assert_transfers_disabled s in
  let! _ := assert_no_termination s in
  match transfers_information (lockup_information s) with
  | TransfersDisabled poll =>
      ask s (RGetResult poll) G_GET_RESULT OnGetResultFromTransferPoll G_ON_VOTING_GET_RESULT
  | TransfersEnabled _ => Panic "internal error: entered unreachable code"
  end.

(** lockup/src/owner.rs:467-487 *)
Definition transfer (c : ctx) (s : contract) (amount : N) (receiver : account_id) : res output :=
  let! _ := assert_owner c s in
  assert! 0 <? amount orelse "Amount should be positive" ;;
  assert! is_valid_account_id receiver orelse "The receiver account ID is invalid" ;;
  let! _ := assert_transfers_enabled s in
  let! _ := assert_no_staking_or_idle s in
  let! _ := assert_no_termination s in
  let! liquid := get_liquid_owners_balance s (ctx_timestamp c) (ctx_balance c) in
  assert! amount <=? liquid
    orelse "The available liquid balance is smaller than the requested transfer amount" ;;
  Ok (s, Some (mkPromise (RTransfer receiver amount) 0 None)).

(** lockup/src/owner.rs:502-514 *)
Definition add_full_access_key (c : ctx) (s : contract) (pk : public_key) : res output :=
  let! _ := assert_owner c s in
  let! _ := assert_transfers_enabled s in
  let! _ := assert_no_staking_or_idle s in
  let! _ := assert_no_termination s in
  let! locked := get_locked_amount s (ctx_timestamp c) in
  assert! locked =? 0 orelse "Tokens are still locked/unvested" ;;
  Ok (s, Some (mkPromise (RAddFullAccessKey pk) 0 None)).

(** * Owner's callbacks *)

(** lockup/src/owner_callbacks.rs:7-25 *)
Definition on_whitelist_is_whitelisted (c : ctx) (s : contract) (pool : account_id) : res output :=
  let! is_whitelisted := callback_bool c in
  let! _ := assert_self c in
  assert! is_whitelisted orelse "The given staking pool account ID is not whitelisted" ;;
  let! _ := assert_staking_pool_is_not_selected s in
  let! _ := assert_no_termination s in
  Ok (set_staking s (Some (mkStaking pool Idle 0)), None).

(** [self.staking_information.as_mut().unwrap().deposit_amount = f(deposit_amount)] *)
Definition update_deposit (s : contract) (f : N -> res N) : res contract :=
  let! i := expect (staking_information s) "called `Option::unwrap()` on a `None` value" in
  let! d := f (deposit_amount i) in
  Ok (set_staking s (Some (mkStaking (staking_pool_account_id i) (status i) d))).

(** lockup/src/owner_callbacks.rs:29-62 *)
Definition on_staking_pool_deposit (c : ctx) (s : contract) (amount : N) : res output :=
  let! _ := assert_self c in
  let! ok := is_promise_success c in
  let! s := set_staking_pool_status s Idle in
  if ok then let! s := update_deposit s (fun d => add128 d amount) in Ok (s, None)
  else Ok (s, None).

(** lockup/src/owner_callbacks.rs:67-100 *)
Definition on_staking_pool_deposit_and_stake (c : ctx) (s : contract) (amount : N) : res output :=
  let! _ := assert_self c in
  let! ok := is_promise_success c in
  let! s := set_staking_pool_status s Idle in
  if ok then let! s := update_deposit s (fun d => add128 d amount) in Ok (s, None)
  else Ok (s, None).

(** lockup/src/owner_callbacks.rs:105-145 *)
Definition on_staking_pool_withdraw (c : ctx) (s : contract) (amount : N) : res output :=
  let! _ := assert_self c in
  let! ok := is_promise_success c in
  let! s := set_staking_pool_status s Idle in
  if ok then let! s := update_deposit s (fun d => Ok (sat_sub d amount)) in Ok (s, None)
  else Ok (s, None).

(** lockup/src/owner_callbacks.rs:149-181, 185-217, 221-251: nothing but the status changes, whatever the
    outcome. *)
Definition on_staking_pool_stake (c : ctx) (s : contract) (amount : N) : res output :=
  let! _ := assert_self c in
  let! _ := is_promise_success c in
  let! s := set_staking_pool_status s Idle in
  Ok (s, None).
Definition on_staking_pool_unstake (c : ctx) (s : contract) (amount : N) : res output :=
  let! _ := assert_self c in
  let! _ := is_promise_success c in
  let! s := set_staking_pool_status s Idle in
  Ok (s, None).
Definition on_staking_pool_unstake_all (c : ctx) (s : contract) : res output :=
  let! _ := assert_self c in
  let! _ := is_promise_success c in
  let! s := set_staking_pool_status s Idle in
  Ok (s, None).

(** lockup/src/owner_callbacks.rs:254-278 *)
Definition on_get_result_from_transfer_poll (c : ctx) (s : contract) : res output :=
  let! r := callback_poll c in
  let! _ := assert_self c in
  let! _ := assert_transfers_disabled s in
  match r with
  | Some t =>
      let li := lockup_information s in
      Ok (set_lockup s (mkLockup (lockup_amount li) (termination_withdrawn_tokens li) (lockup_duration li)
                          (release_duration li) (lockup_timestamp li) (TransfersEnabled t)), None)
  | None => Ok (s, None)
  end.

(** lockup/src/owner_callbacks.rs:281-294 *)
Definition on_get_account_total_balance (c : ctx) (s : contract) : res output :=
  let! total := callback_balance c in
  let! _ := assert_self c in
  let! s := set_staking_pool_status s Idle in
  let! s := update_deposit s (fun _ => Ok total) in
  Ok (s, None).

(** [self.staking_information.as_ref().unwrap().staking_pool_account_id] *)
Definition the_pool (s : contract) : res account_id :=
  let! i := expect (staking_information s) "called `Option::unwrap()` on a `None` value" in
  Ok (staking_pool_account_id i).

(** lockup/src/owner_callbacks.rs:298-339 *)
Definition on_get_account_unstaked_balance_to_withdraw_by_owner (c : ctx) (s : contract) : res output :=
  let! unstaked := callback_balance c in
  let! _ := assert_self c in
  if 0 <? unstaked then
    let! pool := the_pool s in
    ask s (RPool pool (PWithdraw unstaked)) G_WITHDRAW
      (OnStakingPoolWithdraw unstaked) G_ON_STAKING_POOL_WITHDRAW
  else
    let! s := set_staking_pool_status s Idle in
    Ok (s, None).

(** * Foundation's methods *)

(** lockup/src/foundation.rs:15-47 *)
Definition terminate_vesting (c : ctx) (s : contract) (o : option (vesting_schedule * string)) : res output :=
  let! _ := assert_called_by_foundation c s in
  let! vs := assert_vesting c s o in
  let! unvested := get_unvested_amount s (ctx_timestamp c) vs in
  assert! 0 <? unvested orelse "The account is fully vested" ;;
  let deficit := sat_sub unvested (get_account_balance (ctx_balance c)) in
  let st := if (0 <? deficit) && match staking_information s with Some _ => true | None => false end
            then VestingTerminatedWithDeficit else ReadyToWithdraw in
  Ok (set_vesting s (VTerminating (mkTermination unvested st)), None).

(** lockup/src/foundation.rs:58-127 *)
Definition termination_prepare_to_withdraw (c : ctx) (s : contract) : res output :=
  let! _ := assert_called_by_foundation c s in
  let! pool := assert_staking_pool_is_idle s in
  match get_termination_status s with
  | None => Panic "There is no termination in progress"
  | Some UnstakingInProgress
  | Some WithdrawingFromStakingPoolInProgress
  | Some WithdrawingFromAccountInProgress => Panic "Another transaction is already in progress."
  | Some ReadyToWithdraw => Panic "The account is ready to withdraw unvested balance."
  | Some VestingTerminatedWithDeficit =>
      let! s := set_termination_status s UnstakingInProgress in
      let! s := set_staking_pool_status s Busy in
      ask s (RPool pool PGetStaked) G_GET_ACCOUNT_STAKED_BALANCE
        OnGetAccountStakedBalanceToUnstake G_ON_GET_ACCOUNT_STAKED_BALANCE_TO_UNSTAKE
  | Some EverythingUnstaked =>
      let! s := set_termination_status s WithdrawingFromStakingPoolInProgress in
      let! s := set_staking_pool_status s Busy in
      ask s (RPool pool PGetUnstaked) G_GET_ACCOUNT_UNSTAKED_BALANCE
        OnGetAccountUnstakedBalanceToWithdraw G_ON_GET_ACCOUNT_UNSTAKED_BALANCE_TO_WITHDRAW
  end.

(** lockup/src/foundation.rs:134-174 *)
Definition termination_withdraw (c : ctx) (s : contract) (receiver : account_id) : res output :=
  let! _ := assert_called_by_foundation c s in
  assert! is_valid_account_id receiver orelse "The receiver account ID is invalid" ;;
  assert! match get_termination_status s with Some ReadyToWithdraw => true | _ => false end
    orelse "Termination status is not ready to withdraw" ;;
  let amount := N.min (get_terminated_unvested_balance s) (get_account_balance (ctx_balance c)) in
  assert! 0 <? amount orelse "The account doesn't have enough liquid balance to withdraw any amount" ;;
  let! s := set_termination_status s WithdrawingFromAccountInProgress in
  ask s (RTransfer receiver amount) 0 (OnWithdrawUnvestedAmount amount receiver) G_ON_WITHDRAW_UNVESTED_AMOUNT.

(** * Foundation's callbacks *)

(** lockup/src/foundation_callbacks.rs:9-53 *)
Definition on_get_account_staked_balance_to_unstake (c : ctx) (s : contract) : res output :=
  let! staked := callback_balance c in
  let! _ := assert_self c in
  if 0 <? staked then
    let! pool := the_pool s in
    ask s (RPool pool (PUnstake staked)) G_UNSTAKE
      (OnStakingPoolUnstakeForTermination staked) G_ON_STAKING_POOL_UNSTAKE_FOR_TERMINATION
  else
    let! s := set_staking_pool_status s Idle in
    let! s := set_termination_status s EverythingUnstaked in
    Ok (s, None).

(** lockup/src/foundation_callbacks.rs:57-91 *)
Definition on_staking_pool_unstake_for_termination (c : ctx) (s : contract) (amount : N) : res output :=
  let! _ := assert_self c in
  let! ok := is_promise_success c in
  let! s := set_staking_pool_status s Idle in
  let! s := set_termination_status s (if ok then EverythingUnstaked else VestingTerminatedWithDeficit) in
  Ok (s, None).

(** lockup/src/foundation_callbacks.rs:95-139 *)
Definition on_get_account_unstaked_balance_to_withdraw (c : ctx) (s : contract) : res output :=
  let! unstaked := callback_balance c in
  let! _ := assert_self c in
  if 0 <? unstaked then
    let! pool := the_pool s in
    ask s (RPool pool (PWithdraw unstaked)) G_WITHDRAW
      (OnStakingPoolWithdrawForTermination unstaked) G_ON_STAKING_POOL_WITHDRAW_FOR_TERMINATION
  else
    let! s := set_staking_pool_status s Idle in
    let! s := set_termination_status s ReadyToWithdraw in
    Ok (s, None).

(** lockup/src/foundation_callbacks.rs:143-185 *)
Definition on_staking_pool_withdraw_for_termination (c : ctx) (s : contract) (amount : N) : res output :=
  let! _ := assert_self c in
  let! ok := is_promise_success c in
  let! s := set_staking_pool_status s Idle in
  if ok then
    let! s := set_termination_status s ReadyToWithdraw in
    let! s := update_deposit s (fun d => Ok (sat_sub d amount)) in
    Ok (s, None)
  else
    let! s := set_termination_status s EverythingUnstaked in
    Ok (s, None).

(** lockup/src/foundation_callbacks.rs:188-241 *)
Definition on_withdraw_unvested_amount (c : ctx) (s : contract) (amount : N) (receiver : account_id)
    : res output :=
  let! _ := assert_self c in
  let! ok := is_promise_success c in
  if ok then
    let li := lockup_information s in
    let! w := add128 (termination_withdrawn_tokens li) amount in
    let s := set_lockup s (mkLockup (lockup_amount li) w (lockup_duration li) (release_duration li)
                             (lockup_timestamp li) (transfers_information li)) in
    let unvested := get_terminated_unvested_balance s in
    if amount <? unvested then
      let! remaining := sub_chk unvested amount in
      Ok (set_vesting s (VTerminating (mkTermination remaining ReadyToWithdraw)), None)
    else
      Ok (set_vesting (set_foundation s None) VNone, None)
  else
    let! s := set_termination_status s ReadyToWithdraw in
    Ok (s, None).

(** The [#[near_bindgen]] entry points; none is [#[payable]]. *)
Definition exec (c : ctx) (s : contract) (m : call) : res output :=
  assert! ctx_attached c =? 0 orelse "Method doesn't accept deposit" ;;
  match m with
  | SelectStakingPool pool => select_staking_pool c s pool
  | UnselectStakingPool => unselect_staking_pool c s
  | DepositToStakingPool a => deposit_to_staking_pool c s a
  | DepositAndStake a => deposit_and_stake c s a
  | RefreshStakingPoolBalance => refresh_staking_pool_balance c s
  | WithdrawFromStakingPool a => withdraw_from_staking_pool c s a
  | WithdrawAllFromStakingPool => withdraw_all_from_staking_pool c s
  | Stake a => stake c s a
  | Unstake a => unstake c s a
  | UnstakeAll => unstake_all c s
  | CheckTransfersVote => check_transfers_vote c s
  | Transfer a r => transfer c s a r
  | AddFullAccessKey pk => add_full_access_key c s pk
  | TerminateVesting o => terminate_vesting c s o
  | TerminationPrepareToWithdraw => termination_prepare_to_withdraw c s
  | TerminationWithdraw r => termination_withdraw c s r
  | OnWhitelistIsWhitelisted pool => on_whitelist_is_whitelisted c s pool
  | OnStakingPoolDeposit a => on_staking_pool_deposit c s a
  | OnStakingPoolDepositAndStake a => on_staking_pool_deposit_and_stake c s a
  | OnStakingPoolWithdraw a => on_staking_pool_withdraw c s a
  | OnStakingPoolStake a => on_staking_pool_stake c s a
  | OnStakingPoolUnstake a => on_staking_pool_unstake c s a
  | OnStakingPoolUnstakeAll => on_staking_pool_unstake_all c s
  | OnGetResultFromTransferPoll => on_get_result_from_transfer_poll c s
  | OnGetAccountTotalBalance => on_get_account_total_balance c s
  | OnGetAccountUnstakedBalanceToWithdrawByOwner => on_get_account_unstaked_balance_to_withdraw_by_owner c s
  | OnGetAccountStakedBalanceToUnstake => on_get_account_staked_balance_to_unstake c s
  | OnStakingPoolUnstakeForTermination a => on_staking_pool_unstake_for_termination c s a
  | OnGetAccountUnstakedBalanceToWithdraw => on_get_account_unstaked_balance_to_withdraw c s
  | OnStakingPoolWithdrawForTermination a => on_staking_pool_withdraw_for_termination c s a
  | OnWithdrawUnvestedAmount a r => on_withdraw_unvested_amount c s a r
  end.
