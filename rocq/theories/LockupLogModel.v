(** The lockup with its log lines ([env::log]). The code is that of [LockupModel], with the lines each function
    writes, oldest first; [LockupLogProofs.exec_same] proves that without the lines it is the same. *)
From Coq Require Import NArith List Bool String.
From Verif Require Import Prelude LockupModel.
From Verif Require JsonModel.
Import ListNotations.
Open Scope string_scope.
Open Scope N_scope.

(** [format!("{}", n)] for an unsigned number. *)
Definition num (n : N) : string := JsonModel.decimal n.

Definition output_l := (contract * option promise * list string)%type.
Definition ask_l (s : contract) (r : remote) (g : N) (cb : call) (g' : N) (l : list string) : res output_l :=
  Ok (s, Some (mkPromise r g (Some (cb, g'))), l).

(** * Owner's methods *)

(** lockup/src/owner.rs:12-41; the line: 20-26. *)
Definition select_staking_pool_l (c : ctx) (s : contract) (pool : account_id) : res output_l :=
  let! _ := assert_owner c s in
  assert! is_valid_account_id pool orelse "The staking pool account ID is invalid" ;;
  let! _ := assert_staking_pool_is_not_selected s in
  let! _ := assert_no_termination s in
  ask_l s (RIsWhitelisted (staking_pool_whitelist_account_id s) pool) G_IS_WHITELISTED
    (OnWhitelistIsWhitelisted pool) G_ON_WHITELIST_IS_WHITELISTED
    ["Selecting staking pool @" ++ pool ++ ". Going to check whitelist first."].

(** lockup/src/owner.rs:49-74; the line: 62-71. *)
Definition unselect_staking_pool_l (c : ctx) (s : contract) : res output_l :=
  let! _ := assert_owner c s in
  let! pool := assert_staking_pool_is_idle s in
  let! _ := assert_no_termination s in
  assert! get_known_deposited_balance s =? 0 orelse "There is still a deposit on the staking pool" ;;
  Ok (set_staking s None, None, ["Unselected current staking pool @" ++ pool ++ "."]).

(** lockup/src/owner.rs:81-120; the line: 91-101. *)
Definition deposit_to_staking_pool_l (c : ctx) (s : contract) (amount : N) : res output_l :=
  let! _ := assert_owner c s in
  assert! 0 <? amount orelse "Amount should be positive" ;;
  let! pool := assert_staking_pool_is_idle s in
  let! _ := assert_no_termination s in
  assert! amount <=? get_account_balance (ctx_balance c)
    orelse "The balance that can be deposited to the staking pool is lower than the extra amount" ;;
  let! s := set_staking_pool_status s Busy in
  ask_l s (RPool pool (PDeposit amount)) G_DEPOSIT (OnStakingPoolDeposit amount) G_ON_STAKING_POOL_DEPOSIT
    ["Depositing " ++ num amount ++ " to the staking pool @" ++ pool].

(** lockup/src/owner.rs:127-166; the line: 137-147. *)
Definition deposit_and_stake_l (c : ctx) (s : contract) (amount : N) : res output_l :=
  let! _ := assert_owner c s in
  assert! 0 <? amount orelse "Amount should be positive" ;;
  let! pool := assert_staking_pool_is_idle s in
  let! _ := assert_no_termination s in
  assert! amount <=? get_account_balance (ctx_balance c)
    orelse "The balance that can be deposited to the staking pool is lower than the extra amount" ;;
  let! s := set_staking_pool_status s Busy in
  ask_l s (RPool pool (PDepositAndStake amount)) G_DEPOSIT_AND_STAKE
    (OnStakingPoolDepositAndStake amount) G_ON_STAKING_POOL_DEPOSIT_AND_STAKE
    ["Depositing and staking " ++ num amount ++ " to the staking pool @" ++ pool].

(** lockup/src/owner.rs:176-209; the line: 181-190. *)
Definition refresh_staking_pool_balance_l (c : ctx) (s : contract) : res output_l :=
  let! _ := assert_owner c s in
  let! pool := assert_staking_pool_is_idle s in
  let! _ := assert_no_termination s in
  let! s := set_staking_pool_status s Busy in
  ask_l s (RPool pool PGetTotal) G_GET_ACCOUNT_TOTAL_BALANCE
    OnGetAccountTotalBalance G_ON_GET_ACCOUNT_TOTAL_BALANCE
    ["Fetching total balance from the staking pool @" ++ pool].

(** lockup/src/owner.rs:216-252; the line: 222-232. *)
Definition withdraw_from_staking_pool_l (c : ctx) (s : contract) (amount : N) : res output_l :=
  let! _ := assert_owner c s in
  assert! 0 <? amount orelse "Amount should be positive" ;;
  let! pool := assert_staking_pool_is_idle s in
  let! _ := assert_no_termination s in
  let! s := set_staking_pool_status s Busy in
  ask_l s (RPool pool (PWithdraw amount)) G_WITHDRAW (OnStakingPoolWithdraw amount) G_ON_STAKING_POOL_WITHDRAW
    ["Withdrawing " ++ num amount ++ " from the staking pool @" ++ pool].

(** lockup/src/owner.rs:259-294; the line: 264-273. *)
Definition withdraw_all_from_staking_pool_l (c : ctx) (s : contract) : res output_l :=
  let! _ := assert_owner c s in
  let! pool := assert_staking_pool_is_idle s in
  let! _ := assert_no_termination s in
  let! s := set_staking_pool_status s Busy in
  ask_l s (RPool pool PGetUnstaked) G_GET_ACCOUNT_UNSTAKED_BALANCE
    OnGetAccountUnstakedBalanceToWithdrawByOwner G_ON_GET_ACCOUNT_UNSTAKED_BALANCE_TO_WITHDRAW_BY_OWNER
    ["Going to query the unstaked balance at the staking pool @" ++ pool].

(** lockup/src/owner.rs:301-337; the line: 307-317. *)
Definition stake_l (c : ctx) (s : contract) (amount : N) : res output_l :=
  let! _ := assert_owner c s in
  assert! 0 <? amount orelse "Amount should be positive" ;;
  let! pool := assert_staking_pool_is_idle s in
  let! _ := assert_no_termination s in
  let! s := set_staking_pool_status s Busy in
  ask_l s (RPool pool (PStake amount)) G_STAKE (OnStakingPoolStake amount) G_ON_STAKING_POOL_STAKE
    ["Staking " ++ num amount ++ " at the staking pool @" ++ pool].

(** lockup/src/owner.rs:344-380; the line: 350-360. *)
Definition unstake_l (c : ctx) (s : contract) (amount : N) : res output_l :=
  let! _ := assert_owner c s in
  assert! 0 <? amount orelse "Amount should be positive" ;;
  let! pool := assert_staking_pool_is_idle s in
  let! _ := assert_no_termination s in
  let! s := set_staking_pool_status s Busy in
  ask_l s (RPool pool (PUnstake amount)) G_UNSTAKE (OnStakingPoolUnstake amount) G_ON_STAKING_POOL_UNSTAKE
    ["Unstaking " ++ num amount ++ " from the staking pool @" ++ pool].

(** lockup/src/owner.rs:387-419; the line: 392-401. *)
Definition unstake_all_l (c : ctx) (s : contract) : res output_l :=
  let! _ := assert_owner c s in
  let! pool := assert_staking_pool_is_idle s in
  let! _ := assert_no_termination s in
  let! s := set_staking_pool_status s Busy in
  ask_l s (RPool pool PUnstakeAll) G_UNSTAKE_ALL OnStakingPoolUnstakeAll G_ON_STAKING_POOL_UNSTAKE_ALL
    ["Unstaking all tokens from the staking pool @" ++ pool].

(** lockup/src/owner.rs:428-458; the line: 440-446. *)
Definition check_transfers_vote_l (c : ctx) (s : contract) : res output_l :=
  let! _ := assert_owner c s in
  let! _ := assert_transfers_disabled s in
  let! _ := assert_no_termination s in
  match transfers_information (lockup_information s) with
  | TransfersDisabled poll =>
      ask_l s (RGetResult poll) G_GET_RESULT OnGetResultFromTransferPoll G_ON_VOTING_GET_RESULT
        ["Checking that transfers are enabled at the transfer poll contract @" ++ poll]
  | TransfersEnabled _ => Panic "internal error: entered unreachable code"
  end.

(** lockup/src/owner.rs:467-487; the line: 484. *)
Definition transfer_l (c : ctx) (s : contract) (amount : N) (receiver : account_id) : res output_l :=
  let! _ := assert_owner c s in
  assert! 0 <? amount orelse "Amount should be positive" ;;
  assert! is_valid_account_id receiver orelse "The receiver account ID is invalid" ;;
  let! _ := assert_transfers_enabled s in
  let! _ := assert_no_staking_or_idle s in
  let! _ := assert_no_termination s in
  let! liquid := get_liquid_owners_balance s (ctx_timestamp c) (ctx_balance c) in
  assert! amount <=? liquid
    orelse "The available liquid balance is smaller than the requested transfer amount" ;;
  Ok (s, Some (mkPromise (RTransfer receiver amount) 0 None),
      ["Transferring " ++ num amount ++ " to account @" ++ receiver]).

(** lockup/src/owner.rs:502-514; the line: 509. *)
Definition add_full_access_key_l (c : ctx) (s : contract) (pk : public_key) : res output_l :=
  let! _ := assert_owner c s in
  let! _ := assert_transfers_enabled s in
  let! _ := assert_no_staking_or_idle s in
  let! _ := assert_no_termination s in
  let! locked := get_locked_amount s (ctx_timestamp c) in
  assert! locked =? 0 orelse "Tokens are still locked/unvested" ;;
  Ok (s, Some (mkPromise (RAddFullAccessKey pk) 0 None), ["Adding a full access key"]).

(** * Owner's callbacks *)

(** lockup/src/owner_callbacks.rs:7-25; writes no line. *)
Definition on_whitelist_is_whitelisted_l (c : ctx) (s : contract) (pool : account_id) : res output_l :=
  let! is_whitelisted := callback_bool c in
  let! _ := assert_self c in
  assert! is_whitelisted orelse "The given staking pool account ID is not whitelisted" ;;
  let! _ := assert_staking_pool_is_not_selected s in
  let! _ := assert_no_termination s in
  Ok (set_staking s (Some (mkStaking pool Idle 0)), None, []).

(** lockup/src/owner_callbacks.rs:29-62; the lines: 37-47 and 49-59. *)
Definition on_staking_pool_deposit_l (c : ctx) (s : contract) (amount : N) : res output_l :=
  let! _ := assert_self c in
  let! ok := is_promise_success c in
  let! s := set_staking_pool_status s Idle in
  if ok then
    let! s := update_deposit s (fun d => add128 d amount) in
    let! pool := the_pool s in
    Ok (s, None, ["The deposit of " ++ num amount ++ " to @" ++ pool ++ " succeeded"])
  else
    let! pool := the_pool s in
    Ok (s, None, ["The deposit of " ++ num amount ++ " to @" ++ pool ++ " has failed"]).

(** lockup/src/owner_callbacks.rs:67-100; the lines: 75-85 and 87-97. *)
Definition on_staking_pool_deposit_and_stake_l (c : ctx) (s : contract) (amount : N) : res output_l :=
  let! _ := assert_self c in
  let! ok := is_promise_success c in
  let! s := set_staking_pool_status s Idle in
  if ok then
    let! s := update_deposit s (fun d => add128 d amount) in
    let! pool := the_pool s in
    Ok (s, None, ["The deposit and stake of " ++ num amount ++ " to @" ++ pool ++ " succeeded"])
  else
    let! pool := the_pool s in
    Ok (s, None, ["The deposit and stake of " ++ num amount ++ " to @" ++ pool ++ " has failed"]).

(** lockup/src/owner_callbacks.rs:105-145; the lines: 120-130 and 132-142. *)
Definition on_staking_pool_withdraw_l (c : ctx) (s : contract) (amount : N) : res output_l :=
  let! _ := assert_self c in
  let! ok := is_promise_success c in
  let! s := set_staking_pool_status s Idle in
  if ok then
    let! s := update_deposit s (fun d => Ok (sat_sub d amount)) in
    let! pool := the_pool s in
    Ok (s, None, ["The withdrawal of " ++ num amount ++ " from @" ++ pool ++ " succeeded"])
  else
    let! pool := the_pool s in
    Ok (s, None, ["The withdrawal of " ++ num amount ++ " from @" ++ pool ++ " failed"]).

(** lockup/src/owner_callbacks.rs:149-181; the lines: 156-166 and 168-178. *)
Definition on_staking_pool_stake_l (c : ctx) (s : contract) (amount : N) : res output_l :=
  let! _ := assert_self c in
  let! ok := is_promise_success c in
  let! s := set_staking_pool_status s Idle in
  let! pool := the_pool s in
  Ok (s, None, [if ok then "Staking of " ++ num amount ++ " at @" ++ pool ++ " succeeded"
                else "Staking " ++ num amount ++ " at @" ++ pool ++ " has failed"]).

(** lockup/src/owner_callbacks.rs:185-217; the lines: 192-202 and 204-214. *)
Definition on_staking_pool_unstake_l (c : ctx) (s : contract) (amount : N) : res output_l :=
  let! _ := assert_self c in
  let! ok := is_promise_success c in
  let! s := set_staking_pool_status s Idle in
  let! pool := the_pool s in
  Ok (s, None, [if ok then "Unstaking of " ++ num amount ++ " at @" ++ pool ++ " succeeded"
                else "Unstaking " ++ num amount ++ " at @" ++ pool ++ " has failed"]).

(** lockup/src/owner_callbacks.rs:221-251; the lines: 228-237 and 239-248. *)
Definition on_staking_pool_unstake_all_l (c : ctx) (s : contract) : res output_l :=
  let! _ := assert_self c in
  let! ok := is_promise_success c in
  let! s := set_staking_pool_status s Idle in
  let! pool := the_pool s in
  Ok (s, None, [if ok then "Unstaking all at @" ++ pool ++ " succeeded"
                else "Unstaking all at @" ++ pool ++ " has failed"]).

(** lockup/src/owner_callbacks.rs:254-278; the lines: 262-268 and 275. *)
Definition on_get_result_from_transfer_poll_l (c : ctx) (s : contract) : res output_l :=
  let! r := callback_poll c in
  let! _ := assert_self c in
  let! _ := assert_transfers_disabled s in
  match r with
  | Some t =>
      let li := lockup_information s in
      Ok (set_lockup s (mkLockup (lockup_amount li) (termination_withdrawn_tokens li) (lockup_duration li)
                          (release_duration li) (lockup_timestamp li) (TransfersEnabled t)), None,
          ["Transfers were successfully enabled at " ++ num t])
  | None => Ok (s, None, ["The transfers are not enabled yet"])
  end.

(** lockup/src/owner_callbacks.rs:281-294; the line: 285-291. *)
Definition on_get_account_total_balance_l (c : ctx) (s : contract) : res output_l :=
  let! total := callback_balance c in
  let! _ := assert_self c in
  let! s := set_staking_pool_status s Idle in
  let! s := update_deposit s (fun _ => Ok total) in
  Ok (s, None, ["The current total balance on the staking pool is " ++ num total]).

(** lockup/src/owner_callbacks.rs:298-339; the lines: 305-315 and 335. *)
Definition on_get_account_unstaked_balance_to_withdraw_by_owner_l (c : ctx) (s : contract) : res output_l :=
  let! unstaked := callback_balance c in
  let! _ := assert_self c in
  if 0 <? unstaked then
    let! pool := the_pool s in
    ask_l s (RPool pool (PWithdraw unstaked)) G_WITHDRAW
      (OnStakingPoolWithdraw unstaked) G_ON_STAKING_POOL_WITHDRAW
      ["Withdrawing " ++ num unstaked ++ " from the staking pool @" ++ pool]
  else
    let! s := set_staking_pool_status s Idle in
    Ok (s, None, ["No unstaked balance on the staking pool to withdraw"]).

(** * Foundation's methods *)

(** lockup/src/foundation.rs:15-47; the line: 24-30. *)
Definition terminate_vesting_l (c : ctx) (s : contract) (o : option (vesting_schedule * string)) : res output_l :=
  let! _ := assert_called_by_foundation c s in
  let! vs := assert_vesting c s o in
  let! unvested := get_unvested_amount s (ctx_timestamp c) vs in
  assert! 0 <? unvested orelse "The account is fully vested" ;;
  let deficit := sat_sub unvested (get_account_balance (ctx_balance c)) in
  let st := if (0 <? deficit) && match staking_information s with Some _ => true | None => false end
            then VestingTerminatedWithDeficit else ReadyToWithdraw in
  Ok (set_vesting s (VTerminating (mkTermination unvested st)), None,
      ["Terminating vesting. The remaining unvested balance is " ++ num unvested]).

(** lockup/src/foundation.rs:58-127; the lines: 80 and 106. *)
Definition termination_prepare_to_withdraw_l (c : ctx) (s : contract) : res output_l :=
  let! _ := assert_called_by_foundation c s in
  let! pool := assert_staking_pool_is_idle s in
  match get_termination_status s with
  | None => Panic "There is no termination in progress"
  | Some UnstakingInProgress
  | Some WithdrawingFromStakingPoolInProgress
  | Some WithdrawingFromAccountInProgress => Panic "Another transaction is already in progress."
  | Some ReadyToWithdraw => Panic "The account is ready to withdraw unvested balance."
  | Some VestingTerminatedWithDeficit =>
      let! s := set_termination_status s UnstakingInProgress in
      let! s := set_staking_pool_status s Busy in
      ask_l s (RPool pool PGetStaked) G_GET_ACCOUNT_STAKED_BALANCE
        OnGetAccountStakedBalanceToUnstake G_ON_GET_ACCOUNT_STAKED_BALANCE_TO_UNSTAKE
        ["Termination Step: Going to unstake everything from the staking pool"]
  | Some EverythingUnstaked =>
      let! s := set_termination_status s WithdrawingFromStakingPoolInProgress in
      let! s := set_staking_pool_status s Busy in
      ask_l s (RPool pool PGetUnstaked) G_GET_ACCOUNT_UNSTAKED_BALANCE
        OnGetAccountUnstakedBalanceToWithdraw G_ON_GET_ACCOUNT_UNSTAKED_BALANCE_TO_WITHDRAW
        ["Termination Step: Going to withdraw everything from the staking pool"]
  end.

(** lockup/src/foundation.rs:134-174; the line: 155-161. *)
Definition termination_withdraw_l (c : ctx) (s : contract) (receiver : account_id) : res output_l :=
  let! _ := assert_called_by_foundation c s in
  assert! is_valid_account_id receiver orelse "The receiver account ID is invalid" ;;
  assert! match get_termination_status s with Some ReadyToWithdraw => true | _ => false end
    orelse "Termination status is not ready to withdraw" ;;
  let amount := N.min (get_terminated_unvested_balance s) (get_account_balance (ctx_balance c)) in
  assert! 0 <? amount orelse "The account doesn't have enough liquid balance to withdraw any amount" ;;
  let! s := set_termination_status s WithdrawingFromAccountInProgress in
  ask_l s (RTransfer receiver amount) 0 (OnWithdrawUnvestedAmount amount receiver) G_ON_WITHDRAW_UNVESTED_AMOUNT
    ["Termination Step: Withdrawing " ++ num amount ++ " of terminated unvested balance to account @" ++ receiver].

(** * Foundation's callbacks *)

(** lockup/src/foundation_callbacks.rs:9-53; the lines: 16-26 and 48. *)
Definition on_get_account_staked_balance_to_unstake_l (c : ctx) (s : contract) : res output_l :=
  let! staked := callback_balance c in
  let! _ := assert_self c in
  if 0 <? staked then
    let! pool := the_pool s in
    ask_l s (RPool pool (PUnstake staked)) G_UNSTAKE
      (OnStakingPoolUnstakeForTermination staked) G_ON_STAKING_POOL_UNSTAKE_FOR_TERMINATION
      ["Termination Step: Unstaking " ++ num staked ++ " from the staking pool @" ++ pool]
  else
    let! s := set_staking_pool_status s Idle in
    let! s := set_termination_status s EverythingUnstaked in
    Ok (s, None, ["Termination Step: Nothing to unstake. Moving to the next status."]).

(** lockup/src/foundation_callbacks.rs:57-91; the lines: 65-75 and 78-88. *)
Definition on_staking_pool_unstake_for_termination_l (c : ctx) (s : contract) (amount : N) : res output_l :=
  let! _ := assert_self c in
  let! ok := is_promise_success c in
  let! s := set_staking_pool_status s Idle in
  let! s := set_termination_status s (if ok then EverythingUnstaked else VestingTerminatedWithDeficit) in
  let! pool := the_pool s in
  Ok (s, None, [if ok then "Termination Step: Unstaking of " ++ num amount ++ " at @" ++ pool ++ " succeeded"
                else "Termination Step: Unstaking " ++ num amount ++ " at @" ++ pool ++ " has failed"]).

(** lockup/src/foundation_callbacks.rs:95-139; the lines: 102-112 and 134. *)
Definition on_get_account_unstaked_balance_to_withdraw_l (c : ctx) (s : contract) : res output_l :=
  let! unstaked := callback_balance c in
  let! _ := assert_self c in
  if 0 <? unstaked then
    let! pool := the_pool s in
    ask_l s (RPool pool (PWithdraw unstaked)) G_WITHDRAW
      (OnStakingPoolWithdrawForTermination unstaked) G_ON_STAKING_POOL_WITHDRAW_FOR_TERMINATION
      ["Termination Step: Withdrawing " ++ num unstaked ++ " from the staking pool @" ++ pool]
  else
    let! s := set_staking_pool_status s Idle in
    let! s := set_termination_status s ReadyToWithdraw in
    Ok (s, None, ["Termination Step: Nothing to withdraw from the staking pool. Ready to withdraw from the account."]).

(** lockup/src/foundation_callbacks.rs:143-185; the lines: 159-169 and 172-182. *)
Definition on_staking_pool_withdraw_for_termination_l (c : ctx) (s : contract) (amount : N) : res output_l :=
  let! _ := assert_self c in
  let! ok := is_promise_success c in
  let! s := set_staking_pool_status s Idle in
  if ok then
    let! s := set_termination_status s ReadyToWithdraw in
    let! s := update_deposit s (fun d => Ok (sat_sub d amount)) in
    let! pool := the_pool s in
    Ok (s, None, ["Termination Step: The withdrawal of " ++ num amount ++ " from @" ++ pool ++ " succeeded"])
  else
    let! s := set_termination_status s EverythingUnstaked in
    let! pool := the_pool s in
    Ok (s, None, ["Termination Step: The withdrawal of " ++ num amount ++ " from @" ++ pool ++ " failed"]).

(** lockup/src/foundation_callbacks.rs:188-241; the lines: 197-203, 215-221, 223, 228 and 232-238. *)
Definition on_withdraw_unvested_amount_l (c : ctx) (s : contract) (amount : N) (receiver : account_id)
    : res output_l :=
  let! _ := assert_self c in
  let! ok := is_promise_success c in
  if ok then
    let l := ["Termination Step: The withdrawal of the terminated unvested amount of " ++ num amount ++ " to @" ++
              receiver ++ " succeeded."] in
    let li := lockup_information s in
    let! w := add128 (termination_withdrawn_tokens li) amount in
    let s := set_lockup s (mkLockup (lockup_amount li) w (lockup_duration li) (release_duration li)
                             (lockup_timestamp li) (transfers_information li)) in
    let unvested := get_terminated_unvested_balance s in
    if amount <? unvested then
      let! remaining := sub_chk unvested amount in
      Ok (set_vesting s (VTerminating (mkTermination remaining ReadyToWithdraw)), None,
          l ++ [("Termination Step: There is still terminated unvested balance of " ++ num remaining ++
                 " remaining to be withdrawn")%string] ++
          if get_account_balance (ctx_balance c) =? 0
          then ["The withdrawal is completed: no more balance can be withdrawn in a future call"] else [])%list
    else
      Ok (set_vesting (set_foundation s None) VNone, None,
          l ++ ["Vesting schedule termination and withdrawal are completed"])%list
  else
    let! s := set_termination_status s ReadyToWithdraw in
    Ok (s, None, ["Termination Step: The withdrawal of the terminated unvested amount of " ++ num amount ++ " to @" ++
                  receiver ++ " failed"]).

(** The [#[near_bindgen]] entry points; none is [#[payable]]. *)
Definition exec_l (c : ctx) (s : contract) (m : call) : res output_l :=
  assert! ctx_attached c =? 0 orelse "Method doesn't accept deposit" ;;
  match m with
  | SelectStakingPool pool => select_staking_pool_l c s pool
  | UnselectStakingPool => unselect_staking_pool_l c s
  | DepositToStakingPool a => deposit_to_staking_pool_l c s a
  | DepositAndStake a => deposit_and_stake_l c s a
  | RefreshStakingPoolBalance => refresh_staking_pool_balance_l c s
  | WithdrawFromStakingPool a => withdraw_from_staking_pool_l c s a
  | WithdrawAllFromStakingPool => withdraw_all_from_staking_pool_l c s
  | Stake a => stake_l c s a
  | Unstake a => unstake_l c s a
  | UnstakeAll => unstake_all_l c s
  | CheckTransfersVote => check_transfers_vote_l c s
  | Transfer a r => transfer_l c s a r
  | AddFullAccessKey pk => add_full_access_key_l c s pk
  | TerminateVesting o => terminate_vesting_l c s o
  | TerminationPrepareToWithdraw => termination_prepare_to_withdraw_l c s
  | TerminationWithdraw r => termination_withdraw_l c s r
  | OnWhitelistIsWhitelisted pool => on_whitelist_is_whitelisted_l c s pool
  | OnStakingPoolDeposit a => on_staking_pool_deposit_l c s a
  | OnStakingPoolDepositAndStake a => on_staking_pool_deposit_and_stake_l c s a
  | OnStakingPoolWithdraw a => on_staking_pool_withdraw_l c s a
  | OnStakingPoolStake a => on_staking_pool_stake_l c s a
  | OnStakingPoolUnstake a => on_staking_pool_unstake_l c s a
  | OnStakingPoolUnstakeAll => on_staking_pool_unstake_all_l c s
  | OnGetResultFromTransferPoll => on_get_result_from_transfer_poll_l c s
  | OnGetAccountTotalBalance => on_get_account_total_balance_l c s
  | OnGetAccountUnstakedBalanceToWithdrawByOwner => on_get_account_unstaked_balance_to_withdraw_by_owner_l c s
  | OnGetAccountStakedBalanceToUnstake => on_get_account_staked_balance_to_unstake_l c s
  | OnStakingPoolUnstakeForTermination a => on_staking_pool_unstake_for_termination_l c s a
  | OnGetAccountUnstakedBalanceToWithdraw => on_get_account_unstaked_balance_to_withdraw_l c s
  | OnStakingPoolWithdrawForTermination a => on_staking_pool_withdraw_for_termination_l c s a
  | OnWithdrawUnvestedAmount a r => on_withdraw_unvested_amount_l c s a r
  end.
