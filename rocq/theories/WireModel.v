(** The JSON texts by which the contracts of /repo call each other and themselves: for each contract, how it reads
    the arguments of its methods, and how it writes the arguments of the calls it makes. Definitions only.

    A method of near_bindgen reads its arguments from one JSON object with a field for each argument; a method
    without arguments does not look at its input (near-sdk, a library). [#[ext_contract]] and the structs given to
    [serde_json::to_vec] write such an object, and nothing at all for a method without arguments. Public keys stand
    for their text, which is read as it is written; that it is a well-formed key is not modelled. *)
From Coq Require Import NArith List Bool String.
From Verif Require Import Prelude JsonModel.
From Verif Require StakingPoolModel WhitelistModel VotingModel PoolFactoryModel LockupModel LockupFactoryModel
  Multisig2Model MultisigModel MultisigFactoryModel WNearModel.
Import ListNotations.
Open Scope string_scope.
Open Scope N_scope.

Module SM := StakingPoolModel.
Module WL := WhitelistModel.
Module VM := VotingModel.
Module PF := PoolFactoryModel.
Module LM := LockupModel.
Module LF := LockupFactoryModel.
Module M1 := MultisigModel.
Module M2 := Multisig2Model.
Module MF := MultisigFactoryModel.
Module WN := WNearModel.

(** * Methods by name *)
Definition methods (A : Type) := list (string * (string -> option A)).
Fixpoint dispatch {A} (t : methods A) (name args : string) : option A :=
  match t with
  | [] => None
  | (n, f) :: t => if String.eqb name n then f args else dispatch t name args
  end.
Definition no_args {A} (x : A) : string -> option A := fun _ => Some x.
Definition with_args {A} (f : list (string * json) -> option A) : string -> option A := fun args => arguments args f.

Definition u32 : rd N := rd_num U32_BOUND.
Definition u64 : rd N := rd_num U64_BOUND.
Definition U64 : rd N := rd_dec U64_BOUND.
Definition U128 : rd N := rd_dec U128_BOUND.
(** The [AccountId] of near-sdk 2 and 3 is any string. *)
Definition account : rd account_id := rd_str.
(** The [ValidAccountId] of near-sdk 2 and 3, and the [AccountId] of near-sdk 4. *)
Definition valid_account : rd account_id := fun v =>
  match v with JStr s => if is_valid_account_id s then Some s else None | _ => None end.
Definition key : rd public_key := rd_str.

(** * How each contract reads *)

(** staking-pool/src/lib.rs:125-130 [RewardFeeFraction] *)
Definition fraction : rd SM.fraction := rd_obj (fun o =>
  let? n := field "numerator" u32 o in
  let? d := field "denominator" u32 o in
  Some (SM.mkFraction n d)).

(** What the staking pool is asked: to start, a call, or one of the views that other contracts use. *)
Inductive pool_request :=
| PoolNew (owner : account_id) (k : public_key) (fee : SM.fraction)
| PoolCall (m : SM.call)
| PoolStaked (u : account_id)
| PoolUnstaked (u : account_id)
| PoolTotal (u : account_id).
(** staking-pool/src/lib.rs:173-177, 209-306, 321-335, 399-475 *)
Definition pool_methods : methods pool_request :=
  [("new", with_args (fun o =>
      let? a := field "owner_id" account o in
      let? k := field "stake_public_key" key o in
      let? f := field "reward_fee_fraction" fraction o in
      Some (PoolNew a k f)));
   ("ping", no_args (PoolCall SM.Ping));
   ("deposit", no_args (PoolCall SM.Deposit));
   ("deposit_and_stake", no_args (PoolCall SM.DepositAndStake));
   ("withdraw_all", no_args (PoolCall SM.WithdrawAll));
   ("withdraw", with_args (fun o => let? a := field "amount" U128 o in Some (PoolCall (SM.Withdraw a))));
   ("stake_all", no_args (PoolCall SM.StakeAll));
   ("stake", with_args (fun o => let? a := field "amount" U128 o in Some (PoolCall (SM.Stake a))));
   ("unstake_all", no_args (PoolCall SM.UnstakeAll));
   ("unstake", with_args (fun o => let? a := field "amount" U128 o in Some (PoolCall (SM.Unstake a))));
   ("get_account_unstaked_balance", with_args (fun o =>
      let? u := field "account_id" account o in Some (PoolUnstaked u)));
   ("get_account_staked_balance", with_args (fun o =>
      let? u := field "account_id" account o in Some (PoolStaked u)));
   ("get_account_total_balance", with_args (fun o =>
      let? u := field "account_id" account o in Some (PoolTotal u)));
   ("on_stake_action", no_args (PoolCall SM.OnStakeAction));
   ("update_staking_key", with_args (fun o =>
      let? k := field "stake_public_key" key o in Some (PoolCall (SM.UpdateStakingKey k))));
   ("update_reward_fee_fraction", with_args (fun o =>
      let? f := field "reward_fee_fraction" fraction o in Some (PoolCall (SM.UpdateRewardFeeFraction f))));
   ("vote", with_args (fun o =>
      let? a := field "voting_account_id" account o in
      let? b := field "is_vote" rd_bool o in
      Some (PoolCall (SM.Vote a b))));
   ("pause_staking", no_args (PoolCall SM.PauseStaking));
   ("resume_staking", no_args (PoolCall SM.ResumeStaking))].
Definition pool_reads : string -> string -> option pool_request := dispatch pool_methods.

Inductive whitelist_request :=
| WhitelistNew (foundation : account_id)
| WhitelistCall (m : WL.call)
| IsWhitelisted (p : account_id)
| IsFactoryWhitelisted (f : account_id).
(** whitelist/src/lib.rs:32-127 *)
Definition whitelist_methods : methods whitelist_request :=
  [("new", with_args (fun o =>
      let? a := field "foundation_account_id" account o in Some (WhitelistNew a)));
   ("is_whitelisted", with_args (fun o =>
      let? a := field "staking_pool_account_id" account o in Some (IsWhitelisted a)));
   ("is_factory_whitelisted", with_args (fun o =>
      let? a := field "factory_account_id" account o in Some (IsFactoryWhitelisted a)));
   ("add_staking_pool", with_args (fun o =>
      let? a := field "staking_pool_account_id" account o in Some (WhitelistCall (WL.AddStakingPool a))));
   ("remove_staking_pool", with_args (fun o =>
      let? a := field "staking_pool_account_id" account o in Some (WhitelistCall (WL.RemoveStakingPool a))));
   ("add_factory", with_args (fun o =>
      let? a := field "factory_account_id" account o in Some (WhitelistCall (WL.AddFactory a))));
   ("remove_factory", with_args (fun o =>
      let? a := field "factory_account_id" account o in Some (WhitelistCall (WL.RemoveFactory a))))].
Definition whitelist_reads : string -> string -> option whitelist_request := dispatch whitelist_methods.

Inductive voting_request := VotingNew | VotingCall (m : VM.call) | GetResult.
(** voting/src/lib.rs:34-35, 46, 78, 106 *)
Definition voting_methods : methods voting_request :=
  [("new", no_args VotingNew);
   ("ping", no_args (VotingCall VM.Ping));
   ("vote", with_args (fun o => let? b := field "is_vote" rd_bool o in Some (VotingCall (VM.Vote b))));
   ("get_result", no_args GetResult)].
Definition voting_reads : string -> string -> option voting_request := dispatch voting_methods.

Inductive pool_factory_request := PoolFactoryNew (whitelist : account_id) | PoolFactoryCall (m : PF.call).
(** staking-pool-factory/src/lib.rs:103-104, 137-143, 200-205. Its [RewardFeeFraction] (lines 55-60) is the one of
    the staking pool. *)
Definition pool_factory_methods : methods pool_factory_request :=
  [("new", with_args (fun o =>
      let? a := field "staking_pool_whitelist_account_id" account o in Some (PoolFactoryNew a)));
   ("create_staking_pool", with_args (fun o =>
      let? i := field "staking_pool_id" rd_str o in
      let? a := field "owner_id" account o in
      let? k := field "stake_public_key" key o in
      let? f := field "reward_fee_fraction" fraction o in
      Some (PoolFactoryCall (PF.CreateStakingPool i a k f))));
   ("on_staking_pool_create", with_args (fun o =>
      let? a := field "staking_pool_account_id" account o in
      let? d := field "attached_deposit" U128 o in
      let? p := field "predecessor_account_id" account o in
      Some (PoolFactoryCall (PF.OnStakingPoolCreate a d p))))].
Definition pool_factory_reads : string -> string -> option pool_factory_request := dispatch pool_factory_methods.

(** lockup/src/types.rs:95-107 [VestingSchedule] *)
Definition schedule : rd LM.vesting_schedule := rd_obj (fun o =>
  let? s := field "start_timestamp" U64 o in
  let? c := field "cliff_timestamp" U64 o in
  let? e := field "end_timestamp" U64 o in
  Some (LM.mkSchedule s c e)).
(** An enum without a tag of its own is an object with one field, named like the variant. *)
Definition variant (v : json) : option (string * json) := match v with JObj [x] => Some x | _ => None end.
(** lockup/src/types.rs:128-137 [VestingScheduleOrHash] *)
Definition schedule_or_hash : rd LM.schedule_or_hash := fun v =>
  let? x := variant v in
  if String.eqb (fst x) "VestingHash" then option_map LM.ArgHash (rd_base64 (snd x))
  else if String.eqb (fst x) "VestingSchedule" then option_map LM.ArgSchedule (schedule (snd x))
  else None.
(** lockup/src/types.rs:55-69 [TransfersInformation] *)
Definition transfers : rd LM.transfers_info := fun v =>
  let? x := variant v in
  if String.eqb (fst x) "TransfersEnabled" then
    rd_obj (fun o => option_map LM.TransfersEnabled (field "transfers_timestamp" U64 o)) (snd x)
  else if String.eqb (fst x) "TransfersDisabled" then
    rd_obj (fun o => option_map LM.TransfersDisabled (field "transfer_poll_account_id" account o)) (snd x)
  else None.
(** lockup/src/types.rs:196-204 [VestingScheduleWithSalt] *)
Definition schedule_with_salt : rd (LM.vesting_schedule * string) := rd_obj (fun o =>
  let? s := field "vesting_schedule" schedule o in
  let? t := field "salt" rd_base64 o in
  Some (s, t)).

Inductive lockup_request := LockupNew (a : LF.lockup_args) | LockupCall (m : LM.call).
Definition amount_of (k : N -> LM.call) : string -> option lockup_request :=
  with_args (fun o => let? a := field "amount" U128 o in Some (LockupCall (k a))).
(** lockup/src/lib.rs:183-194, owner.rs, foundation.rs, owner_callbacks.rs and foundation_callbacks.rs: the
    methods that change state. Arguments marked [#[callback]] are not among the arguments. *)
Definition lockup_methods : methods lockup_request :=
  [("new", with_args (fun o =>
      let? owner := field "owner_account_id" account o in
      let? d := field "lockup_duration" U64 o in
      let? t := opt_field "lockup_timestamp" U64 o in
      let? i := field "transfers_information" transfers o in
      let? v := opt_field "vesting_schedule" schedule_or_hash o in
      let? r := opt_field "release_duration" U64 o in
      let? w := field "staking_pool_whitelist_account_id" account o in
      let? f := opt_field "foundation_account_id" account o in
      Some (LockupNew (LF.mkArgs owner d t i v r w f))));
   ("select_staking_pool", with_args (fun o =>
      let? a := field "staking_pool_account_id" account o in Some (LockupCall (LM.SelectStakingPool a))));
   ("unselect_staking_pool", no_args (LockupCall LM.UnselectStakingPool));
   ("deposit_to_staking_pool", amount_of LM.DepositToStakingPool);
   ("deposit_and_stake", amount_of LM.DepositAndStake);
   ("refresh_staking_pool_balance", no_args (LockupCall LM.RefreshStakingPoolBalance));
   ("withdraw_from_staking_pool", amount_of LM.WithdrawFromStakingPool);
   ("withdraw_all_from_staking_pool", no_args (LockupCall LM.WithdrawAllFromStakingPool));
   ("stake", amount_of LM.Stake);
   ("unstake", amount_of LM.Unstake);
   ("unstake_all", no_args (LockupCall LM.UnstakeAll));
   ("check_transfers_vote", no_args (LockupCall LM.CheckTransfersVote));
   ("transfer", with_args (fun o =>
      let? a := field "amount" U128 o in
      let? r := field "receiver_id" account o in
      Some (LockupCall (LM.Transfer a r))));
   ("add_full_access_key", with_args (fun o =>
      let? k := field "new_public_key" key o in Some (LockupCall (LM.AddFullAccessKey k))));
   ("terminate_vesting", with_args (fun o =>
      let? s := opt_field "vesting_schedule_with_salt" schedule_with_salt o in
      Some (LockupCall (LM.TerminateVesting s))));
   ("termination_prepare_to_withdraw", no_args (LockupCall LM.TerminationPrepareToWithdraw));
   ("termination_withdraw", with_args (fun o =>
      let? r := field "receiver_id" account o in Some (LockupCall (LM.TerminationWithdraw r))));
   ("on_whitelist_is_whitelisted", with_args (fun o =>
      let? a := field "staking_pool_account_id" account o in Some (LockupCall (LM.OnWhitelistIsWhitelisted a))));
   ("on_staking_pool_deposit", amount_of LM.OnStakingPoolDeposit);
   ("on_staking_pool_deposit_and_stake", amount_of LM.OnStakingPoolDepositAndStake);
   ("on_staking_pool_withdraw", amount_of LM.OnStakingPoolWithdraw);
   ("on_staking_pool_stake", amount_of LM.OnStakingPoolStake);
   ("on_staking_pool_unstake", amount_of LM.OnStakingPoolUnstake);
   ("on_staking_pool_unstake_all", no_args (LockupCall LM.OnStakingPoolUnstakeAll));
   ("on_get_result_from_transfer_poll", no_args (LockupCall LM.OnGetResultFromTransferPoll));
   ("on_get_account_total_balance", no_args (LockupCall LM.OnGetAccountTotalBalance));
   ("on_get_account_unstaked_balance_to_withdraw_by_owner",
      no_args (LockupCall LM.OnGetAccountUnstakedBalanceToWithdrawByOwner));
   ("on_get_account_staked_balance_to_unstake", no_args (LockupCall LM.OnGetAccountStakedBalanceToUnstake));
   ("on_staking_pool_unstake_for_termination", amount_of LM.OnStakingPoolUnstakeForTermination);
   ("on_get_account_unstaked_balance_to_withdraw", no_args (LockupCall LM.OnGetAccountUnstakedBalanceToWithdraw));
   ("on_staking_pool_withdraw_for_termination", amount_of LM.OnStakingPoolWithdrawForTermination);
   ("on_withdraw_unvested_amount", with_args (fun o =>
      let? a := field "amount" U128 o in
      let? r := field "receiver_id" account o in
      Some (LockupCall (LM.OnWithdrawUnvestedAmount a r))))].
Definition lockup_reads : string -> string -> option lockup_request := dispatch lockup_methods.

(** lockup/src/owner_callbacks.rs:9, 256, 281, 300 and foundation_callbacks.rs:11, 97: the arguments marked
    [#[callback]] are read from the answer of the call before; the other callbacks only ask whether it succeeded. *)
Definition lockup_reads_answer (m : LM.call) (text : string) : option LM.answer :=
  match m with
  | LM.OnWhitelistIsWhitelisted _ => let? v := parse text in option_map LM.ABool (rd_bool v)
  | LM.OnGetResultFromTransferPoll =>
      let? v := parse text in
      match v with JNull => Some (LM.APollResult None) | _ => option_map (fun t => LM.APollResult (Some t)) (U64 v) end
  | LM.OnGetAccountTotalBalance | LM.OnGetAccountUnstakedBalanceToWithdrawByOwner
  | LM.OnGetAccountStakedBalanceToUnstake | LM.OnGetAccountUnstakedBalanceToWithdraw =>
      let? v := parse text in option_map LM.ABalance (U128 v)
  | _ => Some LM.AVoid
  end.

Inductive lockup_factory_request :=
| LockupFactoryNew (whitelist foundation : account_id)
| LockupFactoryCall (m : LF.call).
(** lockup-factory/src/lib.rs:74-78, 108-116, 171-176. The types of lockup-factory/src/types.rs:86-123 are
    those of the lockup. *)
Definition lockup_factory_methods : methods lockup_factory_request :=
  [("new", with_args (fun o =>
      let? w := field "whitelist_account_id" valid_account o in
      let? f := field "foundation_account_id" valid_account o in
      Some (LockupFactoryNew w f)));
   ("create", with_args (fun o =>
      let? owner := field "owner_account_id" valid_account o in
      let? d := field "lockup_duration" U64 o in
      let? t := opt_field "lockup_timestamp" U64 o in
      let? v := opt_field "vesting_schedule" schedule_or_hash o in
      let? r := opt_field "release_duration" U64 o in
      let? w := opt_field "whitelist_account_id" valid_account o in
      Some (LockupFactoryCall (LF.Create owner d t v r w))));
   ("on_lockup_create", with_args (fun o =>
      let? a := field "lockup_account_id" account o in
      let? d := field "attached_deposit" U128 o in
      let? p := field "predecessor_account_id" account o in
      Some (LockupFactoryCall (LF.OnLockupCreate a d p))))].
Definition lockup_factory_reads : string -> string -> option lockup_factory_request := dispatch lockup_factory_methods.

(** multisig-factory/src/lib.rs:15-20 and multisig2/src/lib.rs:94-99 [MultisigMember]: without a tag, so that the
    first variant that can be read is taken. *)
Definition member (acc : rd account_id) : rd M2.member := fun v =>
  match rd_obj (field "public_key" key) v with
  | Some k => Some (M2.AccessKey k)
  | None => option_map M2.Account (rd_obj (field "account_id" acc) v)
  end.

(** What the factory's [create] is given. *)
Definition multisig_factory_reads (name args : string) : option (string * list M2.member * N) :=
  dispatch
    [("create", with_args (fun o =>
        let? n := field "name" account o in
        let? ms := field "members" (rd_list (member account)) o in
        let? k := field "num_confirmations" u64 o in
        Some (n, ms, k)))] name args.

(** multisig/src/lib.rs:17-24 and multisig2/src/lib.rs:27-35 [FunctionCallPermission] *)
Definition permission {A} (acc : rd account_id) (mk : option N -> account_id -> list string -> A) : rd A :=
  rd_obj (fun o =>
    let? a := opt_field "allowance" U128 o in
    let? r := field "receiver_id" acc o in
    let? ms := field "method_names" (rd_list rd_str) o in
    Some (mk a r ms)).

(** multisig/src/lib.rs:26-60 [MultiSigRequestAction]: the field [type] names the variant. *)
Definition action1 : rd M1.action := rd_obj (fun o =>
  let? t := field "type" rd_str o in
  if String.eqb t "Transfer" then option_map M1.Transfer (field "amount" U128 o)
  else if String.eqb t "CreateAccount" then Some M1.CreateAccount
  else if String.eqb t "DeployContract" then option_map M1.DeployContract (field "code" rd_base64 o)
  else if String.eqb t "AddKey" then
    let? k := field "public_key" key o in
    let? p := opt_field "permission" (permission account M1.mkPermission) o in
    Some (M1.AddKey k p)
  else if String.eqb t "DeleteKey" then option_map M1.DeleteKey (field "public_key" key o)
  else if String.eqb t "FunctionCall" then
    let? m := field "method_name" rd_str o in
    let? a := field "args" rd_base64 o in
    let? d := field "deposit" U128 o in
    let? g := field "gas" U64 o in
    Some (M1.FunctionCall m a d g)
  else if String.eqb t "SetNumConfirmations" then option_map M1.SetNumConfirmations (field "num_confirmations" u32 o)
  else if String.eqb t "SetActiveRequestsLimit" then
    option_map M1.SetActiveRequestsLimit (field "active_requests_limit" u32 o)
  else None).
(** multisig/src/lib.rs:63-68 [MultiSigRequest] *)
Definition request1 : rd M1.request := rd_obj (fun o =>
  let? r := field "receiver_id" account o in
  let? l := field "actions" (rd_list action1) o in
  Some (M1.mkRequest r l)).
(** multisig/src/lib.rs:116-254: the methods that change state. *)
Definition multisig_methods : methods M1.call :=
  [("add_request", with_args (fun o => option_map M1.CAddRequest (field "request" request1 o)));
   ("add_request_and_confirm", with_args (fun o => option_map M1.CAddRequestAndConfirm (field "request" request1 o)));
   ("delete_request", with_args (fun o => option_map M1.CDeleteRequest (field "request_id" u32 o)));
   ("confirm", with_args (fun o => option_map M1.CConfirm (field "request_id" u32 o)))].
Definition multisig_reads : string -> string -> option M1.call := dispatch multisig_methods.

(** multisig/src/lib.rs:103 [new] *)
Definition multisig_reads_new (name args : string) : option N :=
  dispatch [("new", with_args (field "num_confirmations" u32))] name args.

(** multisig2/src/lib.rs:37-72 *)
Definition action2 : rd M2.action := rd_obj (fun o =>
  let? t := field "type" rd_str o in
  if String.eqb t "Transfer" then option_map M2.Transfer (field "amount" U128 o)
  else if String.eqb t "CreateAccount" then Some M2.CreateAccount
  else if String.eqb t "DeployContract" then option_map M2.DeployContract (field "code" rd_base64 o)
  else if String.eqb t "AddMember" then option_map M2.AddMember (field "member" (member valid_account) o)
  else if String.eqb t "DeleteMember" then option_map M2.DeleteMember (field "member" (member valid_account) o)
  else if String.eqb t "AddKey" then
    let? k := field "public_key" key o in
    let? p := opt_field "permission" (permission valid_account M2.mkPermission) o in
    Some (M2.AddKey k p)
  else if String.eqb t "FunctionCall" then
    let? m := field "method_name" rd_str o in
    let? a := field "args" rd_base64 o in
    let? d := field "deposit" U128 o in
    let? g := field "gas" U64 o in
    Some (M2.FunctionCall m a d g)
  else if String.eqb t "SetNumConfirmations" then option_map M2.SetNumConfirmations (field "num_confirmations" u32 o)
  else if String.eqb t "SetActiveRequestsLimit" then
    option_map M2.SetActiveRequestsLimit (field "active_requests_limit" u32 o)
  else None).
(** multisig2/src/lib.rs:74-81 *)
Definition request2 : rd M2.request := rd_obj (fun o =>
  let? r := field "receiver_id" valid_account o in
  let? l := field "actions" (rd_list action2) o in
  Some (M2.mkRequest r l)).
Definition multisig2_methods : methods M2.call :=
  [("add_request", with_args (fun o => option_map M2.CAddRequest (field "request" request2 o)));
   ("add_request_and_confirm", with_args (fun o => option_map M2.CAddRequestAndConfirm (field "request" request2 o)));
   ("delete_request", with_args (fun o => option_map M2.CDeleteRequest (field "request_id" u32 o)));
   ("confirm", with_args (fun o => option_map M2.CConfirm (field "request_id" u32 o)))].
Definition multisig2_reads : string -> string -> option M2.call := dispatch multisig2_methods.
(** multisig2/src/lib.rs:148 [new] *)
Definition multisig2_reads_new (name args : string) : option (list M2.member * N) :=
  dispatch
    [("new", with_args (fun o =>
        let? ms := field "members" (rd_list (member valid_account)) o in
        let? k := field "num_confirmations" u32 o in
        Some (ms, k)))] name args.

(** The token's methods (w-near/src/w_near.rs and near-contract-standards 3.1.0, a library). *)
Definition wnear_methods : methods WN.call :=
  [("new", no_args WN.New);
   ("near_deposit", no_args WN.NearDeposit);
   ("near_withdraw", with_args (fun o => option_map WN.NearWithdraw (field "amount" U128 o)));
   ("ft_transfer", with_args (fun o =>
      let? r := field "receiver_id" valid_account o in
      let? a := field "amount" U128 o in
      let? _m := opt_field "memo" rd_str o in
      Some (WN.FtTransfer r a)));
   ("ft_transfer_call", with_args (fun o =>
      let? r := field "receiver_id" valid_account o in
      let? a := field "amount" U128 o in
      let? _m := opt_field "memo" rd_str o in
      let? _t := field "msg" rd_str o in
      Some (WN.FtTransferCall r a)));
   ("ft_resolve_transfer", with_args (fun o =>
      let? s := field "sender_id" valid_account o in
      let? r := field "receiver_id" valid_account o in
      let? a := field "amount" U128 o in
      Some (WN.FtResolveTransfer s r a)));
   ("storage_deposit", with_args (fun o =>
      let? a := opt_field "account_id" valid_account o in
      let? r := opt_field "registration_only" rd_bool o in
      Some (WN.StorageDeposit a r)));
   ("storage_withdraw", with_args (fun o => option_map WN.StorageWithdraw (opt_field "amount" U128 o)));
   ("storage_unregister", with_args (fun o => option_map WN.StorageUnregister (opt_field "force" rd_bool o)))].
Definition wnear_reads : string -> string -> option WN.call := dispatch wnear_methods.
(** The answer of [ft_on_transfer], as [ft_resolve_transfer] reads it. *)
Definition wnear_reads_answer (text : string) : WN.result :=
  match parse text with
  | Some v => match U128 v with Some n => WN.Unused n | None => WN.Undecodable end
  | None => WN.Undecodable
  end.

(** * What each contract writes: for which account, which method, and its arguments *)
Record message := mkMessage { to : account_id; method : string; args : string }.
Definition object (o : list (string * json)) : string := print (JObj o).

(** staking-pool-factory/src/lib.rs:55-60, 72-81 *)
Definition wr_fraction (f : SM.fraction) : json :=
  JObj [("numerator", JNum (SM.numerator f)); ("denominator", JNum (SM.denominator f))].
Definition pool_args (a : PF.pool_args) : string :=
  object [("owner_id", JStr (PF.a_owner_id a)); ("stake_public_key", JStr (PF.a_stake_public_key a));
          ("reward_fee_fraction", wr_fraction (PF.a_reward_fee_fraction a))].
(** staking-pool-factory/src/lib.rs:84-92, 187-194: the callbacks of the factory. *)
Definition pool_factory_callback (self : account_id) (m : PF.call) : option message :=
  match m with
  | PF.OnStakingPoolCreate a d p =>
      Some (mkMessage self "on_staking_pool_create"
              (object [("staking_pool_account_id", JStr a); ("attached_deposit", wr_dec d);
                       ("predecessor_account_id", JStr p)]))
  | _ => None
  end.
(** staking-pool-factory/src/lib.rs:171-194, 218-226: the calls to others. *)
Definition pool_factory_calls (p : PF.promise) : option message :=
  match p with
  | PF.PCreate a _ args _ => Some (mkMessage a "new" (pool_args args))
  | PF.PAddStakingPool w a =>
      Some (mkMessage w "add_staking_pool" (object [("staking_pool_account_id", JStr a)]))
  | PF.PTransfer _ _ => None
  end.

(** staking-pool/src/lib.rs:147-151, 456-458 and internal.rs:21-26: the calls of the pool to others and to itself. *)
Definition pool_calls (self : account_id) (p : SM.promise) : option message :=
  match p with
  | SM.PVote v b => Some (mkMessage v "vote" (object [("is_vote", JBool b)]))
  | SM.PStake _ _ true => Some (mkMessage self "on_stake_action" "")
  | _ => None
  end.
(** staking-pool/src/lib.rs:321-335: the answers of its views. *)
Definition pool_answer (n : N) : string := print (wr_dec n).
(** whitelist/src/lib.rs:51 *)
Definition whitelist_answer (b : bool) : string := print (JBool b).
(** voting/src/lib.rs:106 *)
Definition voting_answer (r : option N) : string := print (wr_option wr_dec r).

(** lockup-factory/src/types.rs:84-95, 115-123, 46-57 *)
Definition wr_schedule (s : LM.vesting_schedule) : json :=
  JObj [("start_timestamp", wr_dec (LM.start_timestamp s)); ("cliff_timestamp", wr_dec (LM.cliff_timestamp s));
        ("end_timestamp", wr_dec (LM.end_timestamp s))].
Definition wr_schedule_or_hash (s : LM.schedule_or_hash) : json :=
  match s with
  | LM.ArgHash h => JObj [("VestingHash", wr_base64 h)]
  | LM.ArgSchedule s => JObj [("VestingSchedule", wr_schedule s)]
  end.
Definition wr_transfers (t : LM.transfers_info) : json :=
  match t with
  | LM.TransfersEnabled t => JObj [("TransfersEnabled", JObj [("transfers_timestamp", wr_dec t)])]
  | LM.TransfersDisabled a => JObj [("TransfersDisabled", JObj [("transfer_poll_account_id", JStr a)])]
  end.
(** lockup-factory/src/lib.rs:54-65 *)
Definition lockup_args (a : LF.lockup_args) : string :=
  object [("owner_account_id", JStr (LF.a_owner_account_id a));
          ("lockup_duration", wr_dec (LF.a_lockup_duration a));
          ("lockup_timestamp", wr_option wr_dec (LF.a_lockup_timestamp a));
          ("transfers_information", wr_transfers (LF.a_transfers_information a));
          ("vesting_schedule", wr_option wr_schedule_or_hash (LF.a_vesting_schedule a));
          ("release_duration", wr_option wr_dec (LF.a_release_duration a));
          ("staking_pool_whitelist_account_id", JStr (LF.a_staking_pool_whitelist_account_id a));
          ("foundation_account_id", wr_option JStr (LF.a_foundation_account_id a))].
(** lockup-factory/src/lib.rs:37-45, 158-165 *)
Definition lockup_factory_callback (self : account_id) (m : LF.call) : option message :=
  match m with
  | LF.OnLockupCreate a d p =>
      Some (mkMessage self "on_lockup_create"
              (object [("lockup_account_id", JStr a); ("attached_deposit", wr_dec d);
                       ("predecessor_account_id", JStr p)]))
  | _ => None
  end.
(** lockup-factory/src/lib.rs:136-157 *)
Definition lockup_factory_calls (p : LF.promise) : option message :=
  match p with
  | LF.PCreate a _ args _ => Some (mkMessage a "new" (lockup_args args))
  | LF.PTransfer _ _ => None
  end.

(** multisig-factory/src/lib.rs:15-20, 39-48 *)
Definition wr_member (m : M2.member) : json :=
  match m with
  | M2.AccessKey k => JObj [("public_key", JStr k)]
  | M2.Account a => JObj [("account_id", JStr a)]
  end.
Definition multisig_factory_calls (p : MF.promise) : message :=
  mkMessage (MF.p_account p) "new"
    (object [("members", JArr (map wr_member (MF.p_members p))); ("num_confirmations", JNum (MF.p_num_confirmations p))]).

(** lockup/src/lib.rs:34-62, with the arguments of owner.rs:29-34, 105-113, 151-159, 194-203, 236-245, 277-286,
    321-330, 364-373, 405-413, 448-452, owner_callbacks.rs:317-326, foundation.rs:82-92, 108-118 and
    foundation_callbacks.rs:28-38, 114-124: the calls of the lockup to others. *)
Definition lockup_calls (self : account_id) (r : LM.remote) : option message :=
  match r with
  | LM.RIsWhitelisted w p => Some (mkMessage w "is_whitelisted" (object [("staking_pool_account_id", JStr p)]))
  | LM.RGetResult v => Some (mkMessage v "get_result" "")
  | LM.RPool p op =>
      let of_self := object [("account_id", JStr self)] in
      let amount n := object [("amount", wr_dec n)] in
      let (m, a) :=
        match op with
        | LM.PDeposit _ => ("deposit", "")
        | LM.PDepositAndStake _ => ("deposit_and_stake", "")
        | LM.PWithdraw n => ("withdraw", amount n)
        | LM.PStake n => ("stake", amount n)
        | LM.PUnstake n => ("unstake", amount n)
        | LM.PUnstakeAll => ("unstake_all", "")
        | LM.PGetStaked => ("get_account_staked_balance", of_self)
        | LM.PGetUnstaked => ("get_account_unstaked_balance", of_self)
        | LM.PGetTotal => ("get_account_total_balance", of_self)
        end in
      Some (mkMessage p m a)
  | LM.RTransfer _ _ | LM.RAddFullAccessKey _ => None
  end.
(** lockup/src/lib.rs:64-117: the callbacks of the lockup. *)
Definition lockup_callback (self : account_id) (m : LM.call) : option message :=
  let amount name n := Some (mkMessage self name (object [("amount", wr_dec n)])) in
  let plain name := Some (mkMessage self name "") in
  match m with
  | LM.OnWhitelistIsWhitelisted p =>
      Some (mkMessage self "on_whitelist_is_whitelisted" (object [("staking_pool_account_id", JStr p)]))
  | LM.OnStakingPoolDeposit n => amount "on_staking_pool_deposit" n
  | LM.OnStakingPoolDepositAndStake n => amount "on_staking_pool_deposit_and_stake" n
  | LM.OnStakingPoolWithdraw n => amount "on_staking_pool_withdraw" n
  | LM.OnStakingPoolStake n => amount "on_staking_pool_stake" n
  | LM.OnStakingPoolUnstake n => amount "on_staking_pool_unstake" n
  | LM.OnStakingPoolUnstakeAll => plain "on_staking_pool_unstake_all"
  | LM.OnGetResultFromTransferPoll => plain "on_get_result_from_transfer_poll"
  | LM.OnGetAccountTotalBalance => plain "on_get_account_total_balance"
  | LM.OnGetAccountUnstakedBalanceToWithdrawByOwner => plain "on_get_account_unstaked_balance_to_withdraw_by_owner"
  | LM.OnGetAccountStakedBalanceToUnstake => plain "on_get_account_staked_balance_to_unstake"
  | LM.OnStakingPoolUnstakeForTermination n => amount "on_staking_pool_unstake_for_termination" n
  | LM.OnGetAccountUnstakedBalanceToWithdraw => plain "on_get_account_unstaked_balance_to_withdraw"
  | LM.OnStakingPoolWithdrawForTermination n => amount "on_staking_pool_withdraw_for_termination" n
  | LM.OnWithdrawUnvestedAmount n r =>
      Some (mkMessage self "on_withdraw_unvested_amount" (object [("amount", wr_dec n); ("receiver_id", JStr r)]))
  | _ => None
  end.

(** near-contract-standards 3.1.0 (a library): [ft_on_transfer] of the receiver, then [ft_resolve_transfer]. *)
Definition wnear_calls (msg : string) (p : WN.promise) : option message :=
  match p with
  | WN.PTransferCall s r a _ =>
      Some (mkMessage r "ft_on_transfer" (object [("sender_id", JStr s); ("amount", wr_dec a); ("msg", JStr msg)]))
  | WN.PTransfer _ _ => None
  end.
Definition wnear_callback (self : account_id) (p : WN.promise) : option message :=
  match p with
  | WN.PTransferCall s r a _ =>
      Some (mkMessage self "ft_resolve_transfer"
              (object [("sender_id", JStr s); ("receiver_id", JStr r); ("amount", wr_dec a)]))
  | WN.PTransfer _ _ => None
  end.

(** multisig/src/lib.rs:17-68, multisig2/src/lib.rs:27-81: requests as their views [get_request] answer. A key
    without a permission is written without that field. *)
Definition wr_permission (allowance : option N) (receiver : account_id) (names : list string) : json :=
  JObj [("allowance", wr_option wr_dec allowance); ("receiver_id", JStr receiver); ("method_names", JArr (map JStr names))].
Definition wr_action1 (a : M1.action) : json :=
  match a with
  | M1.Transfer n => JObj [("type", JStr "Transfer"); ("amount", wr_dec n)]
  | M1.CreateAccount => JObj [("type", JStr "CreateAccount")]
  | M1.DeployContract c => JObj [("type", JStr "DeployContract"); ("code", wr_base64 c)]
  | M1.AddKey k None => JObj [("type", JStr "AddKey"); ("public_key", JStr k)]
  | M1.AddKey k (Some p) =>
      JObj [("type", JStr "AddKey"); ("public_key", JStr k);
            ("permission", wr_permission (M1.allowance p) (M1.perm_receiver p) (M1.method_names p))]
  | M1.DeleteKey k => JObj [("type", JStr "DeleteKey"); ("public_key", JStr k)]
  | M1.FunctionCall m a d g =>
      JObj [("type", JStr "FunctionCall"); ("method_name", JStr m); ("args", wr_base64 a); ("deposit", wr_dec d);
            ("gas", wr_dec g)]
  | M1.SetNumConfirmations n => JObj [("type", JStr "SetNumConfirmations"); ("num_confirmations", JNum n)]
  | M1.SetActiveRequestsLimit n => JObj [("type", JStr "SetActiveRequestsLimit"); ("active_requests_limit", JNum n)]
  end.
Definition wr_request1 (r : M1.request) : json :=
  JObj [("receiver_id", JStr (M1.receiver_id r)); ("actions", JArr (map wr_action1 (M1.actions r)))].
Definition wr_action2 (a : M2.action) : json :=
  match a with
  | M2.Transfer n => JObj [("type", JStr "Transfer"); ("amount", wr_dec n)]
  | M2.CreateAccount => JObj [("type", JStr "CreateAccount")]
  | M2.DeployContract c => JObj [("type", JStr "DeployContract"); ("code", wr_base64 c)]
  | M2.AddMember m => JObj [("type", JStr "AddMember"); ("member", wr_member m)]
  | M2.DeleteMember m => JObj [("type", JStr "DeleteMember"); ("member", wr_member m)]
  | M2.AddKey k None => JObj [("type", JStr "AddKey"); ("public_key", JStr k)]
  | M2.AddKey k (Some p) =>
      JObj [("type", JStr "AddKey"); ("public_key", JStr k);
            ("permission", wr_permission (M2.allowance p) (M2.perm_receiver p) (M2.method_names p))]
  | M2.FunctionCall m a d g =>
      JObj [("type", JStr "FunctionCall"); ("method_name", JStr m); ("args", wr_base64 a); ("deposit", wr_dec d);
            ("gas", wr_dec g)]
  | M2.SetNumConfirmations n => JObj [("type", JStr "SetNumConfirmations"); ("num_confirmations", JNum n)]
  | M2.SetActiveRequestsLimit n => JObj [("type", JStr "SetActiveRequestsLimit"); ("active_requests_limit", JNum n)]
  end.
Definition wr_request2 (r : M2.request) : json :=
  JObj [("receiver_id", JStr (M2.receiver_id r)); ("actions", JArr (map wr_action2 (M2.actions r)))].
