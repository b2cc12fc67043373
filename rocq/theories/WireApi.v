(** The interface of the contracts, as their READMEs and the signatures of their methods give it: for every request,
    the method and its arguments by name. Stated without reference to how the contracts read or write texts. *)
From Coq Require Import NArith List Bool String.
From Verif Require Import Prelude StateManipulationModel JsonModel JsonSpec WireModel WireSpec.
Import ListNotations.
Open Scope string_scope.
Open Scope N_scope.

(** The object has this field, and has it once; or it has no such field. *)
Definition once (k : string) (v : json) (o : list (string * json)) : Prop :=
  exists before after, o = (before ++ (k, v) :: after)%list /\ ~ In k (map fst before) /\ ~ In k (map fst after).
Definition absent (k : string) (o : list (string * json)) : Prop := ~ In k (map fst o).
(** The text gives these arguments: it is that of an object that has each of them once, in any order, with any white
    space, and whatever else; what is null may be left out. A method without arguments takes any text. *)
Definition gives (text : string) (args : list (string * json)) : Prop :=
  args = [] \/
  exists o, document text (JObj o) /\ forall k v, In (k, v) args -> once k v o \/ (v = JNull /\ absent k o).

(** Balances, durations and timestamps are decimal strings. *)
Definition amount (n : N) : json := JStr (decimal n).
Definition base64 (s : string) : json := JStr (encode s).
Definition nullable {A} (f : A -> json) (o : option A) : json := match o with Some x => f x | None => JNull end.
Definition api := (string * list (string * json))%type.

Definition fraction_of (f : SM.fraction) : json :=
  JObj [("numerator", JNum (SM.numerator f)); ("denominator", JNum (SM.denominator f))].
(** staking-pool *)
Definition pool_api (q : pool_request) : api :=
  match q with
  | PoolNew a k f => ("new", [("owner_id", JStr a); ("stake_public_key", JStr k); ("reward_fee_fraction", fraction_of f)])
  | PoolStaked u => ("get_account_staked_balance", [("account_id", JStr u)])
  | PoolUnstaked u => ("get_account_unstaked_balance", [("account_id", JStr u)])
  | PoolTotal u => ("get_account_total_balance", [("account_id", JStr u)])
  | PoolCall SM.Ping => ("ping", [])
  | PoolCall SM.Deposit => ("deposit", [])
  | PoolCall SM.DepositAndStake => ("deposit_and_stake", [])
  | PoolCall SM.WithdrawAll => ("withdraw_all", [])
  | PoolCall (SM.Withdraw n) => ("withdraw", [("amount", amount n)])
  | PoolCall SM.StakeAll => ("stake_all", [])
  | PoolCall (SM.Stake n) => ("stake", [("amount", amount n)])
  | PoolCall SM.UnstakeAll => ("unstake_all", [])
  | PoolCall (SM.Unstake n) => ("unstake", [("amount", amount n)])
  | PoolCall SM.OnStakeAction => ("on_stake_action", [])
  | PoolCall (SM.UpdateStakingKey k) => ("update_staking_key", [("stake_public_key", JStr k)])
  | PoolCall (SM.UpdateRewardFeeFraction f) => ("update_reward_fee_fraction", [("reward_fee_fraction", fraction_of f)])
  | PoolCall (SM.Vote v b) => ("vote", [("voting_account_id", JStr v); ("is_vote", JBool b)])
  | PoolCall SM.PauseStaking => ("pause_staking", [])
  | PoolCall SM.ResumeStaking => ("resume_staking", [])
  end.
Definition pool_possible (q : pool_request) : Prop :=
  match q with PoolNew _ _ f => fraction_fits f | PoolCall m => pool_fits m | _ => True end.

(** whitelist *)
Definition whitelist_api (q : whitelist_request) : api :=
  match q with
  | WhitelistNew f => ("new", [("foundation_account_id", JStr f)])
  | IsWhitelisted p => ("is_whitelisted", [("staking_pool_account_id", JStr p)])
  | IsFactoryWhitelisted f => ("is_factory_whitelisted", [("factory_account_id", JStr f)])
  | WhitelistCall (WL.AddStakingPool p) => ("add_staking_pool", [("staking_pool_account_id", JStr p)])
  | WhitelistCall (WL.RemoveStakingPool p) => ("remove_staking_pool", [("staking_pool_account_id", JStr p)])
  | WhitelistCall (WL.AddFactory f) => ("add_factory", [("factory_account_id", JStr f)])
  | WhitelistCall (WL.RemoveFactory f) => ("remove_factory", [("factory_account_id", JStr f)])
  end.

(** voting *)
Definition voting_api (q : voting_request) : api :=
  match q with
  | VotingNew => ("new", [])
  | GetResult => ("get_result", [])
  | VotingCall VM.Ping => ("ping", [])
  | VotingCall (VM.Vote b) => ("vote", [("is_vote", JBool b)])
  end.

(** staking-pool-factory *)
Definition pool_factory_api (q : pool_factory_request) : api :=
  match q with
  | PoolFactoryNew w => ("new", [("staking_pool_whitelist_account_id", JStr w)])
  | PoolFactoryCall (PF.CreateStakingPool i a k f) =>
      ("create_staking_pool", [("staking_pool_id", JStr i); ("owner_id", JStr a); ("stake_public_key", JStr k);
                               ("reward_fee_fraction", fraction_of f)])
  | PoolFactoryCall (PF.OnStakingPoolCreate a d p) =>
      ("on_staking_pool_create", [("staking_pool_account_id", JStr a); ("attached_deposit", amount d);
                                  ("predecessor_account_id", JStr p)])
  end.
Definition pool_factory_possible (q : pool_factory_request) : Prop :=
  match q with
  | PoolFactoryNew _ => True
  | PoolFactoryCall (PF.CreateStakingPool _ _ _ f) => fraction_fits f
  | PoolFactoryCall (PF.OnStakingPoolCreate _ d _) => d < U128_BOUND
  end.

(** lockup *)
Definition schedule_of (s : LM.vesting_schedule) : json :=
  JObj [("start_timestamp", amount (LM.start_timestamp s)); ("cliff_timestamp", amount (LM.cliff_timestamp s));
        ("end_timestamp", amount (LM.end_timestamp s))].
Definition schedule_or_hash_of (s : LM.schedule_or_hash) : json :=
  match s with
  | LM.ArgHash h => JObj [("VestingHash", base64 h)]
  | LM.ArgSchedule s => JObj [("VestingSchedule", schedule_of s)]
  end.
Definition transfers_of (t : LM.transfers_info) : json :=
  match t with
  | LM.TransfersEnabled t => JObj [("TransfersEnabled", JObj [("transfers_timestamp", amount t)])]
  | LM.TransfersDisabled a => JObj [("TransfersDisabled", JObj [("transfer_poll_account_id", JStr a)])]
  end.
Definition lockup_api (q : lockup_request) : api :=
  match q with
  | LockupNew a =>
      ("new", [("owner_account_id", JStr (LF.a_owner_account_id a));
               ("lockup_duration", amount (LF.a_lockup_duration a));
               ("lockup_timestamp", nullable amount (LF.a_lockup_timestamp a));
               ("transfers_information", transfers_of (LF.a_transfers_information a));
               ("vesting_schedule", nullable schedule_or_hash_of (LF.a_vesting_schedule a));
               ("release_duration", nullable amount (LF.a_release_duration a));
               ("staking_pool_whitelist_account_id", JStr (LF.a_staking_pool_whitelist_account_id a));
               ("foundation_account_id", nullable JStr (LF.a_foundation_account_id a))])
  | LockupCall m =>
      match m with
      | LM.SelectStakingPool p => ("select_staking_pool", [("staking_pool_account_id", JStr p)])
      | LM.UnselectStakingPool => ("unselect_staking_pool", [])
      | LM.DepositToStakingPool n => ("deposit_to_staking_pool", [("amount", amount n)])
      | LM.DepositAndStake n => ("deposit_and_stake", [("amount", amount n)])
      | LM.RefreshStakingPoolBalance => ("refresh_staking_pool_balance", [])
      | LM.WithdrawFromStakingPool n => ("withdraw_from_staking_pool", [("amount", amount n)])
      | LM.WithdrawAllFromStakingPool => ("withdraw_all_from_staking_pool", [])
      | LM.Stake n => ("stake", [("amount", amount n)])
      | LM.Unstake n => ("unstake", [("amount", amount n)])
      | LM.UnstakeAll => ("unstake_all", [])
      | LM.CheckTransfersVote => ("check_transfers_vote", [])
      | LM.Transfer n r => ("transfer", [("amount", amount n); ("receiver_id", JStr r)])
      | LM.AddFullAccessKey k => ("add_full_access_key", [("new_public_key", JStr k)])
      | LM.TerminateVesting o =>
          ("terminate_vesting",
            [("vesting_schedule_with_salt",
              nullable (fun x => JObj [("vesting_schedule", schedule_of (fst x)); ("salt", base64 (snd x))]) o)])
      | LM.TerminationPrepareToWithdraw => ("termination_prepare_to_withdraw", [])
      | LM.TerminationWithdraw r => ("termination_withdraw", [("receiver_id", JStr r)])
      | LM.OnWhitelistIsWhitelisted p => ("on_whitelist_is_whitelisted", [("staking_pool_account_id", JStr p)])
      | LM.OnStakingPoolDeposit n => ("on_staking_pool_deposit", [("amount", amount n)])
      | LM.OnStakingPoolDepositAndStake n => ("on_staking_pool_deposit_and_stake", [("amount", amount n)])
      | LM.OnStakingPoolWithdraw n => ("on_staking_pool_withdraw", [("amount", amount n)])
      | LM.OnStakingPoolStake n => ("on_staking_pool_stake", [("amount", amount n)])
      | LM.OnStakingPoolUnstake n => ("on_staking_pool_unstake", [("amount", amount n)])
      | LM.OnStakingPoolUnstakeAll => ("on_staking_pool_unstake_all", [])
      | LM.OnGetResultFromTransferPoll => ("on_get_result_from_transfer_poll", [])
      | LM.OnGetAccountTotalBalance => ("on_get_account_total_balance", [])
      | LM.OnGetAccountUnstakedBalanceToWithdrawByOwner => ("on_get_account_unstaked_balance_to_withdraw_by_owner", [])
      | LM.OnGetAccountStakedBalanceToUnstake => ("on_get_account_staked_balance_to_unstake", [])
      | LM.OnStakingPoolUnstakeForTermination n => ("on_staking_pool_unstake_for_termination", [("amount", amount n)])
      | LM.OnGetAccountUnstakedBalanceToWithdraw => ("on_get_account_unstaked_balance_to_withdraw", [])
      | LM.OnStakingPoolWithdrawForTermination n => ("on_staking_pool_withdraw_for_termination", [("amount", amount n)])
      | LM.OnWithdrawUnvestedAmount n r =>
          ("on_withdraw_unvested_amount", [("amount", amount n); ("receiver_id", JStr r)])
      end
  end.
Definition vesting_fits (o : option LM.schedule_or_hash) : Prop :=
  match o with Some (LM.ArgSchedule s) => schedule_fits s | _ => True end.
Definition lockup_possible (q : lockup_request) : Prop :=
  match q with
  | LockupNew a =>
      LF.a_lockup_duration a < U64_BOUND /\ fits_option U64_BOUND (LF.a_lockup_timestamp a) /\
      match LF.a_transfers_information a with LM.TransfersEnabled t => t < U64_BOUND | _ => True end /\
      vesting_fits (LF.a_vesting_schedule a) /\ fits_option U64_BOUND (LF.a_release_duration a)
  | LockupCall m => lockup_fits m
  end.

(** lockup-factory *)
Definition lockup_factory_api (q : lockup_factory_request) : api :=
  match q with
  | LockupFactoryNew w f => ("new", [("whitelist_account_id", JStr w); ("foundation_account_id", JStr f)])
  | LockupFactoryCall (LF.Create o d t v r w) =>
      ("create", [("owner_account_id", JStr o); ("lockup_duration", amount d); ("lockup_timestamp", nullable amount t);
                  ("vesting_schedule", nullable schedule_or_hash_of v); ("release_duration", nullable amount r);
                  ("whitelist_account_id", nullable JStr w)])
  | LockupFactoryCall (LF.OnLockupCreate a d p) =>
      ("on_lockup_create", [("lockup_account_id", JStr a); ("attached_deposit", amount d);
                            ("predecessor_account_id", JStr p)])
  end.
Definition valid_option (o : option account_id) : Prop :=
  match o with Some a => is_valid_account_id a = true | None => True end.
Definition lockup_factory_possible (q : lockup_factory_request) : Prop :=
  match q with
  | LockupFactoryNew w f => is_valid_account_id w = true /\ is_valid_account_id f = true
  | LockupFactoryCall (LF.Create o d t v r w) =>
      is_valid_account_id o = true /\ d < U64_BOUND /\ fits_option U64_BOUND t /\ vesting_fits v /\
      fits_option U64_BOUND r /\ valid_option w
  | LockupFactoryCall (LF.OnLockupCreate _ d _) => d < U128_BOUND
  end.

(** multisig-factory, and the [new] of the multisig it makes *)
Definition member_of (m : M2.member) : json :=
  match m with
  | M2.AccessKey k => JObj [("public_key", JStr k)]
  | M2.Account a => JObj [("account_id", JStr a)]
  end.
Definition members_api (ms : list M2.member) (k : N) : list (string * json) :=
  [("members", JArr (map member_of ms)); ("num_confirmations", JNum k)].

(** multisig *)
Definition permission_of (allowance : option N) (receiver : account_id) (names : list string) : json :=
  JObj [("allowance", nullable amount allowance); ("receiver_id", JStr receiver); ("method_names", JArr (map JStr names))].
Definition action (name : string) (args : list (string * json)) : json := JObj (("type", JStr name) :: args).
Definition action1_of (a : M1.action) : json :=
  match a with
  | M1.Transfer n => action "Transfer" [("amount", amount n)]
  | M1.CreateAccount => action "CreateAccount" []
  | M1.DeployContract c => action "DeployContract" [("code", base64 c)]
  | M1.AddKey k None => action "AddKey" [("public_key", JStr k)]
  | M1.AddKey k (Some p) =>
      action "AddKey" [("public_key", JStr k);
                       ("permission", permission_of (M1.allowance p) (M1.perm_receiver p) (M1.method_names p))]
  | M1.DeleteKey k => action "DeleteKey" [("public_key", JStr k)]
  | M1.FunctionCall m x d g =>
      action "FunctionCall" [("method_name", JStr m); ("args", base64 x); ("deposit", amount d); ("gas", amount g)]
  | M1.SetNumConfirmations n => action "SetNumConfirmations" [("num_confirmations", JNum n)]
  | M1.SetActiveRequestsLimit n => action "SetActiveRequestsLimit" [("active_requests_limit", JNum n)]
  end.
Definition request1_of (r : M1.request) : json :=
  JObj [("receiver_id", JStr (M1.receiver_id r)); ("actions", JArr (map action1_of (M1.actions r)))].
Definition multisig_api (q : M1.call) : api :=
  match q with
  | M1.CAddRequest r => ("add_request", [("request", request1_of r)])
  | M1.CAddRequestAndConfirm r => ("add_request_and_confirm", [("request", request1_of r)])
  | M1.CDeleteRequest i => ("delete_request", [("request_id", JNum i)])
  | M1.CConfirm i => ("confirm", [("request_id", JNum i)])
  end.

(** multisig2 *)
Definition action2_of (a : M2.action) : json :=
  match a with
  | M2.Transfer n => action "Transfer" [("amount", amount n)]
  | M2.CreateAccount => action "CreateAccount" []
  | M2.DeployContract c => action "DeployContract" [("code", base64 c)]
  | M2.AddMember m => action "AddMember" [("member", member_of m)]
  | M2.DeleteMember m => action "DeleteMember" [("member", member_of m)]
  | M2.AddKey k None => action "AddKey" [("public_key", JStr k)]
  | M2.AddKey k (Some p) =>
      action "AddKey" [("public_key", JStr k);
                       ("permission", permission_of (M2.allowance p) (M2.perm_receiver p) (M2.method_names p))]
  | M2.FunctionCall m x d g =>
      action "FunctionCall" [("method_name", JStr m); ("args", base64 x); ("deposit", amount d); ("gas", amount g)]
  | M2.SetNumConfirmations n => action "SetNumConfirmations" [("num_confirmations", JNum n)]
  | M2.SetActiveRequestsLimit n => action "SetActiveRequestsLimit" [("active_requests_limit", JNum n)]
  end.
Definition request2_of (r : M2.request) : json :=
  JObj [("receiver_id", JStr (M2.receiver_id r)); ("actions", JArr (map action2_of (M2.actions r)))].
Definition multisig2_api (q : M2.call) : api :=
  match q with
  | M2.CAddRequest r => ("add_request", [("request", request2_of r)])
  | M2.CAddRequestAndConfirm r => ("add_request_and_confirm", [("request", request2_of r)])
  | M2.CDeleteRequest i => ("delete_request", [("request_id", JNum i)])
  | M2.CConfirm i => ("confirm", [("request_id", JNum i)])
  end.

(** w-near: the token takes a memo and, for the receiver, a note; neither is part of what it does. *)
Definition wnear_api (memo : option string) (note : string) (q : WN.call) : api :=
  match q with
  | WN.New => ("new", [])
  | WN.NearDeposit => ("near_deposit", [])
  | WN.NearWithdraw n => ("near_withdraw", [("amount", amount n)])
  | WN.FtTransfer r n => ("ft_transfer", [("receiver_id", JStr r); ("amount", amount n); ("memo", nullable JStr memo)])
  | WN.FtTransferCall r n =>
      ("ft_transfer_call", [("receiver_id", JStr r); ("amount", amount n); ("memo", nullable JStr memo); ("msg", JStr note)])
  | WN.FtResolveTransfer s r n =>
      ("ft_resolve_transfer", [("sender_id", JStr s); ("receiver_id", JStr r); ("amount", amount n)])
  | WN.StorageDeposit a b =>
      ("storage_deposit", [("account_id", nullable JStr a); ("registration_only", nullable JBool b)])
  | WN.StorageWithdraw n => ("storage_withdraw", [("amount", nullable amount n)])
  | WN.StorageUnregister f => ("storage_unregister", [("force", nullable JBool f)])
  end.
Definition wnear_possible (q : WN.call) : Prop :=
  match q with
  | WN.NearWithdraw n => n < U128_BOUND
  | WN.FtTransfer r n | WN.FtTransferCall r n => is_valid_account_id r = true /\ n < U128_BOUND
  | WN.FtResolveTransfer s r n => is_valid_account_id s = true /\ is_valid_account_id r = true /\ n < U128_BOUND
  | WN.StorageDeposit a _ => valid_option a
  | WN.StorageWithdraw n => fits_option U128_BOUND n
  | _ => True
  end.

(** A contract speaks this interface: whatever text gives the arguments of a request that can be, sent to its method,
    is read as that request; and no other method can be read as it, nor can a request that does not fit its types. *)
Definition speaks {A} (reads : string -> string -> option A) (form : A -> api) (possible : A -> Prop) : Prop :=
  forall q,
    (possible q -> forall text, gives text (snd (form q)) -> reads (fst (form q)) text = Some q) /\
    (forall name text, reads name text = Some q -> name = fst (form q) /\ possible q).
