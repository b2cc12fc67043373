(** The view methods of the contracts as texts: how each reads its arguments and writes its answer. Definitions only.
    What a view finds out is in the model of its contract; the readers of arguments and most writers are those of
    WireModel.v. A view that is given unreadable arguments, or that panics, answers nothing. *)
From Coq Require Import NArith List Bool String.
From Verif Require Import Prelude JsonModel WireModel.
Import ListNotations.
Open Scope string_scope.
Open Scope N_scope.

Definition views := methods (res json).
Definition asked (t : views) (name args : string) : option string :=
  match dispatch t name args with Some (Ok v) => Some (print v) | _ => None end.
Definition shown {A} (w : A -> json) (r : res A) : res json := let! x := r in Ok (w x).
(** A view of one argument. *)
Definition of_field {A} (k : string) (r : rd A) (f : A -> res json) : string -> option (res json) :=
  with_args (fun o => option_map f (field k r o)).
Definition constant (v : json) : string -> option (res json) := no_args (Ok v).

(** staking-pool/src/lib.rs:58-69 [HumanReadableAccount] *)
Definition wr_account (h : SM.human_account) : json :=
  JObj [("account_id", JStr (SM.h_account_id h)); ("unstaked_balance", wr_dec (SM.h_unstaked_balance h));
        ("staked_balance", wr_dec (SM.h_staked_balance h)); ("can_withdraw", JBool (SM.h_can_withdraw h))].
(** staking-pool/src/lib.rs:321-393. [epoch] is [env::epoch_height()]. *)
Definition pool_views (epoch : N) (p : SM.pool) : views :=
  [("get_account_unstaked_balance", of_field "account_id" account (fun u => shown wr_dec (SM.get_account_unstaked_balance p u)));
   ("get_account_staked_balance", of_field "account_id" account (fun u => shown wr_dec (SM.get_account_staked_balance p u)));
   ("get_account_total_balance", of_field "account_id" account (fun u => shown wr_dec (SM.get_account_total_balance p u)));
   ("is_account_unstaked_balance_available", of_field "account_id" account (fun u =>
      shown JBool (SM.is_account_unstaked_balance_available epoch p u)));
   ("get_total_staked_balance", constant (wr_dec (SM.get_total_staked_balance p)));
   ("get_owner_id", constant (JStr (SM.get_owner_id p)));
   ("get_reward_fee_fraction", constant (wr_fraction (SM.get_reward_fee_fraction p)));
   ("get_staking_key", constant (JStr (SM.get_staking_key p)));
   ("is_staking_paused", constant (JBool (SM.is_staking_paused p)));
   ("get_account", of_field "account_id" account (fun u => shown wr_account (SM.get_account epoch p u)));
   ("get_number_of_accounts", constant (JNum (SM.get_number_of_accounts p)));
   ("get_accounts", with_args (fun o =>
      let? i := field "from_index" u64 o in
      let? n := field "limit" u64 o in
      Some (shown (fun l => JArr (map wr_account l)) (SM.get_accounts epoch p i n))))].

(** whitelist/src/lib.rs:51-66 *)
Definition whitelist_views (s : WL.contract) : views :=
  [("is_whitelisted", of_field "staking_pool_account_id" account (fun a => shown JBool (WL.is_whitelisted s a)));
   ("is_factory_whitelisted", of_field "factory_account_id" account (fun a => shown JBool (WL.is_factory_whitelisted s a)))].

(** voting/src/lib.rs:106-128. The pair is an array, the hash map an object with its entries in any order. *)
Definition voting_views (c : VM.ctx) (s : VM.contract) : views :=
  [("get_result", constant (wr_option wr_dec (VM.get_result s)));
   ("get_total_voted_stake", constant (let '(a, b) := VM.get_total_voted_stake c s in JArr [wr_dec a; wr_dec b]));
   ("get_votes", constant (JObj (map (fun '(a, n) => (a, wr_dec n)) (VM.get_votes s))))].

(** staking-pool-factory/src/lib.rs:119-126 *)
Definition pool_factory_views (s : PF.factory) : views :=
  [("get_min_attached_balance", constant (wr_dec PF.get_min_attached_balance));
   ("get_number_of_staking_pools_created", constant (JNum (PF.get_number_of_staking_pools_created s)))].

(** lockup-factory/src/lib.rs:93-105 *)
Definition lockup_factory_views (c : LF.ctx) (s : LF.factory) : views :=
  [("get_foundation_account_id", constant (JStr (LF.get_foundation_account_id s)));
   ("get_lockup_master_account_id", constant (JStr (LF.get_lockup_master_account_id c)));
   ("get_min_attached_balance", constant (wr_dec LF.get_min_attached_balance))].

(** lockup/src/types.rs:160-177 [TerminationStatus]: an enum without fields is the name of the variant. *)
Definition wr_status (t : LM.termination_status) : json :=
  JStr match t with
       | LM.VestingTerminatedWithDeficit => "VestingTerminatedWithDeficit"
       | LM.UnstakingInProgress => "UnstakingInProgress"
       | LM.EverythingUnstaked => "EverythingUnstaked"
       | LM.WithdrawingFromStakingPoolInProgress => "WithdrawingFromStakingPoolInProgress"
       | LM.ReadyToWithdraw => "ReadyToWithdraw"
       | LM.WithdrawingFromAccountInProgress => "WithdrawingFromAccountInProgress"
       end.
(** lockup/src/types.rs:140-156, 180-190 [VestingInformation], [TerminationInformation] *)
Definition wr_vesting (v : LM.vesting_info) : json :=
  match v with
  | LM.VNone => JStr "None"
  | LM.VHash h => JObj [("VestingHash", wr_base64 h)]
  | LM.VSchedule s => JObj [("VestingSchedule", wr_schedule s)]
  | LM.VTerminating t =>
      JObj [("Terminating", JObj [("unvested_amount", wr_dec (LM.unvested_amount t)); ("status", wr_status (LM.t_status t))])]
  end.
(** lockup/src/getters.rs:9-186. [now] is [env::block_timestamp()], [balance] is [env::account_balance()]. *)
Definition lockup_views (now balance : N) (s : LM.contract) : views :=
  [("get_owner_account_id", constant (JStr (LM.get_owner_account_id s)));
   ("get_staking_pool_account_id", constant (wr_option JStr (LM.get_staking_pool_account_id s)));
   ("get_known_deposited_balance", constant (wr_dec (LM.get_known_deposited_balance s)));
   ("get_termination_status", constant (wr_option wr_status (LM.get_termination_status s)));
   ("get_terminated_unvested_balance", constant (wr_dec (LM.get_terminated_unvested_balance s)));
   ("get_terminated_unvested_balance_deficit",
      constant (wr_dec (LM.get_terminated_unvested_balance_deficit s balance)));
   ("get_locked_amount", no_args (shown wr_dec (LM.get_locked_amount s now)));
   ("get_locked_vested_amount", of_field "vesting_schedule" schedule (fun v =>
      shown wr_dec (LM.get_locked_vested_amount s now v)));
   ("get_unvested_amount", of_field "vesting_schedule" schedule (fun v => shown wr_dec (LM.get_unvested_amount s now v)));
   ("get_vesting_information", constant (wr_vesting (LM.get_vesting_information s)));
   ("get_owners_balance", no_args (shown wr_dec (LM.get_owners_balance s now balance)));
   ("get_balance", no_args (shown wr_dec (LM.get_balance s balance)));
   ("get_liquid_owners_balance", no_args (shown wr_dec (LM.get_liquid_owners_balance s now balance)));
   ("are_transfers_enabled", constant (JBool (LM.are_transfers_enabled s)))].

(** multisig/src/lib.rs:327-354 *)
Definition multisig_views (s : M1.contract) : views :=
  [("get_request", of_field "request_id" u32 (fun i => shown wr_request1 (M1.get_request s i)));
   ("get_num_requests_pk", of_field "public_key" key (fun k => Ok (JNum (M1.get_num_requests_pk s k))));
   ("list_request_ids", constant (JArr (map JNum (M1.list_request_ids s))));
   ("get_confirmations", of_field "request_id" u32 (fun i =>
      shown (fun l => JArr (map JStr l)) (M1.get_confirmations s i)));
   ("get_num_confirmations", constant (JNum (M1.get_num_confirmations s)));
   ("get_request_nonce", constant (JNum (M1.get_request_nonce s)))].

(** multisig2/src/lib.rs:444-478 *)
Definition multisig2_views (s : M2.contract) : views :=
  [("get_members", constant (JArr (map wr_member (M2.get_members s))));
   ("get_request", of_field "request_id" u32 (fun i => shown wr_request2 (M2.get_request s i)));
   ("get_num_requests_per_member", of_field "member" (member valid_account) (fun m =>
      Ok (JNum (M2.get_num_requests_per_member s m))));
   ("list_request_ids", constant (JArr (map JNum (M2.list_request_ids s))));
   ("get_confirmations", of_field "request_id" u32 (fun i =>
      shown (fun l => JArr (map JStr l)) (M2.get_confirmations s i)));
   ("get_num_confirmations", constant (JNum (M2.get_num_confirmations s)));
   ("get_request_nonce", constant (JNum (M2.get_request_nonce s)))].

(** near-contract-standards 3.1.0 (a library): [StorageBalance], [StorageBalanceBounds]. *)
Definition wr_storage (x : N * N) : json := JObj [("total", wr_dec (fst x)); ("available", wr_dec (snd x))].
Definition wr_bounds (min : N) : json := JObj [("min", wr_dec min); ("max", wr_option wr_dec (Some min))].
(** w-near/src/lib.rs:46-59 and near-contract-standards 3.1.0 [FungibleTokenMetadata], [FT_METADATA_SPEC] *)
Definition wr_metadata : json :=
  JObj [("spec", JStr "ft-1.0.0"); ("name", JStr "Wrapped NEAR fungible token"); ("symbol", JStr "wNEAR");
        ("icon", JNull); ("reference", JNull); ("reference_hash", JNull); ("decimals", JNum 24)].
(** w-near/src/lib.rs:43-60, legacy_storage.rs:5-7 and near-contract-standards 3.1.0 *)
Definition wnear_views (t : WN.token) : views :=
  [("ft_total_supply", constant (wr_dec (WN.ft_total_supply t)));
   ("ft_balance_of", of_field "account_id" valid_account (fun a => Ok (wr_dec (WN.ft_balance_of t a))));
   ("storage_balance_bounds", no_args (shown wr_bounds (WN.storage_min t)));
   ("storage_balance_of", of_field "account_id" valid_account (fun a =>
      shown (wr_option wr_storage) (WN.storage_balance_of t a)));
   ("ft_metadata", constant wr_metadata);
   ("storage_minimum_balance", no_args (shown wr_dec (WN.storage_min t)))].
