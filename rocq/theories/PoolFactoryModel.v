(** Model of the staking pool factory: staking-pool-factory/src/lib.rs and utils.rs. Definitions only.
    Logging is not modelled; gas amounts are in GasModel. *)
From Coq Require Import NArith List Bool String Ascii.
From Verif Require Import Prelude.
From Verif Require StakingPoolModel.
Import ListNotations.
Open Scope string_scope.
Open Scope N_scope.

(** The reward fee of the created pool: staking-pool-factory/src/lib.rs:54-60, the same record as in the
    staking pool. *)
Definition fraction := StakingPoolModel.fraction.

(** staking-pool-factory/src/lib.rs:11 *)
Definition MIN_ATTACHED_BALANCE : N := 30000000000000000000000000.

(** staking-pool-factory/src/lib.rs:40-46 [StakingPoolFactory] *)
Record factory := mkFactory {
  staking_pool_whitelist_account_id : account_id;
  staking_pool_account_ids : uset account_id
}.

Record ctx := mkCtx {
  ctx_current : account_id;
  ctx_predecessor : account_id;
  ctx_attached : N;
  ctx_results : list bool      (** the promise results: did they succeed *)
}.

(** staking-pool-factory/src/lib.rs:72-81 [StakingPoolArgs]: the arguments of the pool's [new]. *)
Record pool_args := mkArgs {
  a_owner_id : account_id;
  a_stake_public_key : public_key;
  a_reward_fee_fraction : fraction
}.

(** Public methods that change state. *)
Inductive call :=
| CreateStakingPool (staking_pool_id : string) (owner_id : account_id) (key : public_key) (fee : fraction)
| OnStakingPoolCreate (staking_pool_account_id : account_id) (attached_deposit : N)
    (predecessor_account_id : account_id).

(** Promises. [PCreate a amount args cb]: create account [a], transfer [amount] to it, deploy the staking
    pool code and call its [new] with [args], all in one receipt; then call [cb] on the factory. *)
Inductive promise :=
| PCreate (a : account_id) (amount : N) (args : pool_args) (cb : call)
| PTransfer (to : account_id) (amount : N)
| PAddStakingPool (whitelist : account_id) (a : account_id).

(** staking-pool-factory/src/lib.rs:104-115 *)
Definition new (state_exists : bool) (whitelist : account_id) : res factory :=
  assert! negb state_exists orelse "The contract is already initialized" ;;
  assert! is_valid_account_id whitelist orelse "The staking pool whitelist account ID is invalid" ;;
  Ok (mkFactory whitelist []).

(** staking-pool-factory/src/lib.rs:119-121 *)
Definition get_min_attached_balance : N := MIN_ATTACHED_BALANCE.
(** staking-pool-factory/src/lib.rs:124-126 *)
Definition get_number_of_staking_pools_created (s : factory) : N := slength (staking_pool_account_ids s).

(** [str::find('.')] *)
Fixpoint has_dot (s : string) : bool :=
  match s with
  | EmptyString => false
  | String c r => Ascii.eqb c "."%char || has_dot r
  end.

(** staking-pool-factory/src/lib.rs:62-70 *)
Definition fraction_assert_valid (f : fraction) : res unit :=
  assert! negb (StakingPoolModel.denominator f =? 0) orelse "Denominator must be a positive number" ;;
  require (StakingPoolModel.numerator f <=? StakingPoolModel.denominator f)
    "The reward fee must be less or equal to 1".

(** staking-pool-factory/src/lib.rs:137-195 *)
Definition create_staking_pool (c : ctx) (s : factory) (staking_pool_id : string) (owner : account_id)
    (key : public_key) (fee : fraction) : res (factory * list promise) :=
  assert! MIN_ATTACHED_BALANCE <=? ctx_attached c
    orelse "Not enough attached deposit to complete staking pool creation" ;;
  assert! negb (has_dot staking_pool_id) orelse "The staking pool ID can't contain `.`" ;;
  let a := staking_pool_id ++ "." ++ ctx_current c in
  assert! is_valid_account_id a orelse "The staking pool account ID is invalid" ;;
  assert! is_valid_account_id owner orelse "The owner account ID is invalid" ;;
  let! _ := fraction_assert_valid fee in
  assert! negb (smem a (staking_pool_account_ids s)) orelse "The staking pool account ID already exists" ;;
  Ok (mkFactory (staking_pool_whitelist_account_id s) (sinsert a (staking_pool_account_ids s)),
      [PCreate a (ctx_attached c) (mkArgs owner key fee)
         (OnStakingPoolCreate a (ctx_attached c) (ctx_predecessor c))]).

(** staking-pool-factory/src/utils.rs:7-17 [is_promise_success] *)
Definition is_promise_success (c : ctx) : res bool :=
  match ctx_results c with
  | [b] => Ok b
  | _ => Panic "Contract expected a result on the callback"
  end.

(** staking-pool-factory/src/lib.rs:200-239; [assert_self] is utils.rs:3-5. *)
Definition on_staking_pool_create (c : ctx) (s : factory) (a : account_id) (deposit : N) (caller : account_id)
    : res (factory * list promise) :=
  assert! String.eqb (ctx_predecessor c) (ctx_current c) orelse "assertion failed: `(left == right)`" ;;
  let! created := is_promise_success c in
  if created : bool then
    Ok (s, [PAddStakingPool (staking_pool_whitelist_account_id s) a])
  else
    Ok (mkFactory (staking_pool_whitelist_account_id s) (sremove a (staking_pool_account_ids s)),
        [PTransfer caller deposit]).

(** Dispatch. Only [create_staking_pool] is payable (line 136). *)
Definition exec (c : ctx) (s : factory) (m : call) : res (factory * list promise) :=
  match m with
  | CreateStakingPool id owner key fee => create_staking_pool c s id owner key fee
  | OnStakingPoolCreate a deposit caller =>
      assert! ctx_attached c =? 0 orelse "Method on_staking_pool_create doesn't accept deposit" ;;
      on_staking_pool_create c s a deposit caller
  end.
