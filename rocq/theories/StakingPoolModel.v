(** Model of the staking pool contract: staking-pool/src/lib.rs and staking-pool/src/internal.rs.
    Definitions only. Logging is not modelled. *)
From Coq Require Import NArith List Bool String.
From Verif Require Import Prelude.
Import ListNotations.
Open Scope string_scope.
Open Scope N_scope.

(** staking-pool/src/lib.rs:23 *)
Definition STAKE_SHARE_PRICE_GUARANTEE_FUND : N := 1000000000000.
(** staking-pool/src/lib.rs:85 *)
Definition NUM_EPOCHS_TO_UNLOCK : N := 4.

(** staking-pool/src/lib.rs:42-56 [Account], 71-79 [Default] *)
Record account := mkAccount {
  unstaked : N;
  stake_shares : N;
  unstaked_available_epoch_height : N
}.
Definition default_account : account := mkAccount 0 0 0.

(** staking-pool/src/lib.rs:125-130 [RewardFeeFraction] *)
Record fraction := mkFraction { numerator : N; denominator : N }.

(** staking-pool/src/lib.rs:89-117 [StakingContract] *)
Record pool := mkPool {
  owner_id : account_id;
  stake_public_key : public_key;
  last_epoch_height : N;
  last_total_balance : N;
  total_stake_shares : N;
  total_staked_balance : N;
  reward_fee_fraction : fraction;
  accounts : umap account_id account;
  paused : bool
}.

(** Field updates (Rust assignments to one field). *)
Definition set_key (k : public_key) (p : pool) : pool :=
  mkPool (owner_id p) k (last_epoch_height p) (last_total_balance p) (total_stake_shares p)
         (total_staked_balance p) (reward_fee_fraction p) (accounts p) (paused p).
Definition set_last_epoch (e : N) (p : pool) : pool :=
  mkPool (owner_id p) (stake_public_key p) e (last_total_balance p) (total_stake_shares p)
         (total_staked_balance p) (reward_fee_fraction p) (accounts p) (paused p).
Definition set_last_total (b : N) (p : pool) : pool :=
  mkPool (owner_id p) (stake_public_key p) (last_epoch_height p) b (total_stake_shares p)
         (total_staked_balance p) (reward_fee_fraction p) (accounts p) (paused p).
Definition set_total_shares (s : N) (p : pool) : pool :=
  mkPool (owner_id p) (stake_public_key p) (last_epoch_height p) (last_total_balance p) s
         (total_staked_balance p) (reward_fee_fraction p) (accounts p) (paused p).
Definition set_total_staked (b : N) (p : pool) : pool :=
  mkPool (owner_id p) (stake_public_key p) (last_epoch_height p) (last_total_balance p)
         (total_stake_shares p) b (reward_fee_fraction p) (accounts p) (paused p).
Definition set_fraction (f : fraction) (p : pool) : pool :=
  mkPool (owner_id p) (stake_public_key p) (last_epoch_height p) (last_total_balance p)
         (total_stake_shares p) (total_staked_balance p) f (accounts p) (paused p).
Definition set_accounts (a : umap account_id account) (p : pool) : pool :=
  mkPool (owner_id p) (stake_public_key p) (last_epoch_height p) (last_total_balance p)
         (total_stake_shares p) (total_staked_balance p) (reward_fee_fraction p) a (paused p).
Definition set_paused (b : bool) (p : pool) : pool :=
  mkPool (owner_id p) (stake_public_key p) (last_epoch_height p) (last_total_balance p)
         (total_stake_shares p) (total_staked_balance p) (reward_fee_fraction p) (accounts p) b.

(** The values read through [near_sdk::env]. [ctx_balance] is [env::account_balance()] and includes
    the attached deposit; [ctx_results] lists the promise results, [true] for
    [PromiseResult::Successful]. *)
Record ctx := mkCtx {
  ctx_current : account_id;
  ctx_predecessor : account_id;
  ctx_attached : N;
  ctx_balance : N;
  ctx_locked : N;
  ctx_epoch : N;
  ctx_results : list bool
}.

(** Promises the pool creates. [PStake amount key cb]: a stake action of the pool on itself, followed
    by the callback [on_stake_action] when [cb] is true. *)
Inductive promise :=
| PTransfer (receiver : account_id) (amount : N)
| PStake (amount : N) (key : public_key) (callback : bool)
| PVote (voting_account_id : account_id) (is_vote : bool).

(** staking-pool/src/lib.rs:133-139 *)
Definition fraction_assert_valid (f : fraction) : res unit :=
  assert! negb (denominator f =? 0) orelse "Denominator must be a positive number" ;;
  assert! numerator f <=? denominator f orelse "The reward fee must be less or equal to 1" ;;
  Ok tt.

(** staking-pool/src/lib.rs:141-143 *)
Definition fraction_multiply (f : fraction) (value : N) : res N :=
  let! prod := mul256 (numerator f) value in
  let! q := div_chk prod (denominator f) in
  as_u128 q.

(** staking-pool/src/internal.rs:261-272 *)
Definition num_shares_from_staked_amount_rounded_down (p : pool) (amount : N) : res N :=
  assert! 0 <? total_staked_balance p orelse "The total staked balance can't be 0" ;;
  let! prod := mul256 (total_stake_shares p) amount in
  let! q := div_chk prod (total_staked_balance p) in
  as_u128 q.

(** staking-pool/src/internal.rs:278-290 *)
Definition num_shares_from_staked_amount_rounded_up (p : pool) (amount : N) : res N :=
  assert! 0 <? total_staked_balance p orelse "The total staked balance can't be 0" ;;
  let! prod := mul256 (total_stake_shares p) amount in
  let! t1 := sub_chk (total_staked_balance p) 1 in
  let! s := add256 prod t1 in
  let! q := div_chk s (total_staked_balance p) in
  as_u128 q.

(** staking-pool/src/internal.rs:293-304 *)
Definition staked_amount_from_num_shares_rounded_down (p : pool) (num_shares : N) : res N :=
  assert! 0 <? total_stake_shares p orelse "The total number of stake shares can't be 0" ;;
  let! prod := mul256 (total_staked_balance p) num_shares in
  let! q := div_chk prod (total_stake_shares p) in
  as_u128 q.

(** staking-pool/src/internal.rs:309-321 *)
Definition staked_amount_from_num_shares_rounded_up (p : pool) (num_shares : N) : res N :=
  assert! 0 <? total_stake_shares p orelse "The total number of stake shares can't be 0" ;;
  let! prod := mul256 (total_staked_balance p) num_shares in
  let! s1 := sub_chk (total_stake_shares p) 1 in
  let! s := add256 prod s1 in
  let! q := div_chk s (total_stake_shares p) in
  as_u128 q.

(** staking-pool/src/internal.rs:324-326 *)
Definition internal_get_account (p : pool) (a : account_id) : account :=
  match mget a (accounts p) with
  | Some acc => acc
  | None => default_account
  end.

(** staking-pool/src/internal.rs:330-336 *)
Definition internal_save_account (p : pool) (a : account_id) (acc : account) : pool :=
  if (0 <? unstaked acc) || (0 <? stake_shares acc)
  then set_accounts (minsert a acc (accounts p)) p
  else set_accounts (mremove a (accounts p)) p.

(** staking-pool/src/internal.rs:9-22. The gas of the callback is in GasModel. *)
Definition internal_restake (p : pool) : list promise :=
  if paused p then []
  else [PStake (total_staked_balance p) (stake_public_key p) true].

(** staking-pool/src/internal.rs:24-40 *)
Definition internal_deposit (c : ctx) (p : pool) : res (pool * N) :=
  let account_id := ctx_predecessor c in
  let acc := internal_get_account p account_id in
  let amount := ctx_attached c in
  let! u := add128 (unstaked acc) amount in
  let p := internal_save_account p account_id
             (mkAccount u (stake_shares acc) (unstaked_available_epoch_height acc)) in
  let! b := add128 (last_total_balance p) amount in
  Ok (set_last_total b p, amount).

(** staking-pool/src/internal.rs:42-68 *)
Definition internal_withdraw (c : ctx) (p : pool) (amount : N) : res (pool * list promise) :=
  assert! 0 <? amount orelse "Withdrawal amount should be positive" ;;
  let account_id := ctx_predecessor c in
  let acc := internal_get_account p account_id in
  assert! amount <=? unstaked acc orelse "Not enough unstaked balance to withdraw" ;;
  assert! unstaked_available_epoch_height acc <=? ctx_epoch c
    orelse "The unstaked balance is not yet available due to unstaking delay" ;;
  let! u := sub_chk (unstaked acc) amount in
  let p := internal_save_account p account_id
             (mkAccount u (stake_shares acc) (unstaked_available_epoch_height acc)) in
  let! b := sub_chk (last_total_balance p) amount in
  Ok (set_last_total b p, [PTransfer account_id amount]).

(** staking-pool/src/internal.rs:70-122 *)
Definition internal_stake (c : ctx) (p : pool) (amount : N) : res pool :=
  assert! 0 <? amount orelse "Staking amount should be positive" ;;
  let account_id := ctx_predecessor c in
  let acc := internal_get_account p account_id in
  let! num_shares := num_shares_from_staked_amount_rounded_down p amount in
  assert! 0 <? num_shares
    orelse "The calculated number of stake shares received for staking should be positive" ;;
  let! charge_amount := staked_amount_from_num_shares_rounded_down p num_shares in
  assert! 0 <? charge_amount
    orelse "Invariant violation. Calculated staked amount must be positive" ;;
  assert! charge_amount <=? unstaked acc orelse "Not enough unstaked balance to stake" ;;
  let! u := sub_chk (unstaked acc) charge_amount in
  let! sh := add128 (stake_shares acc) num_shares in
  let p := internal_save_account p account_id
             (mkAccount u sh (unstaked_available_epoch_height acc)) in
  let! stake_amount := staked_amount_from_num_shares_rounded_up p num_shares in
  let! t := add128 (total_staked_balance p) stake_amount in
  let p := set_total_staked t p in
  let! s := add128 (total_stake_shares p) num_shares in
  Ok (set_total_shares s p).

(** staking-pool/src/internal.rs:124-181 *)
Definition inner_unstake (c : ctx) (p : pool) (amount : N) : res pool :=
  assert! 0 <? amount orelse "Unstaking amount should be positive" ;;
  let account_id := ctx_predecessor c in
  let acc := internal_get_account p account_id in
  assert! 0 <? total_staked_balance p orelse "The contract doesn't have staked balance" ;;
  let! num_shares := num_shares_from_staked_amount_rounded_up p amount in
  assert! 0 <? num_shares
    orelse "Invariant violation. The calculated number of stake shares for unstaking should be positive" ;;
  assert! num_shares <=? stake_shares acc orelse "Not enough staked balance to unstake" ;;
  let! receive_amount := staked_amount_from_num_shares_rounded_up p num_shares in
  assert! 0 <? receive_amount
    orelse "Invariant violation. Calculated staked amount must be positive" ;;
  let! sh := sub_chk (stake_shares acc) num_shares in
  let! u := add128 (unstaked acc) receive_amount in
  let! e := add64 (ctx_epoch c) NUM_EPOCHS_TO_UNLOCK in
  let p := internal_save_account p account_id (mkAccount u sh e) in
  let! unstake_amount := staked_amount_from_num_shares_rounded_down p num_shares in
  let! t := sub_chk (total_staked_balance p) unstake_amount in
  let p := set_total_staked t p in
  let! s := sub_chk (total_stake_shares p) num_shares in
  Ok (set_total_shares s p).

(** staking-pool/src/internal.rs:184-190 *)
Definition assert_owner (c : ctx) (p : pool) : res unit :=
  require (String.eqb (ctx_predecessor c) (owner_id p)) "Can only be called by the owner".

(** staking-pool/src/internal.rs:194-250 *)
Definition internal_ping (c : ctx) (p : pool) : res (pool * bool) :=
  let epoch_height := ctx_epoch c in
  if last_epoch_height p =? epoch_height then Ok (p, false)
  else
    let p := set_last_epoch epoch_height p in
    let! lb := add128 (ctx_locked c) (ctx_balance c) in
    let! total_balance := sub_chk lb (ctx_attached c) in
    assert! last_total_balance p <=? total_balance
      orelse "The new total balance should not be less than the old total balance" ;;
    let! total_reward := sub_chk total_balance (last_total_balance p) in
    let! p :=
      if 0 <? total_reward then
        let! owners_fee := fraction_multiply (reward_fee_fraction p) total_reward in
        let! remaining_reward := sub_chk total_reward owners_fee in
        let! t := add128 (total_staked_balance p) remaining_reward in
        let p := set_total_staked t p in
        let! num_shares := num_shares_from_staked_amount_rounded_down p owners_fee in
        let! p :=
          if 0 <? num_shares then
            let acc := internal_get_account p (owner_id p) in
            let! sh := add128 (stake_shares acc) num_shares in
            let p := internal_save_account p (owner_id p)
                       (mkAccount (unstaked acc) sh (unstaked_available_epoch_height acc)) in
            let! s := add128 (total_stake_shares p) num_shares in
            Ok (set_total_shares s p)
          else Ok p in
        let! t := add128 (total_staked_balance p) owners_fee in
        Ok (set_total_staked t p)
      else Ok p in
    Ok (set_last_total total_balance p, true).

Definition restake_if (b : bool) (p : pool) : list promise :=
  if b then internal_restake p else [].

(** staking-pool/src/lib.rs:174-206. [state_exists] is [env::state_exists()]. *)
Definition new (c : ctx) (state_exists : bool) (owner : account_id) (key : public_key)
    (f : fraction) : res (pool * list promise) :=
  assert! negb state_exists orelse "Already initialized" ;;
  let! _ := fraction_assert_valid f in
  assert! is_valid_account_id owner orelse "The owner account ID is invalid" ;;
  let account_balance := ctx_balance c in
  let! total := sub_chk account_balance STAKE_SHARE_PRICE_GUARANTEE_FUND in
  assert! ctx_locked c =? 0
    orelse "The staking pool shouldn't be staking at the initialization" ;;
  let p := mkPool owner key (ctx_epoch c) account_balance total total f [] false in
  Ok (p, internal_restake p).

(** Public methods that change state. *)
Inductive call :=
| Ping
| Deposit
| DepositAndStake
| WithdrawAll
| Withdraw (amount : N)
| StakeAll
| Stake (amount : N)
| UnstakeAll
| Unstake (amount : N)
| OnStakeAction
| UpdateStakingKey (key : public_key)
| UpdateRewardFeeFraction (f : fraction)
| Vote (voting_account_id : account_id) (is_vote : bool)
| PauseStaking
| ResumeStaking.

(** staking-pool/src/lib.rs:209-213 *)
Definition ping (c : ctx) (p : pool) : res (pool * list promise) :=
  let! '(p, need) := internal_ping c p in
  Ok (p, restake_if need p).

(** staking-pool/src/lib.rs:217-225 *)
Definition deposit (c : ctx) (p : pool) : res (pool * list promise) :=
  let! '(p, need) := internal_ping c p in
  let! '(p, _) := internal_deposit c p in
  Ok (p, restake_if need p).

(** staking-pool/src/lib.rs:229-236 *)
Definition deposit_and_stake (c : ctx) (p : pool) : res (pool * list promise) :=
  let! '(p, _) := internal_ping c p in
  let! '(p, amount) := internal_deposit c p in
  let! p := internal_stake c p amount in
  Ok (p, internal_restake p).

(** staking-pool/src/lib.rs:240-250 *)
Definition withdraw_all (c : ctx) (p : pool) : res (pool * list promise) :=
  let! '(p, need) := internal_ping c p in
  let acc := internal_get_account p (ctx_predecessor c) in
  let! '(p, out) := internal_withdraw c p (unstaked acc) in
  Ok (p, out ++ restake_if need p)%list.

(** staking-pool/src/lib.rs:254-263 *)
Definition withdraw (c : ctx) (p : pool) (amount : N) : res (pool * list promise) :=
  let! '(p, need) := internal_ping c p in
  let! '(p, out) := internal_withdraw c p amount in
  Ok (p, out ++ restake_if need p)%list.

(** staking-pool/src/lib.rs:266-275 *)
Definition stake_all (c : ctx) (p : pool) : res (pool * list promise) :=
  let! '(p, _) := internal_ping c p in
  let acc := internal_get_account p (ctx_predecessor c) in
  let! p := internal_stake c p (unstaked acc) in
  Ok (p, internal_restake p).

(** staking-pool/src/lib.rs:279-287 *)
Definition stake (c : ctx) (p : pool) (amount : N) : res (pool * list promise) :=
  let! '(p, _) := internal_ping c p in
  let! p := internal_stake c p amount in
  Ok (p, internal_restake p).

(** staking-pool/src/lib.rs:291-301 *)
Definition unstake_all (c : ctx) (p : pool) : res (pool * list promise) :=
  let! '(p, _) := internal_ping c p in
  let acc := internal_get_account p (ctx_predecessor c) in
  let! amount := staked_amount_from_num_shares_rounded_down p (stake_shares acc) in
  let! p := inner_unstake c p amount in
  Ok (p, internal_restake p).

(** staking-pool/src/lib.rs:306-314 *)
Definition unstake (c : ctx) (p : pool) (amount : N) : res (pool * list promise) :=
  let! '(p, _) := internal_ping c p in
  let! p := inner_unstake c p amount in
  Ok (p, internal_restake p).

(** staking-pool/src/lib.rs:399-421 *)
Definition on_stake_action (c : ctx) (p : pool) : res (pool * list promise) :=
  assert! String.eqb (ctx_current c) (ctx_predecessor c)
    orelse "Can be called only as a callback" ;;
  match ctx_results c with
  | [stake_action_succeeded] =>
      Ok (p, if negb stake_action_succeeded && (0 <? ctx_locked c)
             then [PStake 0 (stake_public_key p) false] else [])
  | _ => Panic "Contract expected a result on the callback"
  end.

(** staking-pool/src/lib.rs:429-435 *)
Definition update_staking_key (c : ctx) (p : pool) (key : public_key) : res (pool * list promise) :=
  let! _ := assert_owner c p in
  let! '(p, _) := internal_ping c p in
  let p := set_key key p in
  Ok (p, internal_restake p).

(** staking-pool/src/lib.rs:439-448 *)
Definition update_reward_fee_fraction (c : ctx) (p : pool) (f : fraction)
    : res (pool * list promise) :=
  let! _ := assert_owner c p in
  let! _ := fraction_assert_valid f in
  let! '(p, need) := internal_ping c p in
  let p := set_fraction f p in
  Ok (p, restake_if need p).

(** staking-pool/src/lib.rs:452-460 *)
Definition vote (c : ctx) (p : pool) (voting_account_id : account_id) (is_vote : bool)
    : res (pool * list promise) :=
  let! _ := assert_owner c p in
  assert! is_valid_account_id voting_account_id orelse "Invalid voting account ID" ;;
  Ok (p, [PVote voting_account_id is_vote]).

(** staking-pool/src/lib.rs:464-471 *)
Definition pause_staking (c : ctx) (p : pool) : res (pool * list promise) :=
  let! _ := assert_owner c p in
  assert! negb (paused p) orelse "The staking is already paused" ;;
  let! '(p, _) := internal_ping c p in
  let p := set_paused true p in
  Ok (p, [PStake 0 (stake_public_key p) false]).

(** staking-pool/src/lib.rs:475-482 *)
Definition resume_staking (c : ctx) (p : pool) : res (pool * list promise) :=
  let! _ := assert_owner c p in
  assert! paused p orelse "The staking is not paused" ;;
  let! '(p, _) := internal_ping c p in
  let p := set_paused false p in
  Ok (p, internal_restake p).

(** The [#[near_bindgen]] entry points: [#[payable]] only on [deposit] (lib.rs:216) and
    [deposit_and_stake] (lib.rs:228), every other method refuses an attached deposit (near-sdk 2.0.0);
    [U128] and [u32] arguments that do not fit fail to deserialise. *)
Definition payable (m : call) : bool :=
  match m with Deposit | DepositAndStake => true | _ => false end.

Definition args_fit (m : call) : bool :=
  match m with
  | Withdraw a | Stake a | Unstake a => fits U128_BOUND a
  | UpdateRewardFeeFraction f => fits U32_BOUND (numerator f) && fits U32_BOUND (denominator f)
  | _ => true
  end.

Definition exec (c : ctx) (p : pool) (m : call) : res (pool * list promise) :=
  assert! args_fit m orelse "Failed to deserialize input" ;;
  assert! payable m || (ctx_attached c =? 0) orelse "Method doesn't accept deposit" ;;
  match m with
  | Ping => ping c p
  | Deposit => deposit c p
  | DepositAndStake => deposit_and_stake c p
  | WithdrawAll => withdraw_all c p
  | Withdraw a => withdraw c p a
  | StakeAll => stake_all c p
  | Stake a => stake c p a
  | UnstakeAll => unstake_all c p
  | Unstake a => unstake c p a
  | OnStakeAction => on_stake_action c p
  | UpdateStakingKey k => update_staking_key c p k
  | UpdateRewardFeeFraction f => update_reward_fee_fraction c p f
  | Vote a v => vote c p a v
  | PauseStaking => pause_staking c p
  | ResumeStaking => resume_staking c p
  end.

(** * View methods *)

(** staking-pool/src/lib.rs:58-69 *)
Record human_account := mkHuman {
  h_account_id : account_id;
  h_unstaked_balance : N;
  h_staked_balance : N;
  h_can_withdraw : bool
}.

(** staking-pool/src/lib.rs:369-379. [epoch] is [env::epoch_height()]. *)
Definition get_account (epoch : N) (p : pool) (a : account_id) : res human_account :=
  let acc := internal_get_account p a in
  let! s := staked_amount_from_num_shares_rounded_down p (stake_shares acc) in
  Ok (mkHuman a (unstaked acc) s (unstaked_available_epoch_height acc <=? epoch)).

(** staking-pool/src/lib.rs:321-323. The epoch does not influence this view. *)
Definition get_account_unstaked_balance (p : pool) (a : account_id) : res N :=
  let! h := get_account 0 p a in Ok (h_unstaked_balance h).

(** staking-pool/src/lib.rs:328-330 *)
Definition get_account_staked_balance (p : pool) (a : account_id) : res N :=
  let! h := get_account 0 p a in Ok (h_staked_balance h).

(** staking-pool/src/lib.rs:333-336 *)
Definition get_account_total_balance (p : pool) (a : account_id) : res N :=
  let! h := get_account 0 p a in
  add128 (h_unstaked_balance h) (h_staked_balance h).

(** staking-pool/src/lib.rs:339-341 *)
Definition is_account_unstaked_balance_available (epoch : N) (p : pool) (a : account_id)
    : res bool :=
  let! h := get_account epoch p a in Ok (h_can_withdraw h).

(** staking-pool/src/lib.rs:344-366 *)
Definition get_total_staked_balance (p : pool) : N := total_staked_balance p.
Definition get_owner_id (p : pool) : account_id := owner_id p.
Definition get_reward_fee_fraction (p : pool) : fraction := reward_fee_fraction p.
Definition get_staking_key (p : pool) : public_key := stake_public_key p.
Definition is_staking_paused (p : pool) : bool := paused p.

(** staking-pool/src/lib.rs:382-384 *)
Definition get_number_of_accounts (p : pool) : N := mlen (accounts p).

Fixpoint map_res {A B} (f : A -> res B) (l : list A) : res (list B) :=
  match l with
  | [] => Ok []
  | a :: r => let! b := f a in let! bs := map_res f r in Ok (b :: bs)
  end.

(** staking-pool/src/lib.rs:387-393. The range [from..min(from + limit, len)] of the key vector. *)
Definition get_accounts (epoch : N) (p : pool) (from_index limit : N) : res (list human_account) :=
  let keys := mkeys (accounts p) in
  let! end_ := add64 from_index limit in
  let stop := N.min end_ (N.of_nat (List.length keys)) in
  map_res (get_account epoch p)
    (firstn (N.to_nat (stop - from_index)) (skipn (N.to_nat from_index) keys)).
