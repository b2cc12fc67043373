(** The staking pool with its log lines ([env::log]). The code is that of [StakingPoolModel], with the lines each
    function writes, oldest first; [PoolLogProofs.exec_same] proves that without the lines it is the same. *)
From Coq Require Import NArith List Bool String.
From Verif Require Import Prelude StakingPoolModel.
From Verif Require JsonModel.
Import ListNotations.
Open Scope string_scope.
Open Scope N_scope.

(** [format!("{}", n)] for an unsigned number. *)
Definition num (n : N) : string := JsonModel.decimal n.

(** The formats of staking-pool/src/internal.rs, lines 34, 60, 110, 117, 169, 176, 238 and 244. *)
Definition line_deposited (a : account_id) (amount u : N) : string :=
  "@" ++ a ++ " deposited " ++ num amount ++ ". New unstaked balance is " ++ num u.
Definition line_withdrawing (a : account_id) (amount u : N) : string :=
  "@" ++ a ++ " withdrawing " ++ num amount ++ ". New unstaked balance is " ++ num u.
Definition line_staking (a : account_id) (charge n u sh : N) : string :=
  "@" ++ a ++ " staking " ++ num charge ++ ". Received " ++ num n ++ " new staking shares. Total " ++ num u ++
  " unstaked balance and " ++ num sh ++ " staking shares".
Definition line_unstaking (a : account_id) (received n u sh : N) : string :=
  "@" ++ a ++ " unstaking " ++ num received ++ ". Spent " ++ num n ++ " staking shares. Total " ++ num u ++
  " unstaked balance and " ++ num sh ++ " staking shares".
Definition line_totals (t s : N) : string :=
  "Contract total staked balance is " ++ num t ++ ". Total number of shares " ++ num s.
Definition line_rewards (epoch reward t s : N) : string :=
  "Epoch " ++ num epoch ++ ": Contract received total rewards of " ++ num reward ++
  " tokens. New total staked balance is " ++ num t ++ ". Total number of shares " ++ num s.
Definition line_fee (n : N) : string := "Total rewards fee is " ++ num n ++ " stake shares.".

(** staking-pool/src/internal.rs:24-40; the line is written at 32-38. *)
Definition internal_deposit_l (c : ctx) (p : pool) : res (pool * N * list string) :=
  let account_id := ctx_predecessor c in
  let acc := internal_get_account p account_id in
  let amount := ctx_attached c in
  let! u := add128 (unstaked acc) amount in
  let p := internal_save_account p account_id
             (mkAccount u (stake_shares acc) (unstaked_available_epoch_height acc)) in
  let! b := add128 (last_total_balance p) amount in
  Ok (set_last_total b p, amount, [line_deposited account_id amount u]).

(** staking-pool/src/internal.rs:42-68; the line is written at 58-64. *)
Definition internal_withdraw_l (c : ctx) (p : pool) (amount : N) : res (pool * list promise * list string) :=
  assert! 0 <? amount orelse "Withdrawal amount should be positive" ;;
  let account_id := ctx_predecessor c in
  let acc := internal_get_account p account_id in
  assert! amount <=? unstaked acc orelse "Not enough unstaked balance to withdraw" ;;
  assert! unstaked_available_epoch_height acc <=? ctx_epoch c
    orelse "The unstaked balance is not yet available due to unstaking delay" ;;
  let! u := sub_chk (unstaked acc) amount in
  let p := internal_save_account p account_id
             (mkAccount u (stake_shares acc) (unstaked_available_epoch_height acc)) in
  let! b := sub_chk (last_total_balance p) amount in
  Ok (set_last_total b p, [PTransfer account_id amount], [line_withdrawing account_id amount u]).

(** staking-pool/src/internal.rs:70-122; the lines are written at 108-121. *)
Definition internal_stake_l (c : ctx) (p : pool) (amount : N) : res (pool * list string) :=
  assert! 0 <? amount orelse "Staking amount should be positive" ;;
  let account_id := ctx_predecessor c in
  let acc := internal_get_account p account_id in
  let! num_shares := num_shares_from_staked_amount_rounded_down p amount in
  assert! 0 <? num_shares
    orelse "The calculated number of stake shares received for staking should be positive" ;;
  let! charge_amount := staked_amount_from_num_shares_rounded_down p num_shares in
  assert! 0 <? charge_amount
    orelse "Invariant violation. Calculated staked amount must be positive" ;;
  assert! charge_amount <=? unstaked acc orelse "Not enough unstaked balance to stake" ;;
  let! u := sub_chk (unstaked acc) charge_amount in
  let! sh := add128 (stake_shares acc) num_shares in
  let p := internal_save_account p account_id
             (mkAccount u sh (unstaked_available_epoch_height acc)) in
  let! stake_amount := staked_amount_from_num_shares_rounded_up p num_shares in
  let! t := add128 (total_staked_balance p) stake_amount in
  let p := set_total_staked t p in
  let! s := add128 (total_stake_shares p) num_shares in
  let p := set_total_shares s p in
  Ok (p, [line_staking account_id charge_amount num_shares u sh;
          line_totals (total_staked_balance p) (total_stake_shares p)]).

(** staking-pool/src/internal.rs:124-181; the lines are written at 167-180. *)
Definition inner_unstake_l (c : ctx) (p : pool) (amount : N) : res (pool * list string) :=
  assert! 0 <? amount orelse "Unstaking amount should be positive" ;;
  let account_id := ctx_predecessor c in
  let acc := internal_get_account p account_id in
  assert! 0 <? total_staked_balance p orelse "The contract doesn't have staked balance" ;;
  let! num_shares := num_shares_from_staked_amount_rounded_up p amount in
  assert! 0 <? num_shares
    orelse "Invariant violation. The calculated number of stake shares for unstaking should be positive" ;;
  assert! num_shares <=? stake_shares acc orelse "Not enough staked balance to unstake" ;;
  let! receive_amount := staked_amount_from_num_shares_rounded_up p num_shares in
  assert! 0 <? receive_amount
    orelse "Invariant violation. Calculated staked amount must be positive" ;;
  let! sh := sub_chk (stake_shares acc) num_shares in
  let! u := add128 (unstaked acc) receive_amount in
  let! e := add64 (ctx_epoch c) NUM_EPOCHS_TO_UNLOCK in
  let p := internal_save_account p account_id (mkAccount u sh e) in
  let! unstake_amount := staked_amount_from_num_shares_rounded_down p num_shares in
  let! t := sub_chk (total_staked_balance p) unstake_amount in
  let p := set_total_staked t p in
  let! s := sub_chk (total_stake_shares p) num_shares in
  let p := set_total_shares s p in
  Ok (p, [line_unstaking account_id receive_amount num_shares u sh;
          line_totals (total_staked_balance p) (total_stake_shares p)]).

(** staking-pool/src/internal.rs:194-250; the lines are written at 236-245. *)
Definition internal_ping_l (c : ctx) (p : pool) : res (pool * bool * list string) :=
  let epoch_height := ctx_epoch c in
  if last_epoch_height p =? epoch_height then Ok (p, false, [])
  else
    let p := set_last_epoch epoch_height p in
    let! lb := add128 (ctx_locked c) (ctx_balance c) in
    let! total_balance := sub_chk lb (ctx_attached c) in
    assert! last_total_balance p <=? total_balance
      orelse "The new total balance should not be less than the old total balance" ;;
    let! total_reward := sub_chk total_balance (last_total_balance p) in
    let! '(p, l) :=
      if 0 <? total_reward then
        let! owners_fee := fraction_multiply (reward_fee_fraction p) total_reward in
        let! remaining_reward := sub_chk total_reward owners_fee in
        let! t := add128 (total_staked_balance p) remaining_reward in
        let p := set_total_staked t p in
        let! num_shares := num_shares_from_staked_amount_rounded_down p owners_fee in
        let! p :=
          if 0 <? num_shares then
            let acc := internal_get_account p (owner_id p) in
            let! sh := add128 (stake_shares acc) num_shares in
            let p := internal_save_account p (owner_id p)
                       (mkAccount (unstaked acc) sh (unstaked_available_epoch_height acc)) in
            let! s := add128 (total_stake_shares p) num_shares in
            Ok (set_total_shares s p)
          else Ok p in
        let! t := add128 (total_staked_balance p) owners_fee in
        let p := set_total_staked t p in
        Ok (p, line_rewards epoch_height total_reward (total_staked_balance p) (total_stake_shares p) ::
               if 0 <? num_shares then [line_fee num_shares] else [])
      else Ok (p, []) in
    Ok (set_last_total total_balance p, true, l).

(** The methods, as in [StakingPoolModel] (staking-pool/src/lib.rs:209-482). No other function writes a line. *)
Definition exec_l (c : ctx) (p : pool) (m : call) : res (pool * list promise * list string) :=
  assert! args_fit m orelse "Failed to deserialize input" ;;
  assert! payable m || (ctx_attached c =? 0) orelse "Method doesn't accept deposit" ;;
  match m with
  | Ping =>                                                              (* lib.rs:209-213 *)
      let! '(p, need, l) := internal_ping_l c p in
      Ok (p, restake_if need p, l)
  | Deposit =>                                                           (* lib.rs:217-225 *)
      let! '(p, need, l) := internal_ping_l c p in
      let! '(p, _, l') := internal_deposit_l c p in
      Ok (p, restake_if need p, l ++ l')
  | DepositAndStake =>                                                   (* lib.rs:229-236 *)
      let! '(p, _, l) := internal_ping_l c p in
      let! '(p, amount, l') := internal_deposit_l c p in
      let! '(p, l'') := internal_stake_l c p amount in
      Ok (p, internal_restake p, l ++ l' ++ l'')
  | WithdrawAll =>                                                       (* lib.rs:240-250 *)
      let! '(p, need, l) := internal_ping_l c p in
      let acc := internal_get_account p (ctx_predecessor c) in
      let! '(p, out, l') := internal_withdraw_l c p (unstaked acc) in
      Ok (p, out ++ restake_if need p, l ++ l')
  | Withdraw amount =>                                                   (* lib.rs:254-263 *)
      let! '(p, need, l) := internal_ping_l c p in
      let! '(p, out, l') := internal_withdraw_l c p amount in
      Ok (p, out ++ restake_if need p, l ++ l')
  | StakeAll =>                                                          (* lib.rs:266-275 *)
      let! '(p, _, l) := internal_ping_l c p in
      let acc := internal_get_account p (ctx_predecessor c) in
      let! '(p, l') := internal_stake_l c p (unstaked acc) in
      Ok (p, internal_restake p, l ++ l')
  | Stake amount =>                                                      (* lib.rs:279-287 *)
      let! '(p, _, l) := internal_ping_l c p in
      let! '(p, l') := internal_stake_l c p amount in
      Ok (p, internal_restake p, l ++ l')
  | UnstakeAll =>                                                        (* lib.rs:291-301 *)
      let! '(p, _, l) := internal_ping_l c p in
      let acc := internal_get_account p (ctx_predecessor c) in
      let! amount := staked_amount_from_num_shares_rounded_down p (stake_shares acc) in
      let! '(p, l') := inner_unstake_l c p amount in
      Ok (p, internal_restake p, l ++ l')
  | Unstake amount =>                                                    (* lib.rs:306-314 *)
      let! '(p, _, l) := internal_ping_l c p in
      let! '(p, l') := inner_unstake_l c p amount in
      Ok (p, internal_restake p, l ++ l')
  | OnStakeAction =>                                                     (* lib.rs:399-421 *)
      let! '(p, ps) := on_stake_action c p in Ok (p, ps, [])
  | UpdateStakingKey key =>                                              (* lib.rs:429-435 *)
      let! _ := assert_owner c p in
      let! '(p, _, l) := internal_ping_l c p in
      let p := set_key key p in
      Ok (p, internal_restake p, l)
  | UpdateRewardFeeFraction f =>                                         (* lib.rs:439-448 *)
      let! _ := assert_owner c p in
      let! _ := fraction_assert_valid f in
      let! '(p, need, l) := internal_ping_l c p in
      let p := set_fraction f p in
      Ok (p, restake_if need p, l)
  | Vote a v =>                                                          (* lib.rs:452-460 *)
      let! '(p, ps) := vote c p a v in Ok (p, ps, [])
  | PauseStaking =>                                                      (* lib.rs:464-471 *)
      let! _ := assert_owner c p in
      assert! negb (paused p) orelse "The staking is already paused" ;;
      let! '(p, _, l) := internal_ping_l c p in
      let p := set_paused true p in
      Ok (p, [PStake 0 (stake_public_key p) false], l)
  | ResumeStaking =>                                                     (* lib.rs:475-482 *)
      let! _ := assert_owner c p in
      assert! paused p orelse "The staking is not paused" ;;
      let! '(p, _, l) := internal_ping_l c p in
      let p := set_paused false p in
      Ok (p, internal_restake p, l)
  end%list.
