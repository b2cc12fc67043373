(** The log lines ([env::log]) of the two factories that write any and of the wrapped token. The code is that of
    [PoolFactoryModel], [LockupFactoryModel] and [WNearModel], with the lines each call writes;
    [OtherLogsProofs] proves that without the lines it is the same. Not modelled: the lines of the library that the
    wrapped token takes most of its methods from (near-contract-standards, not in /repo). *)
From Coq Require Import NArith List Bool String.
From Verif Require Import Prelude.
From Verif Require JsonModel PoolFactoryModel LockupFactoryModel WNearModel.
Import ListNotations.
Open Scope string_scope.
Open Scope N_scope.
Module PF := PoolFactoryModel.
Module LF := LockupFactoryModel.
Module WN := WNearModel.

(** [format!("{}", n)] for an unsigned number. *)
Definition num (n : N) : string := JsonModel.decimal n.

(** staking-pool-factory/src/lib.rs:200-239; the lines: 211-217 and 228-235. *)
Definition on_staking_pool_create_l (c : PF.ctx) (s : PF.factory) (a : account_id) (deposit : N) (caller : account_id)
    : res (PF.factory * list PF.promise * list string) :=
  assert! String.eqb (PF.ctx_predecessor c) (PF.ctx_current c) orelse "assertion failed: `(left == right)`" ;;
  let! created := PF.is_promise_success c in
  if created : bool then
    Ok (s, [PF.PAddStakingPool (PF.staking_pool_whitelist_account_id s) a],
        ["The staking pool @" ++ a ++ " was successfully created. Whitelisting..."])
  else
    Ok (PF.mkFactory (PF.staking_pool_whitelist_account_id s) (sremove a (PF.staking_pool_account_ids s)),
        [PF.PTransfer caller deposit],
        ["The staking pool @" ++ a ++ " creation has failed. Returning attached deposit of " ++ num deposit ++
         " to @" ++ caller]).

(** staking-pool-factory/src/lib.rs:136-195 writes no line. *)
Definition pool_factory_l (c : PF.ctx) (s : PF.factory) (m : PF.call) : res (PF.factory * list PF.promise * list string) :=
  match m with
  | PF.CreateStakingPool id owner key fee =>
      let! '(s, ps) := PF.create_staking_pool c s id owner key fee in
      Ok (s, ps, [])
  | PF.OnStakingPoolCreate a deposit caller =>
      assert! PF.ctx_attached c =? 0 orelse "Method on_staking_pool_create doesn't accept deposit" ;;
      on_staking_pool_create_l c s a deposit caller
  end.

(** lockup-factory/src/lib.rs:171-198; the lines: 182-185 and 188-194. *)
Definition on_lockup_create_l (c : LF.ctx) (s : LF.factory) (a : account_id) (deposit : N) (caller : account_id)
    : res (LF.factory * list LF.promise * list string) :=
  assert! String.eqb (LF.ctx_predecessor c) (LF.ctx_current c) orelse "assertion failed: `(left == right)`" ;;
  let! created := LF.is_promise_success c in
  if created : bool then
    Ok (s, [], ["The lockup contract " ++ a ++ " was successfully created."])
  else
    Ok (s, [LF.PTransfer caller deposit],
        ["The lockup " ++ a ++ " creation has failed. Returning attached deposit of " ++ num deposit ++ " to " ++
         caller]).

(** lockup-factory/src/lib.rs:107-166 writes no line. *)
Definition lockup_factory_l (c : LF.ctx) (s : LF.factory) (m : LF.call)
    : res (LF.factory * list LF.promise * list string) :=
  match m with
  | LF.Create owner duration timestamp vesting release whitelist =>
      let! '(s, ps) := LF.create c s owner duration timestamp vesting release whitelist in
      Ok (s, ps, [])
  | LF.OnLockupCreate a deposit caller =>
      assert! LF.ctx_attached c =? 0 orelse "Method on_lockup_create doesn't accept deposit" ;;
      on_lockup_create_l c s a deposit caller
  end.

(** w-near/src/w_near.rs:12-29; the line: 28. *)
Definition near_deposit_l (c : WN.ctx) (t : WN.token) : res (WN.token * list WN.promise * WN.value * list string) :=
  let amount := WN.ctx_attached c in
  assert! 0 <? amount orelse "Requires positive attached deposit" ;;
  let a := WN.ctx_predecessor c in
  let! '(t, amount) :=
    if negb (mmem a (WN.accounts t)) then
      let! min := WN.storage_min t in
      assert! min <=? amount orelse "ERR_DEPOSIT_TOO_SMALL" ;;
      let! t := WN.internal_register_account t a in
      let! min := WN.storage_min t in
      let! amount := sub_chk amount min in
      Ok (t, amount)
    else Ok (t, amount) in
  let! t := WN.internal_deposit t a amount in
  Ok (t, [], WN.VNone, ["Deposit " ++ num amount ++ " NEAR to " ++ a]).

(** w-near/src/w_near.rs:37-46; the line: 43. *)
Definition near_withdraw_l (c : WN.ctx) (t : WN.token) (amount : N)
    : res (WN.token * list WN.promise * WN.value * list string) :=
  let! _ := WN.assert_one_yocto c in
  let a := WN.ctx_predecessor c in
  let! t := WN.internal_withdraw t a amount in
  let l := ["Withdraw " ++ num amount ++ " yoctoNEAR from " ++ a] in
  let! x := add128 amount 1 in
  Ok (t, [WN.PTransfer a x], WN.VNone, l).

(** The other methods of w-near have no lines of their own: w-near/src/lib.rs:33-66, legacy_storage.rs. *)
Definition wrapped_l (c : WN.ctx) (t : WN.token) (cl : WN.call)
    : res (WN.token * list WN.promise * WN.value * list string) :=
  match cl with
  | WN.NearDeposit => near_deposit_l c t
  | WN.NearWithdraw x =>
      assert! WN.arguments_ok cl orelse "Failed to deserialize input from JSON." ;;
      near_withdraw_l c t x
  | _ => let! r := WN.exec c t cl in Ok (r, [])
  end.
