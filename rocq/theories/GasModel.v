(** Gas that the contracts attach to what they send. The lockup's gas is in LockupModel, that of the multisig factory
    and of wNEAR in their models; the requests of the multisigs carry the gas that was asked for. Definitions only. *)
From Coq Require Import NArith List.
From Verif Require StakingPoolModel PoolFactoryModel LockupFactoryModel.
Import ListNotations.
Open Scope N_scope.

(** staking-pool/src/lib.rs:16, 19 *)
Definition VOTE_GAS : N := 100000000000000.
Definition ON_STAKE_ACTION_GAS : N := 20000000000000.

(** staking-pool/src/internal.rs:14-21 (the callback of a stake action), lib.rs:459 (a vote); a transfer
    (internal.rs:67) and a stake action without callback (lib.rs:418, 470) carry none. *)
Definition pool_promise_gas (p : StakingPoolModel.promise) : N :=
  match p with
  | StakingPoolModel.PTransfer _ _ => 0
  | StakingPoolModel.PStake _ _ callback => if callback then ON_STAKE_ACTION_GAS else 0
  | StakingPoolModel.PVote _ _ => VOTE_GAS
  end.

(** staking-pool-factory/src/lib.rs:17-30 *)
Definition FACTORY_BASE : N := 25000000000000.
Definition STAKING_POOL_NEW : N := FACTORY_BASE * 2.
Definition POOL_CALLBACK : N := FACTORY_BASE * 2.
Definition WHITELIST_STAKING_POOL : N := FACTORY_BASE.

(** staking-pool-factory/src/lib.rs:172-194 (initialisation and callback), 218-223, 232 *)
Definition pool_factory_promise_gas (p : PoolFactoryModel.promise) : N :=
  match p with
  | PoolFactoryModel.PCreate _ _ _ _ => STAKING_POOL_NEW + POOL_CALLBACK
  | PoolFactoryModel.PTransfer _ _ => 0
  | PoolFactoryModel.PAddStakingPool _ _ => WHITELIST_STAKING_POOL
  end.

(** lockup-factory/src/lib.rs:24-31 *)
Definition LOCKUP_NEW : N := FACTORY_BASE.
Definition LOCKUP_CALLBACK : N := FACTORY_BASE.

(** lockup-factory/src/lib.rs:138-165 (initialisation and callback), 192 *)
Definition lockup_factory_promise_gas (p : LockupFactoryModel.promise) : N :=
  match p with
  | LockupFactoryModel.PCreate _ _ _ _ => LOCKUP_NEW + LOCKUP_CALLBACK
  | LockupFactoryModel.PTransfer _ _ => 0
  end.

Definition total {A} (f : A -> N) (l : list A) : N := fold_right (fun p n => f p + n) 0 l.
