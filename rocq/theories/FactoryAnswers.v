(** What the methods of the factories return: a value at once, or a promise whose own answer the caller gets
    later. The models of the factories ([PoolFactoryModel], [LockupFactoryModel], [MultisigFactoryModel]) say what
    the methods do; this file adds what they return when they do not panic. *)
From Coq Require Import List Bool.
From Verif Require Import Prelude.
From Verif Require PoolFactoryModel LockupFactoryModel.
Import ListNotations.

(** near_sdk's [PromiseOrValue<bool>] (library code, not in /repo). [Later]: the answer of the last promise the
    call made and attached no other callback to. *)
Inductive reply := Later | Now (b : bool).

(** staking-pool-factory/src/lib.rs:137-195 [create_staking_pool -> Promise]: the creation with its callback.
    Lines 200-239 [on_staking_pool_create -> PromiseOrValue<bool>]: the call of the whitelist (215-223), or
    [false] (236). *)
Definition pool_returns (c : PoolFactoryModel.ctx) (m : PoolFactoryModel.call) : res reply :=
  match m with
  | PoolFactoryModel.CreateStakingPool _ _ _ _ => Ok Later
  | PoolFactoryModel.OnStakingPoolCreate _ _ _ =>
      let! created := PoolFactoryModel.is_promise_success c in
      Ok (if created : bool then Later else Now false)
  end.

(** lockup-factory/src/lib.rs:108-166 [create -> Promise]: the creation with its callback. Lines 171-198
    [on_lockup_create -> bool]: whether the creation succeeded (179, 186, 196). *)
Definition lockup_returns (c : LockupFactoryModel.ctx) (m : LockupFactoryModel.call) : res reply :=
  match m with
  | LockupFactoryModel.Create _ _ _ _ _ _ => Ok Later
  | LockupFactoryModel.OnLockupCreate _ _ _ =>
      let! created := LockupFactoryModel.is_promise_success c in
      Ok (Now created)
  end.

(** multisig-factory/src/lib.rs:29-49 [create -> Promise]: the creation itself, without a callback. Its last
    action is the call of multisig2's [new], which returns nothing. *)
Definition multisig_returns : reply := Later.
