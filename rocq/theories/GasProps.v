(** Gas between the contracts (C101). The base of a regular execution is 25 Tgas everywhere in /repo; a call must leave
    it to its receiver beyond the gas that the receiver attaches to what it sends on. What execution itself burns, and
    the protocol's own fees, are not modelled. *)
From Coq Require Import NArith List Bool String.
From Verif Require Import Prelude GasModel GasProofs.
From Verif Require StakingPoolModel StakingPoolSpec PoolFactoryModel LockupFactoryModel LockupModel LockupProps LockupWorld LockupPoolSpec.
Import ListNotations.
Open Scope string_scope.
Open Scope N_scope.

Definition BASE : N := 25000000000000.
(** The most a transaction can carry. *)
Definition MAX : N := 300000000000000.

(** C101. A staking pool attaches the gas of one stake action at most, in a vote that of the vote; at its creation too. *)
Theorem C101_pool :
  forall c p m p' ps, StakingPoolModel.exec c p m = Ok (p', ps) ->
  BASE + total pool_promise_gas ps <= match m with StakingPoolModel.Vote _ _ => 125000000000000 | _ => 45000000000000 end /\
  BASE + total pool_promise_gas ps <= MAX.
Proof. exact pool_within. Qed.
Print Assumptions C101_pool.

(** C101. Whatever a lockup calls on a pool, whatever the pool's state: the call carries what the pool attaches, and the
    base. What a lockup asks the whitelist or a voting contract carries the base; both send nothing on. *)
Theorem C101_lockup_to_pool :
  forall c s m s' p q op, LockupModel.exec c s m = Ok (s', Some p) -> LockupModel.p_remote p = LockupModel.RPool q op ->
  BASE <= LockupModel.p_gas p /\
  forall pm c2 pool pool' ps, LockupPoolSpec.pool_call op = Some pm -> StakingPoolModel.exec c2 pool pm = Ok (pool', ps) ->
    BASE + total pool_promise_gas ps <= LockupModel.p_gas p.
Proof. exact lockup_call_covers_pool. Qed.
Print Assumptions C101_lockup_to_pool.
Theorem C101_lockup_asks :
  forall c s m s' p, LockupModel.exec c s m = Ok (s', Some p) ->
  match LockupModel.p_remote p with
  | LockupModel.RIsWhitelisted _ _ | LockupModel.RGetResult _ => BASE <= LockupModel.p_gas p
  | _ => True
  end.
Proof. exact lockup_asks_gas. Qed.
Print Assumptions C101_lockup_asks.

(** C101. Creating a pool takes 125 Tgas at most: the initialisation of the pool, whatever it is given, finds what it
    attaches and the base, so does the callback, and so does the whitelist. *)
Theorem C101_pool_factory :
  (forall c s id o k f s' ps, PoolFactoryModel.exec c s (PoolFactoryModel.CreateStakingPool id o k f) = Ok (s', ps) ->
     BASE + total pool_factory_promise_gas ps <= 125000000000000) /\
  (forall c e o k f p ps, StakingPoolModel.new c e o k f = Ok (p, ps) ->
     BASE + total pool_promise_gas ps <= STAKING_POOL_NEW) /\
  (forall c s a d u s' ps, PoolFactoryModel.exec c s (PoolFactoryModel.OnStakingPoolCreate a d u) = Ok (s', ps) ->
     BASE + total pool_factory_promise_gas ps <= POOL_CALLBACK) /\
  BASE <= WHITELIST_STAKING_POOL /\ BASE <= VOTE_GAS.
Proof. exact pool_factory_within. Qed.
Print Assumptions C101_pool_factory.

(** C101. Creating a lockup takes 75 Tgas at most (lockup-factory/README.md asks for 110). The initialisation of a lockup
    sends nothing; the callback finds what it attaches and the base. *)
Theorem C101_lockup_factory :
  (forall c s o d t v r w s' ps, LockupFactoryModel.exec c s (LockupFactoryModel.Create o d t v r w) = Ok (s', ps) ->
     BASE + total lockup_factory_promise_gas ps <= 75000000000000) /\
  BASE <= LOCKUP_NEW /\
  (forall c s a d u s' ps, LockupFactoryModel.exec c s (LockupFactoryModel.OnLockupCreate a d u) = Ok (s', ps) ->
     BASE + total lockup_factory_promise_gas ps <= LOCKUP_CALLBACK).
Proof. exact lockup_factory_within. Qed.
Print Assumptions C101_lockup_factory.

(** Calls that are accepted: a deposit with stake, a withdrawal in a new epoch (a transfer and a stake action), a vote,
    a stake by a lockup, the creation of a pool and of a lockup. *)
Definition pool1 : StakingPoolModel.pool :=
  StakingPoolModel.mkPool "owner.near" "key" 1 5000000000000 1000 1000 (StakingPoolModel.mkFraction 1 10)
    [("ann.near", StakingPoolModel.mkAccount 50 0 0)] false.
Definition at_pool (who : string) (attached epoch : N) : StakingPoolModel.ctx :=
  StakingPoolModel.mkCtx "pool.near" who attached (5000000000000 + attached) 1000 epoch [].
Definition gas_of (r : res (StakingPoolModel.pool * list StakingPoolModel.promise)) : option N :=
  match r with Ok (_, ps) => Some (total pool_promise_gas ps) | Panic _ => None end.
Example C101_pool_applies :
  gas_of (StakingPoolModel.exec (at_pool "ann.near" 100 1) pool1 StakingPoolModel.DepositAndStake) = Some ON_STAKE_ACTION_GAS /\
  gas_of (StakingPoolModel.exec (at_pool "ann.near" 0 2) pool1 (StakingPoolModel.Withdraw 5)) = Some ON_STAKE_ACTION_GAS /\
  gas_of (StakingPoolModel.exec (at_pool "owner.near" 0 2) pool1 (StakingPoolModel.Vote "vote.near" true)) = Some VOTE_GAS.
Proof. vm_compute. auto. Qed.
Example C101_lockup_applies :
  match LockupModel.exec (LockupModel.mkCtx "lock.near" "owner.near" 0 50 (10 * LockupProps.near) [] (fun _ s => s))
          (LockupWorld.w_lockup (LockupWorld.final LockupProps.gen LockupProps.w1 LockupProps.staked)) (LockupModel.Stake 5) with
  | Ok (_, Some p) => LockupModel.p_remote p = LockupModel.RPool "pool.near" (LockupModel.PStake 5) /\
                      LockupModel.p_gas p = 75000000000000
  | _ => False
  end.
Proof. vm_compute. auto. Qed.
Example C101_factories_apply :
  (exists s ps, PoolFactoryModel.exec
     (PoolFactoryModel.mkCtx "pools.near" "ann.near" (31 * LockupProps.near) [])
     (PoolFactoryModel.mkFactory "white.near" []) (PoolFactoryModel.CreateStakingPool "p" "ann.near" "k" (StakingPoolModel.mkFraction 1 10)) =
     Ok (s, ps) /\ total pool_factory_promise_gas ps = 100000000000000) /\
  (exists s ps, LockupFactoryModel.exec
     (LockupFactoryModel.mkCtx "lockup.near" "ann.near" (4 * LockupProps.near) [] (fun _ => "01234567890123456789012345678901"))
     (LockupFactoryModel.mkFactory "white.near" "found.near") (LockupFactoryModel.Create "bob.near" 5 None None None None) =
     Ok (s, ps) /\ total lockup_factory_promise_gas ps = 50000000000000).
Proof. split; do 2 eexists; (split; [vm_compute; reflexivity|vm_compute; reflexivity]). Qed.
