(** Properties of the lockup contract together with the staking-pool contract of this repository. In every
    statement [evs] is an arbitrary list of events of the two: calls of any method of either contract by anyone,
    executions of the lockup's requests by the pool, deliveries in any order, rewards, epochs, passing time. *)
From Coq Require Import NArith List Bool String.
From Verif Require Import Prelude LockupModel LockupWorld LockupSpec LockupPoolSpec LockupPool LockupProps.
From Verif Require StakingPoolModel StakingPoolSpec.
Import ListNotations.
Open Scope string_scope.
Open Scope N_scope.

(** A concrete system: the lockup of LockupProps and a pool that starts with 2 * 10^12 and takes a fee of 10%. *)
Definition pool0 : StakingPoolSpec.world :=
  StakingPoolSpec.mkWorld
    (StakingPoolModel.mkPool "val.near" "ed25519:key" 10 2000000000000 1000000000000 1000000000000
       (StakingPoolModel.mkFraction 1 10) [] false) 2000000000000 10.
Definition sys1 : system := mkSystem w1 pool0.
Definition calls (who : account_id) (attached : N) (m : StakingPoolModel.call) : sevent :=
  SPool (StakingPoolSpec.EvCall who attached 0 [] m).
(** The owner selects the pool and stakes 90 NEAR, somebody else stakes 30, rewards of 10 NEAR arrive, somebody
    pings the pool, the owner refreshes the balance, unstakes 40 NEAR, and after four epochs withdraws them. *)
Definition busy_days : list sevent :=
  [SLockup (by_owner (SelectStakingPool "pool.near")); SLockup (EDeliver 0 (OBool true)); SLockup (ERun 0);
   SLockup (by_owner (DepositAndStake (90 * near))); SServe 0 0; SLockup (ERun 0);
   calls "alice" (30 * near) StakingPoolModel.DepositAndStake;
   SPool (StakingPoolSpec.EvIncome (10 * near)); SPool (StakingPoolSpec.EvEpoch 1);
   calls "bob" 0 StakingPoolModel.Ping;
   SLockup (by_owner RefreshStakingPoolBalance); SServe 0 0; SLockup (ERun 0);
   SLockup (by_owner (Unstake (40 * near))); SServe 0 0; SLockup (ERun 0);
   SLockup (by_owner (WithdrawFromStakingPool (40 * near))); SServe 0 0; SLockup (ERun 0);
   SPool (StakingPoolSpec.EvEpoch 4);
   SLockup (by_owner (WithdrawFromStakingPool (40 * near))); SServe 0 0].
Lemma starts_sys1 : sstarts gen "pool.near" sys1.
Proof.
  split; [exact starts_w1|]. split; [|reflexivity].
  exists (StakingPoolModel.mkCtx "pool.near" "factory.near" 0 2000000000000 0 10 []), "val.near", "ed25519:key",
    (StakingPoolModel.mkFraction 1 10), [StakingPoolModel.PStake 1000000000000 "ed25519:key" true].
  repeat split; vm_compute; reflexivity.
Qed.
Definition limits_ok (sys : system) (evs : list sevent) (n : nat) : bool :=
  let h := pool_history gen "pool.near" sys (firstn n evs) in
  (StakingPoolSpec.stake_calls (StakingPoolSpec.history "pool.near" (sy_pool sys) h)
     <=? StakingPoolModel.STAKE_SHARE_PRICE_GUARANTEE_FUND) &&
  (StakingPoolSpec.w_total (StakingPoolSpec.final "pool.near" (sy_pool sys) h) <? U128_BOUND).
Lemma limits_check sys evs :
  forallb (limits_ok sys evs) (seq 0 (S (List.length evs))) = true -> pool_within_limits gen "pool.near" sys evs.
Proof.
  intros H n. rewrite forallb_forall in H.
  assert (E : firstn n evs = firstn (min n (List.length evs)) evs).
  { destruct (PeanoNat.Nat.le_ge_cases n (List.length evs)) as [L|L].
    - now rewrite PeanoNat.Nat.min_l.
    - rewrite PeanoNat.Nat.min_r by exact L. rewrite (firstn_all2 evs L). symmetry. apply firstn_all. }
  rewrite E. assert (X : limits_ok sys evs (min n (List.length evs)) = true).
  { apply H, in_seq. split; [apply PeanoNat.Nat.le_0_l|]. apply PeanoNat.Nat.lt_succ_r, PeanoNat.Nat.le_min_r. }
  apply andb_prop in X. destruct X as [X1 X2]. split; [now apply N.leb_le|now apply N.ltb_lt].
Qed.
Lemma limits_busy_days : pool_within_limits gen "pool.near" sys1 busy_days.
Proof. apply limits_check. vm_compute. reflexivity. Qed.

(** C49. When no operation is outstanding, the deposit the lockup has recorded is at most the total balance the
    pool reports for it. *)
Theorem C49_recorded_deposit_is_at_the_pool :
  forall g pid sys evs b, sstarts g pid sys -> pool_within_limits g pid sys evs ->
  let sys' := sfinal g pid sys evs in
  let w := sy_lockup sys' in
  get_staking_pool_account_id (w_lockup w) = Some pid -> busy (w_lockup w) = false ->
  StakingPoolModel.get_account_total_balance (StakingPoolSpec.w_pool (sy_pool sys')) (g_self g) = Ok b ->
  get_known_deposited_balance (w_lockup w) <= b.
Proof. exact recorded_when_idle. Qed.
Print Assumptions C49_recorded_deposit_is_at_the_pool.
(** The pool does report one, if it was started with more than the guarantee fund. *)
Theorem C49_pool_reports :
  forall g pid sys evs, sstarts g pid sys -> pool_within_limits g pid sys evs ->
  0 < StakingPoolModel.total_stake_shares (StakingPoolSpec.w_pool (sy_pool sys)) ->
  exists b, StakingPoolModel.get_account_total_balance
              (StakingPoolSpec.w_pool (sy_pool (sfinal g pid sys evs))) (g_self g) = Ok b.
Proof. exact views_work. Qed.
Print Assumptions C49_pool_reports.
(** While an operation is outstanding, the record exceeds it at most by a withdrawal that the pool has paid and
    the lockup has not recorded yet. *)
Theorem C49_at_any_time :
  forall g pid sys evs b, sstarts g pid sys -> pool_within_limits g pid sys evs ->
  let sys' := sfinal g pid sys evs in
  let w := sy_lockup sys' in
  get_staking_pool_account_id (w_lockup w) = Some pid ->
  StakingPoolModel.get_account_total_balance (StakingPoolSpec.w_pool (sy_pool sys')) (g_self g) = Ok b ->
  get_known_deposited_balance (w_lockup w) <= b + total paid_not_recorded (w_msgs w).
Proof. exact recorded_always. Qed.
Print Assumptions C49_at_any_time.
Example C49_applies :
  let sys n := sfinal gen "pool.near" sys1 (firstn n busy_days) in
  let known n := get_known_deposited_balance (w_lockup (sy_lockup (sys n))) in
  let real n := StakingPoolModel.get_account_total_balance (StakingPoolSpec.w_pool (sy_pool (sys n))) "lock.near" in
  let idle n := negb (busy (w_lockup (sy_lockup (sys n)))) in
  let r := 96749999999999943750000000 in
  get_staking_pool_account_id (w_lockup (sy_lockup (sys 22%nat))) = Some "pool.near" /\
  0 < StakingPoolModel.total_stake_shares (StakingPoolSpec.w_pool (sy_pool sys1)) /\
  map idle [6; 10; 13; 16; 19; 21; 22]%nat = [true; true; true; true; true; false; false] /\
  map known [6; 10; 13; 16; 19; 22]%nat = [90 * near; 90 * near; r; r; r; r] /\
  map real [6; 10; 13; 16; 19; 22]%nat = [Ok (90 * near); Ok r; Ok r; Ok (r + 1); Ok (r + 1); Ok (r + 1 - 40 * near)] /\
  total paid_not_recorded (w_msgs (sy_lockup (sys 22%nat))) = 40 * near.
Proof. vm_compute. auto 40. Qed.

(** The staking pool of this repository keeps the guarantees that the lockup's world expects of a pool: what the
    lockup does with it, it does in the abstract world, with the same observations. Views answer if the pool was
    started with more than the guarantee fund, and the two balances are kept apart (as far as other pools the
    lockup uses do so, too). So every theorem about the abstract world holds here. *)
Theorem C49_pool_keeps_guarantees :
  forall g pid sys evs, sstarts g pid sys -> pool_within_limits g pid sys evs ->
  exists levs,
    sy_lockup (sfinal g pid sys evs) = final g (sy_lockup sys) levs /\
    slog g pid sys evs = log g (sy_lockup sys) levs /\
    (all_other keeps_apart g pid sys evs -> all_keep_apart g (sy_lockup sys) levs) /\
    (StakingPoolModel.total_stake_shares (StakingPoolSpec.w_pool (sy_pool sys)) <> 0 ->
     all_other view_ok g pid sys evs -> views_answer g (sy_lockup sys) levs) /\
    (all_other (reveals_covered g) g pid sys evs -> all_reveals_covered g (sy_lockup sys) levs).
Proof. exact guarantees. Qed.
Print Assumptions C49_pool_keeps_guarantees.

(** C47 with this pool: the balance, the tokens in flight and what the pool reports cover the locked amount. *)
Theorem C47_never_below_locked_amount_with_this_pool :
  forall g pid sys evs b, sstarts g pid sys -> pool_within_limits g pid sys evs ->
  public_schedule_sane (w_lockup (sy_lockup sys)) -> all_other (reveals_covered g) g pid sys evs ->
  let sys' := sfinal g pid sys evs in
  let w := sy_lockup sys' in
  get_staking_pool_account_id (w_lockup w) = Some pid ->
  StakingPoolModel.get_account_total_balance (StakingPoolSpec.w_pool (sy_pool sys')) (g_self g) = Ok b ->
  exists a, get_locked_amount (w_lockup w) (w_time w) = Ok a /\
    a <= w_balance w + total in_flight (w_msgs w) + b + total to_foundation_pending (w_msgs w).
Proof. exact system_locked. Qed.
Print Assumptions C47_never_below_locked_amount_with_this_pool.
Example C47_with_this_pool_applies :
  let w := sy_lockup (sfinal gen "pool.near" sys1 busy_days) in
  public_schedule_sane (w_lockup (sy_lockup sys1)) /\ all_other (reveals_covered gen) gen "pool.near" sys1 busy_days /\
  get_staking_pool_account_id (w_lockup w) = Some "pool.near" /\
  get_locked_amount (w_lockup w) (w_time w) = Ok (100 * near) /\ w_balance w = 10 * near /\
  total in_flight (w_msgs w) = 40 * near.
Proof. split; [exact sane_vs1|]. vm_compute. auto 40. Qed.

(** C48 with this pool: one operation at a time, and busy exactly while one is outstanding. *)
Theorem C48_busy_while_outstanding_with_this_pool :
  forall g pid sys evs, sstarts g pid sys -> pool_within_limits g pid sys evs ->
  0 < StakingPoolModel.total_stake_shares (StakingPoolSpec.w_pool (sy_pool sys)) ->
  all_other view_ok g pid sys evs ->
  let w := sy_lockup (sfinal g pid sys evs) in
  (busy (w_lockup w) = true <-> outstanding w = 1%nat) /\ (outstanding w <= 1)%nat.
Proof. exact system_busy. Qed.
Print Assumptions C48_busy_while_outstanding_with_this_pool.
Example C48_with_this_pool_applies :
  all_other view_ok gen "pool.near" sys1 busy_days /\
  map (fun n => outstanding (sy_lockup (sfinal gen "pool.near" sys1 (firstn n busy_days)))) [3; 4; 5; 6; 11; 12; 13]%nat
    = [0; 1; 1; 0; 1; 1; 0]%nat.
Proof. vm_compute. auto 40. Qed.
