(** What the owner and the foundation of a lockup can achieve with the staking pool of this repository, whatever
    happened before. In every statement [evs] is an arbitrary list of events of the two contracts. *)
From Coq Require Import NArith List Bool String.
From Verif Require Import Prelude LockupModel LockupWorld LockupSpec LockupPoolSpec LockupPool LockupProps
  LockupPoolProps LockupPoolLive.
From Verif Require StakingPoolModel StakingPoolSpec.
Import ListNotations.
Open Scope string_scope.
Open Scope N_scope.

(** Receivers that answer, and validators' stakes unlocked as the protocol does. *)
Definition answering (w : world) (r : remote) : outcome :=
  match r with
  | RIsWhitelisted _ _ => OBool true
  | RGetResult _ => OPoll None
  | RPool _ _ => OFail
  | RTransfer _ _ | RAddFullAccessKey _ => ODone
  end.
Lemma answering_possible : possible answering.
Proof. intros w [] cb; discriminate. Qed.
Definition unlocked (sys : system) : N :=
  StakingPoolSpec.w_total (sy_pool sys) - snd (worth (StakingPoolSpec.w_pool (sy_pool sys)) (g_self gen)).
Lemma unlocked_unlocks : unlocks gen unlocked.
Proof. intros sys. split; [apply N.le_sub_l|intros _; apply N.le_refl]. Qed.

(** C80. Whatever happened before, the owner alone can bring everything back from the pool: there is a continuation
    made only of the owner's calls, deliveries of what is outstanding and epochs passing, after which nothing is
    outstanding, the pool holds nothing for the lockup, and the lockup's account has at least everything that the
    lockup controlled before. *)
Theorem C80_owner_can_leave_the_pool :
  forall g pid sys evs answers lk,
  sstarts g pid sys -> pool_within_limits g pid sys evs ->
  0 < StakingPoolModel.total_stake_shares (StakingPoolSpec.w_pool (sy_pool sys)) ->
  all_other view_ok g pid sys evs ->
  let sys' := sfinal g pid sys evs in
  let w := sy_lockup sys' in
  let owner := owner_account_id (w_lockup w) in
  get_staking_pool_account_id (w_lockup w) = Some pid -> get_termination_status (w_lockup w) = None ->
  g_self g <> pid -> owner <> g_self g ->
  StakingPoolModel.owner_id (StakingPoolSpec.w_pool (sy_pool sys')) <> g_self g ->
  roomy g pid sys evs -> possible answers -> unlocks g lk ->
  exists evs2, all_alone answers lk g pid owner owner_method sys' evs2 /\
    let sys2 := sfinal g pid sys' evs2 in
    w_msgs (sy_lockup sys2) = [] /\ busy (w_lockup (sy_lockup sys2)) = false /\
    worth (StakingPoolSpec.w_pool (sy_pool sys2)) (g_self g) = (0, 0) /\
    controlled w <= w_balance (sy_lockup sys2).
Proof. exact owner_leaves. Qed.
Print Assumptions C80_owner_can_leave_the_pool.
(** The hypotheses hold after [busy_days], and this is such a continuation. *)
Definition leaving : list sevent :=
  [SLockup (ERun 1); SLockup (ERun 0);
   SLockup (by_owner UnstakeAll); SServe 0 90000000000001999999999999; SLockup (ERun 0);
   SPool (StakingPoolSpec.EvEpoch 4);
   SLockup (by_owner WithdrawAllFromStakingPool); SServe 0 33250000000002056249999998; SLockup (ERun 0); SServe 0 33250000000002056249999998;
   SLockup (ERun 0); SLockup (ERun 0)].
Example C80_applies :
  let sys' := sfinal gen "pool.near" sys1 busy_days in
  let w := sy_lockup sys' in
  0 < StakingPoolModel.total_stake_shares (StakingPoolSpec.w_pool (sy_pool sys1)) /\
  all_other view_ok gen "pool.near" sys1 busy_days /\
  get_staking_pool_account_id (w_lockup w) = Some "pool.near" /\ get_termination_status (w_lockup w) = None /\
  g_self gen <> "pool.near" /\ owner_account_id (w_lockup w) <> g_self gen /\
  StakingPoolModel.owner_id (StakingPoolSpec.w_pool (sy_pool sys')) <> g_self gen /\
  roomy gen "pool.near" sys1 busy_days /\
  busy (w_lockup w) = true /\ worth (StakingPoolSpec.w_pool (sy_pool sys')) (g_self gen) <> (0, 0) /\
  all_alone answering unlocked gen "pool.near" (owner_account_id (w_lockup w)) owner_method sys' leaving /\
  let sys2 := sfinal gen "pool.near" sys' leaving in
  w_msgs (sy_lockup sys2) = [] /\ worth (StakingPoolSpec.w_pool (sy_pool sys2)) (g_self gen) = (0, 0) /\
  controlled w = 106749999999999943750000001 /\ w_balance (sy_lockup sys2) = controlled w + 1.
Proof. vm_compute. repeat split; discriminate. Qed.

(** C81. So, once transfers are enabled, the owner alone can have all that is not locked paid to any account: all
    that the lockup controls above the locked amount, or above the storage reserve if that is more. *)
Theorem C81_owner_can_cash_out :
  forall g pid sys evs answers lk locked r,
  sstarts g pid sys -> pool_within_limits g pid sys evs ->
  0 < StakingPoolModel.total_stake_shares (StakingPoolSpec.w_pool (sy_pool sys)) ->
  all_other view_ok g pid sys evs ->
  public_schedule_sane (w_lockup (sy_lockup sys)) -> all_other (reveals_covered g) g pid sys evs ->
  let sys' := sfinal g pid sys evs in
  let w := sy_lockup sys' in
  let owner := owner_account_id (w_lockup w) in
  get_staking_pool_account_id (w_lockup w) = Some pid -> get_termination_status (w_lockup w) = None ->
  g_self g <> pid -> owner <> g_self g ->
  StakingPoolModel.owner_id (StakingPoolSpec.w_pool (sy_pool sys')) <> g_self g ->
  roomy g pid sys evs -> possible answers -> (forall w to a, answers w (RTransfer to a) = ODone) -> unlocks g lk ->
  are_transfers_enabled (w_lockup w) = true -> get_locked_amount (w_lockup w) (w_time w) = Ok locked ->
  N.max locked MIN_BALANCE_FOR_STORAGE < controlled w -> is_valid_account_id r = true ->
  exists evs2 a, all_alone answers lk g pid owner owner_method sys' evs2 /\
    In (BPaid r a false) (slog g pid sys' evs2) /\
    controlled w <= a + N.max locked MIN_BALANCE_FOR_STORAGE.
Proof. exact owner_cashes_out. Qed.
Print Assumptions C81_owner_can_cash_out.
(** The hypotheses hold after [busy_days] and some time; then 50 NEAR are locked. *)
Definition later : list sevent := (busy_days ++ [SLockup (ETime 50)])%list.
Lemma limits_later : pool_within_limits gen "pool.near" sys1 later.
Proof. apply limits_check. vm_compute. reflexivity. Qed.
Example C81_applies :
  let sys' := sfinal gen "pool.near" sys1 later in
  let w := sy_lockup sys' in
  all_other view_ok gen "pool.near" sys1 later /\
  public_schedule_sane (w_lockup (sy_lockup sys1)) /\ all_other (reveals_covered gen) gen "pool.near" sys1 later /\
  get_staking_pool_account_id (w_lockup w) = Some "pool.near" /\ get_termination_status (w_lockup w) = None /\
  StakingPoolModel.owner_id (StakingPoolSpec.w_pool (sy_pool sys')) <> g_self gen /\
  roomy gen "pool.near" sys1 later /\
  are_transfers_enabled (w_lockup w) = true /\ get_locked_amount (w_lockup w) (w_time w) = Ok (50 * near) /\
  N.max (50 * near) MIN_BALANCE_FOR_STORAGE < controlled w /\ is_valid_account_id "friend.near" = true /\
  let cash := (leaving ++ [SLockup (by_owner (Transfer (controlled w - 50 * near) "friend.near"));
                           SLockup (EDeliver 0 ODone)])%list in
  In (BPaid "friend.near" (controlled w - 50 * near) false) (slog gen "pool.near" sys' cash).
Proof.
  split; [vm_compute; auto 40|]. split; [exact sane_vs1|]. vm_compute. repeat split; try discriminate; auto 40.
Qed.

(** C53 with this pool: after a termination, the foundation alone can collect the unvested amount, up to the storage
    reserve, from a lockup that uses this pool, whatever the owner, the foundation and the pool's other customers
    did before and after the termination. *)
Theorem C53_foundation_can_collect_with_this_pool :
  forall g pid sys evs e u evs1 answers lk r,
  sstarts g pid sys -> public_schedule_sane (w_lockup (sy_lockup sys)) ->
  0 < StakingPoolModel.total_stake_shares (StakingPoolSpec.w_pool (sy_pool sys)) ->
  let all := (evs ++ SLockup e :: evs1)%list in
  pool_within_limits g pid sys all ->
  all_other (reveals_covered g) g pid sys all -> all_other view_ok g pid sys all ->
  all_other keeps_apart g pid sys all ->
  terminates g (sy_lockup (sfinal g pid sys evs)) e u ->
  let sys' := sfinal g pid sys all in
  get_staking_pool_account_id (w_lockup (sy_lockup sys')) = Some pid ->
  g_self g <> pid -> StakingPoolModel.owner_id (StakingPoolSpec.w_pool (sy_pool sys')) <> g_self g ->
  roomy g pid sys all -> possible answers -> (forall w to a, answers w (RTransfer to a) = ODone) -> unlocks g lk ->
  is_valid_account_id r = true ->
  exists f evs2, foundation_account_id (w_lockup (sy_lockup (sfinal g pid sys evs))) = Some f /\
    all_alone answers lk g pid f foundation_method sys' evs2 /\
    u <= received (slog g pid sys (all ++ evs2)) + MIN_BALANCE_FOR_STORAGE.
Proof. exact foundation_collects_here. Qed.
Print Assumptions C53_foundation_can_collect_with_this_pool.
(** The owner has just asked the pool to unstake 30 NEAR; the vesting is terminated while this is outstanding; the
    pool's answer is not delivered yet. *)
Definition before_end : list sevent := (firstn 13 busy_days ++ [SLockup (ETime 50); SLockup (by_owner (Unstake (30 * near)))])%list.
Definition after_end : list sevent := [SServe 0 0].
Lemma limits_end : pool_within_limits gen "pool.near" sys1 (before_end ++ SLockup terminate :: after_end).
Proof. apply limits_check. vm_compute. reflexivity. Qed.
Example C53_with_this_pool_applies :
  let all := (before_end ++ SLockup terminate :: after_end)%list in
  let sys' := sfinal gen "pool.near" sys1 all in
  let w := sy_lockup sys' in
  all_other view_ok gen "pool.near" sys1 all /\ all_other (reveals_covered gen) gen "pool.near" sys1 all /\
  all_other keeps_apart gen "pool.near" sys1 all /\
  terminates gen (sy_lockup (sfinal gen "pool.near" sys1 before_end)) terminate (50 * near) /\
  get_staking_pool_account_id (w_lockup w) = Some "pool.near" /\
  StakingPoolModel.owner_id (StakingPoolSpec.w_pool (sy_pool sys')) <> g_self gen /\
  roomy gen "pool.near" sys1 all /\
  busy (w_lockup w) = true /\ get_termination_status (w_lockup w) = Some VestingTerminatedWithDeficit.
Proof.
  split; [vm_compute; auto 40|]. split; [vm_compute; auto 40|]. split; [vm_compute; auto 40|].
  split; [exists "found.near", None, vs1, []; vm_compute; auto|].
  vm_compute. repeat split; discriminate.
Qed.
