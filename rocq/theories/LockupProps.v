(** The properties of the lockup contract (C45 - C48, C50 - C61; C49 is in LockupPoolProps). In every statement
    [evs] is an arbitrary list of events: calls of any method by anyone, executions of the contract's requests
    by their receivers with any result, deliveries of callbacks and tokens in any order, income, rewards and
    passing time. *)
From Coq Require Import NArith List Bool String.
From Verif Require Import Prelude LockupModel LockupWorld LockupSpec LockupTerm LockupHist LockupLive LockupFacts.
Import ListNotations.
Open Scope string_scope.
Open Scope N_scope.

(** A concrete lockup: 100 NEAR, transfers enabled at time 5, lockup until time 20, released until time 60,
    vesting from 0 to 100 with a cliff at 10; and one whose transfers are not enabled yet. *)
Definition near : N := 1000000000000000000000000.
Definition vs1 : vesting_schedule := mkSchedule 0 10 100.
Definition gen : genesis := mkGenesis "lock.near" (fun _ salt => salt).
Definition first (i : lockup_info) (v : vesting_info) : contract :=
  mkContract "owner.near" i v "white.near" None (Some "found.near").
Definition start (s : contract) : world := mkWorld s (100 * near) 0 (fun _ => (0, 0)) [].
Definition i1 : lockup_info := mkLockup (100 * near) 0 15 (Some 40) None (TransfersEnabled 5).
Definition i2 : lockup_info := mkLockup (100 * near) 0 15 (Some 40) None (TransfersDisabled "vote.near").
Definition w1 : world := start (first i1 (VSchedule vs1)).
Definition w2 : world := start (first i2 (VSchedule vs1)).
Definition by_owner (m : call) : event := ECall "owner.near" 0 m.
Definition by_foundation (m : call) : event := ECall "found.near" 0 m.

(** The owner selects a pool, stakes 90 NEAR and receives a reward of 10. *)
Definition staked : list event :=
  [by_owner (SelectStakingPool "pool.near"); EDeliver 0 (OBool true); ERun 0;
   by_owner (DepositAndStake (90 * near)); EDeliver 0 (OPool (90 * near) 0); ERun 0;
   ETime 50; EGrowth "pool.near" (100 * near) 0; by_owner RefreshStakingPoolBalance; EDeliver 0 OView; ERun 0].
(** The foundation terminates the vesting, and fetches the tokens from the pool. *)
Definition terminate : event := by_foundation (TerminateVesting None).
Definition fetched : list event :=
  [by_foundation TerminationPrepareToWithdraw; EDeliver 0 OView; ERun 0;
   EDeliver 0 (OPool 0 (100 * near)); ERun 0;
   by_foundation TerminationPrepareToWithdraw; EDeliver 0 OView; ERun 0;
   EDeliver 0 (OPool 0 0); ERun 1; ERun 0].
Definition paid_out : list event := [by_foundation (TerminationWithdraw "found.near"); EDeliver 0 ODone; ERun 0].

Lemma starts_w1 : starts gen w1.
Proof.
  split; try reflexivity.
  exists "owner.near", 15, None, (TransfersEnabled 5), (Some (ArgSchedule vs1)), (Some 40), "white.near", (Some "found.near"), "x".
  vm_compute. auto 10.
Qed.
Lemma starts_w2 : starts gen w2.
Proof.
  split; try reflexivity.
  exists "owner.near", 15, None, (TransfersDisabled "vote.near"), (Some (ArgSchedule vs1)), (Some 40), "white.near", (Some "found.near"), "x".
  vm_compute. auto 10.
Qed.
Lemma sane_vs1 : sane vs1.
Proof. repeat split; discriminate. Qed.

(** * Schedules *)

(** Every state a lockup can reach is well formed, if a schedule that is public from the start is sane and a
    private one that a termination reveals is sane and covered by the lockup. *)
Theorem C45_reachable_states_are_well_formed :
  forall g w0 evs, starts g w0 -> public_schedule_sane (w_lockup w0) -> all_reveals_covered g w0 evs ->
  well_formed (w_lockup (final g w0 evs)).
Proof. exact reachable_well_formed. Qed.
Print Assumptions C45_reachable_states_are_well_formed.

(** C45. The locked amount never grows with time. *)
Theorem C45_locked_amount_never_grows :
  forall s t t', well_formed s -> t <= t' ->
  exists a a', get_locked_amount s t = Ok a /\ get_locked_amount s t' = Ok a' /\ a' <= a.
Proof. exact locked_never_grows. Qed.
Print Assumptions C45_locked_amount_never_grows.
Example C45_applies :
  well_formed (w_lockup (final gen w1 staked)) /\
  map (get_locked_amount (w_lockup (final gen w1 staked))) [0; 19; 20; 40; 80; 100] =
  map (fun x => Ok (x * near)) [100; 100; 100; 60; 20; 0].
Proof.
  split; [|vm_compute; reflexivity].
  apply reachable_well_formed; [exact starts_w1|exact sane_vs1|vm_compute; auto 20].
Qed.

(** C46. The locked amount is exactly the documented one: all of it until the lockup ends, then the larger of
    the linearly released remainder and the linearly vested remainder ([locked]). *)
Theorem C46_locked_amount_exact :
  forall s now, well_formed s -> get_locked_amount s now = Ok (locked s now).
Proof. exact LockupMath.get_locked_ok. Qed.
Print Assumptions C46_locked_amount_exact.
Theorem C46_unvested_amount_exact :
  forall s now vs, lockup_amount (lockup_information s) < U128_BOUND -> sane vs ->
  match vesting_information s with VSchedule _ | VHash _ => True | _ => False end ->
  get_unvested_amount s now vs = Ok (not_vested (lockup_amount (lockup_information s)) vs now).
Proof. exact LockupMath.get_unvested_ok. Qed.
Print Assumptions C46_unvested_amount_exact.
(** It is at most the lockup amount, less what the foundation took. *)
Theorem C46_locked_amount_bounded :
  forall s now, well_formed s ->
  exists a, get_locked_amount s now = Ok a /\
    a + termination_withdrawn_tokens (lockup_information s) <= lockup_amount (lockup_information s).
Proof. exact locked_within. Qed.
Print Assumptions C46_locked_amount_bounded.
(** After the end of lockup, release and vesting it is zero. *)
Theorem C46_all_unlocked :
  forall s now e, well_formed s ->
  lockup_end (lockup_information s) = Some e -> e <= now ->
  match release_duration (lockup_information s) with Some d => later e d <= now | None => True end ->
  match vesting_information s with
  | VSchedule vs => end_timestamp vs <= now | VTerminating _ => False | _ => True end ->
  get_locked_amount s now = Ok 0.
Proof. exact all_unlocked. Qed.
Print Assumptions C46_all_unlocked.
Example C46_applies :
  let s := w_lockup w1 in
  lockup_end (lockup_information s) = Some 20 /\ later 20 40 = 60 /\
  map (locked s) [19; 30; 59; 60; 99; 100] = [100 * near; 75 * near; 41 * near; 40 * near; near; 0] /\
  map (not_vested (100 * near) vs1) [9; 10; 50; 99; 100] = [100 * near; 90 * near; 50 * near; near; 0] /\
  get_locked_amount s 100 = Ok 0 /\
  lockup_end (lockup_information (w_lockup w2)) = None /\ locked (w_lockup w2) 1000 = 100 * near.
Proof. vm_compute. auto 10. Qed.

(** * Tokens *)

(** C47. In every history the tokens under the lockup's control, and the payments to the foundation whose
    arrival is not recorded yet, are at least the locked amount. *)
Theorem C47_never_below_locked_amount :
  forall g w0 evs, starts g w0 -> public_schedule_sane (w_lockup w0) -> all_reveals_covered g w0 evs ->
  let w := final g w0 evs in
  exists a, get_locked_amount (w_lockup w) (w_time w) = Ok a /\
    a <= controlled w + total to_foundation_pending (w_msgs w).
Proof. exact never_below_locked. Qed.
Print Assumptions C47_never_below_locked_amount.
(** Payments leave the account only by [transfer] and [termination_withdraw]. *)
Theorem C47_transfers_only_by_these_methods :
  forall c s m s' p r a, exec c s m = Ok (s', Some p) -> p_remote p = RTransfer r a ->
  m = Transfer a r \/
  m = TerminationWithdraw r /\ get_termination_status s = Some ReadyToWithdraw /\
    a <= get_terminated_unvested_balance s /\ a + MIN_BALANCE_FOR_STORAGE <= ctx_balance c.
Proof. exact transfer_only. Qed.
Print Assumptions C47_transfers_only_by_these_methods.
(** The staked tokens count as the owner's: with 90 NEAR and the reward at the pool, the owner can transfer 6.5
    of the 10 NEAR that stayed in the account, although half of the lockup is not vested, and no more. *)
Example C47_applies :
  let evs := (staked ++ [by_owner (Transfer (13 * near / 2) "friend.near"); by_owner (Transfer 1 "friend.near");
                         EDeliver 0 ODone])%list in
  let w := final gen w1 evs in
  public_schedule_sane (w_lockup w1) /\ all_reveals_covered gen w1 evs /\
  In (BPaid "friend.near" (13 * near / 2) false) (log gen w1 evs) /\
  In (BCalled "owner.near" (Transfer 1 "friend.near") false) (log gen w1 evs) /\
  w_balance w = MIN_BALANCE_FOR_STORAGE /\ controlled w = MIN_BALANCE_FOR_STORAGE + 100 * near /\
  get_locked_amount (w_lockup w) (w_time w) = Ok (50 * near).
Proof. split; [exact sane_vs1|]. vm_compute. auto 20. Qed.
(** The demand on private schedules is needed: one that outlasts the lockup lets the owner take everything,
    and the termination comes too late. *)
Definition w3 : world := start (first i1 (VHash "salt")).
Definition late : list event :=
  [ETime 60; by_owner (Transfer (96 * near) "owner.near"); EDeliver 0 ODone;
   by_foundation (TerminateVesting (Some (mkSchedule 0 10 1000, "salt")))].
Example C47_private_schedule_must_be_covered :
  starts gen w3 /\ controlled (final gen w3 late) = 4 * near /\
  get_locked_amount (w_lockup (final gen w3 late)) 60 = Ok (94 * near) /\ ~ all_reveals_covered gen w3 late.
Proof.
  split; [|split; [vm_compute; reflexivity|split; [vm_compute; reflexivity|]]].
  - split; try reflexivity.
    exists "owner.near", 15, None, (TransfersEnabled 5), (Some (ArgHash "salt")), (Some 40), "white.near", (Some "found.near"), "x".
    vm_compute. auto 10.
  - intros (_ & _ & _ & H & _). destruct H as [_ H]; [vm_compute; auto|]. vm_compute in H. apply H. reflexivity.
Qed.

(** C48. There is at most one operation with the staking pool at a time; the status is busy exactly while there
    is one, if the pool's views answer. *)
Theorem C48_one_operation_at_a_time :
  forall g w0 evs, starts g w0 -> (outstanding (final g w0 evs) <= 1)%nat.
Proof. exact one_operation. Qed.
Print Assumptions C48_one_operation_at_a_time.
Theorem C48_busy_while_outstanding :
  forall g w0 evs, starts g w0 -> views_answer g w0 evs ->
  busy (w_lockup (final g w0 evs)) = true <-> outstanding (final g w0 evs) = 1%nat.
Proof. exact busy_while_outstanding. Qed.
Print Assumptions C48_busy_while_outstanding.
Example C48_applies :
  views_answer gen w1 (staked ++ terminate :: fetched) /\
  map (fun n => outstanding (final gen w1 (firstn n staked))) [3; 4; 5; 6; 9; 11]%nat = [0; 1; 1; 0; 1; 0]%nat /\
  map (fun n => busy (w_lockup (final gen w1 (firstn n staked)))) [3; 4; 5; 6; 9; 11]%nat =
    [false; true; true; false; true; false] /\
  final gen w1 (firstn 4 staked ++ [by_owner (Stake 1)]) = final gen w1 (firstn 4 staked).
Proof. vm_compute. auto 40. Qed.

(** * Termination *)

(** C50. After a termination the foundation receives at most the amount that was not vested at that moment,
    whatever happens, and exactly that when the termination is over. *)
Theorem C50_foundation_takes_the_unvested_amount :
  forall g w0 evs ev u evs', starts g w0 -> terminates g (final g w0 evs) ev u ->
  received (log g w0 (evs ++ ev :: evs')) <= u /\
  (vesting_information (w_lockup (final g w0 (evs ++ ev :: evs'))) = VNone ->
   received (log g w0 (evs ++ ev :: evs')) = u).
Proof. exact foundation_bounded. Qed.
Print Assumptions C50_foundation_takes_the_unvested_amount.
Example C50_applies :
  let all := (staked ++ terminate :: fetched ++ paid_out)%list in
  terminates gen (final gen w1 staked) terminate (50 * near) /\
  received (log gen w1 all) = 50 * near /\ vesting_information (w_lockup (final gen w1 all)) = VNone /\
  w_balance (final gen w1 all) = 60 * near.
Proof.
  split; [|vm_compute; auto].
  exists "found.near", None, vs1, []. vm_compute. auto.
Qed.

(** C51. While a termination is in progress every method of the owner fails and nothing changes. *)
Theorem C51_owner_is_frozen :
  forall g w who att m, owner_method m = true -> get_termination_status (w_lockup w) <> None ->
  step g w (ECall who att m) = w.
Proof. exact owner_frozen_step. Qed.
Print Assumptions C51_owner_is_frozen.
Theorem C51_owner_methods_fail :
  forall c s m, owner_method m = true -> get_termination_status s <> None -> exists e, exec c s m = Panic e.
Proof. exact owner_frozen. Qed.
Print Assumptions C51_owner_methods_fail.
Example C51_applies :
  let w := final gen w1 (staked ++ [terminate]) in
  get_termination_status (w_lockup w) = Some VestingTerminatedWithDeficit /\
  step gen w (by_owner (Transfer 1 "friend.near")) = w /\
  w_msgs (step gen (final gen w1 staked) (by_owner (Transfer 1 "friend.near"))) = [MCall (RTransfer "friend.near" 1) None].
Proof. vm_compute. auto. Qed.

(** C52. The termination status moves only along the documented transitions. *)
Theorem C52_documented_transitions :
  forall g w0 evs ev, starts g w0 ->
  let a := get_termination_status (w_lockup (final g w0 evs)) in
  let b := get_termination_status (w_lockup (final g w0 (evs ++ [ev]))) in
  b = a \/ documented a b = true.
Proof. exact status_follows. Qed.
Print Assumptions C52_documented_transitions.
(** It is left only by the callback that finds that all the unvested amount left was paid. *)
Theorem C52_over_when_paid :
  forall g w0 evs ev ti, starts g w0 ->
  let w := final g w0 evs in
  vesting_information (w_lockup w) = VTerminating ti ->
  get_termination_status (w_lockup (step g w ev)) = None ->
  vesting_information (w_lockup (step g w ev)) = VNone /\
  exists n r x, ev = ERun n /\
    nth_error (w_msgs w) n = Some (MBack (OnWithdrawUnvestedAmount (unvested_amount ti) r) (Some x)).
Proof. exact termination_over. Qed.
Print Assumptions C52_over_when_paid.
Example C52_applies :
  let all := (staked ++ terminate :: fetched ++ paid_out)%list in
  map (fun n => get_termination_status (w_lockup (final gen w1 (firstn n all)))) [11; 12; 13; 17; 18; 23; 24; 26]%nat =
  [None; Some VestingTerminatedWithDeficit; Some UnstakingInProgress; Some EverythingUnstaked;
   Some WithdrawingFromStakingPoolInProgress; Some ReadyToWithdraw; Some WithdrawingFromAccountInProgress; None].
Proof. vm_compute. auto. Qed.

(** C53. After a termination, whatever the owner and the others did before and did after ([evs1]), the
    foundation alone can collect the unvested amount, up to the storage reserve: there is a continuation [evs2]
    made only of its own calls of the termination methods and of deliveries of what is outstanding, with
    receivers that answer cooperatively. *)
Theorem C53_foundation_can_collect :
  forall g w0 evs ev u evs1 answers r,
  starts g w0 -> public_schedule_sane (w_lockup w0) ->
  let all := (evs ++ ev :: evs1)%list in
  all_reveals_covered g w0 all -> views_answer g w0 all -> all_keep_apart g w0 all ->
  terminates g (final g w0 evs) ev u ->
  cooperative answers -> is_valid_account_id r = true ->
  exists f evs2, foundation_account_id (w_lockup (final g w0 evs)) = Some f /\
    all_only_foundation answers f g (final g w0 all) evs2 /\
    u <= received (log g w0 (all ++ evs2)) + MIN_BALANCE_FOR_STORAGE.
Proof. exact foundation_collects. Qed.
Print Assumptions C53_foundation_can_collect.
(** The case of an owner whose operation is outstanding at the moment of termination; [honest] is a
    cooperative behaviour of the others. *)
Definition racing : list event := (staked ++ [by_owner (Unstake (30 * near))])%list.
Example C53_applies :
  let all := (racing ++ terminate :: [EDeliver 0 OFail])%list in
  cooperative honest /\ is_valid_account_id "found.near" = true /\
  public_schedule_sane (w_lockup w1) /\
  all_reveals_covered gen w1 all /\ views_answer gen w1 all /\ all_keep_apart gen w1 all /\
  terminates gen (final gen w1 racing) terminate (50 * near) /\ busy (w_lockup (final gen w1 all)) = true.
Proof.
  split; [exact honest_cooperative|]. split; [reflexivity|]. split; [exact sane_vs1|].
  split; [vm_compute; auto 40|]. split; [vm_compute; auto 40|].
  split; [vm_compute; repeat split; discriminate|]. split; [|reflexivity].
  exists "found.near", None, vs1, []. vm_compute. auto.
Qed.

(** * Access *)

(** C54. A key is added only by [add_full_access_key], called by the owner with transfers enabled, no pool
    operation, no termination, and nothing locked; and then it is. *)
Theorem C54_full_access_only_when_unlocked :
  forall c s m s' p pk, exec c s m = Ok (s', Some p) -> p_remote p = RAddFullAccessKey pk ->
  m = AddFullAccessKey pk /\ ctx_attached c = 0 /\ ctx_predecessor c = owner_account_id s /\
  are_transfers_enabled s = true /\ busy s = false /\ get_termination_status s = None /\
  get_locked_amount s (ctx_timestamp c) = Ok 0.
Proof. exact add_key_checked. Qed.
Print Assumptions C54_full_access_only_when_unlocked.
Theorem C54_full_access_when_unlocked :
  forall c s pk, well_formed s ->
  exec c s (AddFullAccessKey pk) = Ok (s, Some (mkPromise (RAddFullAccessKey pk) 0 None)) <->
  ctx_attached c = 0 /\ ctx_predecessor c = owner_account_id s /\ are_transfers_enabled s = true /\
  busy s = false /\ get_termination_status s = None /\ locked s (ctx_timestamp c) = 0.
Proof. exact add_key_accepted. Qed.
Print Assumptions C54_full_access_when_unlocked.
Example C54_applies :
  log gen w1 [ETime 99; by_owner (AddFullAccessKey "pk"); ETime 100; ECall "eve.near" 0 (AddFullAccessKey "pk");
              by_owner (AddFullAccessKey "pk")] =
  [BCalled "owner.near" (AddFullAccessKey "pk") false; BCalled "eve.near" (AddFullAccessKey "pk") false;
   BCalled "owner.near" (AddFullAccessKey "pk") true; BSent (RAddFullAccessKey "pk")].
Proof. vm_compute. auto. Qed.

(** C55. Methods of the owner succeed only for the owner, those of the foundation only for the foundation,
    callbacks only for the contract itself; none takes a deposit. *)
Theorem C55_callers :
  forall c s m s' p, exec c s m = Ok (s', p) ->
  ctx_attached c = 0 /\
  if owner_method m then ctx_predecessor c = owner_account_id s
  else if foundation_method m then foundation_account_id s = Some (ctx_predecessor c)
  else ctx_predecessor c = ctx_current c.
Proof. exact caller_checked. Qed.
Print Assumptions C55_callers.
Example C55_applies :
  let w := final gen w1 staked in
  step gen w (by_owner (Stake 1)) <> w /\ step gen w terminate <> w /\
  step gen w (by_foundation (Stake 1)) = w /\ step gen w (by_owner (TerminateVesting None)) = w /\
  step gen w (by_owner OnGetAccountTotalBalance) = w /\ step gen w (ECall "owner.near" 1 (Stake 1)) = w.
Proof. vm_compute. repeat split; discriminate. Qed.

(** C56. Every call to a staking pool goes to the pool in use: selected, and not unselected since; and the
    whitelist has answered that it is whitelisted. *)
Theorem C56_only_whitelisted_pools :
  forall g w0 evs p op l1 l2,
  starts g w0 -> log g w0 evs = (l1 ++ BSent (RPool p op) :: l2)%list ->
  in_use None l1 = Some p /\
  In (BAnswered (RIsWhitelisted (staking_pool_whitelist_account_id (w_lockup w0)) p) (ABool true)) l1.
Proof. exact only_whitelisted. Qed.
Print Assumptions C56_only_whitelisted_pools.
Example C56_applies :
  nth_error (log gen w1 staked) 5 = Some (BSent (RPool "pool.near" (PDepositAndStake (90 * near)))) /\
  in_use None (firstn 5 (log gen w1 staked)) = Some "pool.near" /\
  log gen w1 [by_owner (SelectStakingPool "bad.near"); EDeliver 0 (OBool false); ERun 0; by_owner (Stake 1)] =
  [BCalled "owner.near" (SelectStakingPool "bad.near") true; BSent (RIsWhitelisted "white.near" "bad.near");
   BAnswered (RIsWhitelisted "white.near" "bad.near") (ABool false);
   BCallback (OnWhitelistIsWhitelisted "bad.near") (Some (ABool false)) false;
   BCalled "owner.near" (Stake 1) false].
Proof. vm_compute. auto. Qed.

(** C57. Transfers once enabled stay enabled, with the same timestamp, and are enabled only with the timestamp
    the voting contract answered. *)
Theorem C57_transfers_stay_enabled :
  forall g w0 evs evs' t, starts g w0 ->
  transfers_information (lockup_information (w_lockup (final g w0 evs))) = TransfersEnabled t ->
  transfers_information (lockup_information (w_lockup (final g w0 (evs ++ evs')))) = TransfersEnabled t.
Proof. exact transfers_stay_enabled. Qed.
Print Assumptions C57_transfers_stay_enabled.
Theorem C57_enabled_by_the_vote :
  forall g w0 evs poll t, starts g w0 ->
  transfers_information (lockup_information (w_lockup w0)) = TransfersDisabled poll ->
  transfers_information (lockup_information (w_lockup (final g w0 evs))) = TransfersEnabled t ->
  In (BAnswered (RGetResult poll) (APollResult (Some t))) (log g w0 evs).
Proof. exact enabled_by_poll. Qed.
Print Assumptions C57_enabled_by_the_vote.
Definition vote : list event :=
  [by_owner CheckTransfersVote; EDeliver 0 (OPoll None); ERun 0;
   by_owner CheckTransfersVote; EDeliver 0 (OPoll (Some 7)); ERun 0].
Example C57_applies :
  starts gen w2 /\ are_transfers_enabled (w_lockup (final gen w2 (firstn 5 vote))) = false /\
  transfers_information (lockup_information (w_lockup (final gen w2 vote))) = TransfersEnabled 7.
Proof. split; [exact starts_w2|]. vm_compute. auto. Qed.

(** C58 is false of the code: initialisation does not check the schedule ([assert_valid] is never called). A
    schedule whose cliff lies before its start is accepted and makes more than the lockup amount unvested; one
    that ends before it starts is accepted and makes the unvested amount undefined. *)
Theorem C58_schedule_not_validated_refuted :
  (exists c ow du tr vs wl fo s now u,
     new c false ow du None tr (Some (ArgSchedule vs)) None wl fo = Ok s /\
     get_unvested_amount s now vs = Ok u /\ lockup_amount (lockup_information s) < u) /\
  (exists c ow du tr vs wl fo s now e,
     new c false ow du None tr (Some (ArgSchedule vs)) None wl fo = Ok s /\
     get_unvested_amount s now vs = Panic e /\ get_locked_amount s now = Panic e).
Proof.
  split; exists (mkCtx "lock.near" "x" 0 0 (100 * near) [] (fun _ s => s)), "owner.near", 0, (TransfersEnabled 0).
  - exists (mkSchedule 50 10 100), "white.near", (Some "found.near"). eexists. exists 20, (160 * near).
    split; [reflexivity|]. vm_compute. auto.
  - exists (mkSchedule 150 10 100), "white.near", (Some "found.near"). eexists. exists 20. eexists.
    split; [reflexivity|]. vm_compute. auto.
Qed.
Print Assumptions C58_schedule_not_validated_refuted.
(** With a sane schedule the unvested amount is defined at all times, and at most the lockup amount. *)
Theorem C58_sane_schedule_partial :
  forall c e ow du ti tr vs re wl fo s now,
  new c e ow du ti tr (Some (ArgSchedule vs)) re wl fo = Ok s -> ctx_balance c < U128_BOUND -> sane vs ->
  get_unvested_amount s now vs = Ok (not_vested (lockup_amount (lockup_information s)) vs now) /\
  not_vested (lockup_amount (lockup_information s)) vs now <= lockup_amount (lockup_information s).
Proof. exact schedule_defined. Qed.
Print Assumptions C58_sane_schedule_partial.
(** What it leads to: a foundation that takes more than the lockup amount, out of the owner's rewards. *)
Definition w4 : world := start (first i1 (VSchedule (mkSchedule 50 10 100))).
Example C58_consequence :
  starts gen w4 /\
  received (log gen w4 [ETime 20; EIncome (100 * near); terminate; by_foundation (TerminationWithdraw "found.near");
                        EDeliver 0 ODone]) = 160 * near.
Proof.
  split; [|vm_compute; reflexivity].
  split; try reflexivity.
  exists "owner.near", 15, None, (TransfersEnabled 5), (Some (ArgSchedule (mkSchedule 50 10 100))), (Some 40), "white.near", (Some "found.near"), "x".
  vm_compute. auto 10.
Qed.

(** C59 is false of the code: when a pool fails to answer a view, the callback fails and the contract stays
    busy, whatever happens afterwards. *)
Theorem C59_busy_for_ever_refuted :
  exists g w0 evs, starts g w0 /\ outstanding (final g w0 evs) = 0%nat /\
    forall evs', busy (w_lockup (final g w0 (evs ++ evs'))) = true.
Proof.
  exists gen, w1, (firstn 9 staked ++ [EDeliver 0 OFail; ERun 0])%list.
  split; [exact starts_w1|]. split; [reflexivity|].
  apply stays_busy; [exact starts_w1|reflexivity|reflexivity].
Qed.
Print Assumptions C59_busy_for_ever_refuted.
(** If the views answer, it is idle after at most four deliveries, whatever the outcome of the other calls: the
    work left is at most 4, is zero exactly when the contract is idle, never grows during an operation, and
    drops with every delivery of one of its messages; while it is busy there is one. *)
Theorem C59_operation_ends_partial :
  forall g w0 evs, starts g w0 -> views_answer g w0 evs ->
  let w := final g w0 evs in
  work w <= 4 /\ (busy (w_lockup w) = false <-> work w = 0) /\
  (busy (w_lockup w) = true ->
   (exists n m, nth_error (w_msgs w) n = Some m /\ staking_msg m = true) /\
   (forall ev, work (step g w ev) <= work w) /\
   (forall n o r cb, nth_error (w_msgs w) n = Some (MCall r cb) -> staking_msg (MCall r cb) = true ->
      execute w r cb o <> None -> work (step g w (EDeliver n o)) < work w) /\
   (forall n cb r, nth_error (w_msgs w) n = Some (MBack cb r) -> staking_msg (MBack cb r) = true ->
      work (step g w (ERun n)) < work w)).
Proof. exact operation_ends. Qed.
Print Assumptions C59_operation_ends_partial.
Example C59_applies :
  let evs := (staked ++ [by_owner WithdrawAllFromStakingPool; by_owner WithdrawAllFromStakingPool;
                         EDeliver 0 OView; ERun 0; by_owner (Unstake (2 * near)); EDeliver 0 OFail; ERun 0])%list in
  views_answer gen w1 evs /\
  map (fun n => work (final gen w1 (firstn n evs))) [11; 12; 13; 14; 15; 16; 17; 18]%nat = [0; 4; 4; 3; 0; 2; 1; 0].
Proof. vm_compute. auto 40. Qed.

(** * Payments and gas *)

(** C60. A transfer is accepted exactly when it is asked for by the owner, is positive, to a valid account,
    transfers are enabled, the pool is not busy, there is no termination, and the amount is liquid. *)
Theorem C60_transfer_accepted_iff :
  forall c s a r, well_formed s -> ctx_balance c + get_known_deposited_balance s < U128_BOUND ->
  exec c s (Transfer a r) = Ok (s, Some (mkPromise (RTransfer r a) 0 None)) <->
  ctx_attached c = 0 /\ ctx_predecessor c = owner_account_id s /\ 0 < a /\ is_valid_account_id r = true /\
  are_transfers_enabled s = true /\ busy s = false /\ get_termination_status s = None /\
  a <= liquid s (ctx_timestamp c) (ctx_balance c).
Proof. exact transfer_accepted. Qed.
Print Assumptions C60_transfer_accepted_iff.
(** Whatever the state, it is at most the reported liquid balance, and 3.5 NEAR stay in the account. *)
Theorem C60_transfer_respects_liquidity :
  forall c s a r s' p, exec c s (Transfer a r) = Ok (s', p) ->
  s' = s /\ p = Some (mkPromise (RTransfer r a) 0 None) /\ are_transfers_enabled s = true /\
  exists l, get_liquid_owners_balance s (ctx_timestamp c) (ctx_balance c) = Ok l /\
    a <= l /\ a + MIN_BALANCE_FOR_STORAGE <= ctx_balance c.
Proof. exact transfer_ok. Qed.
Print Assumptions C60_transfer_respects_liquidity.
Theorem C60_liquid_balance_exact :
  forall s now balance, well_formed s -> balance + get_known_deposited_balance s < U128_BOUND ->
  get_liquid_owners_balance s now balance = Ok (liquid s now balance).
Proof. exact liquid_ok. Qed.
Print Assumptions C60_liquid_balance_exact.
Example C60_applies :
  let w := final gen w1 staked in
  well_formed (w_lockup w) /\ w_balance w = 10 * near /\
  get_liquid_owners_balance (w_lockup w) 50 (w_balance w) = Ok (13 * near / 2) /\
  liquid (w_lockup w1) 50 (100 * near) = 50 * near.
Proof.
  split; [|vm_compute; auto].
  apply reachable_well_formed; [exact starts_w1|exact sane_vs1|vm_compute; auto 20].
Qed.

(** C61. The gas a method attaches, with that reserved for its callback and the base cost, is at most the
    documented requirement of the method; and a callback that sends a promise gets by with the gas that was
    reserved for it. *)
Theorem C61_gas_of_methods :
  forall c s m s' p, exec c s m = Ok (s', Some p) -> owner_method m || foundation_method m = true ->
  chain_gas p <= gas_requirement m.
Proof. intros c s m s' p H. apply (gas_method c s m s' p H). Qed.
Print Assumptions C61_gas_of_methods.
Theorem C61_gas_of_callbacks :
  forall c s m s' p c2 s2 cb g s2' p2,
  exec c s m = Ok (s', Some p) -> p_then p = Some (cb, g) -> exec c2 s2 cb = Ok (s2', Some p2) ->
  chain_gas p2 <= g.
Proof. exact gas_chain. Qed.
Print Assumptions C61_gas_of_callbacks.
Example C61_applies :
  match exec (mkCtx "lock.near" "owner.near" 0 50 (10 * near) [] (fun _ s => s)) (w_lockup (final gen w1 staked))
          WithdrawAllFromStakingPool with
  | Ok (s, Some p) =>
      chain_gas p = 175000000000000 /\ gas_requirement WithdrawAllFromStakingPool = 175000000000000 /\
      match p_then p with
      | Some (cb, g) =>
          match exec (mkCtx "lock.near" "lock.near" 0 50 (10 * near) [Some (ABalance 5)] (fun _ s => s)) s cb with
          | Ok (_, Some p2) => chain_gas p2 = g
          | _ => False
          end
      | None => False
      end
  | _ => False
  end.
Proof. vm_compute. auto. Qed.

(** C74. A lockup is created once, without a deposit, for valid accounts, with a foundation exactly if there is a vesting;
    it starts as asked: the tokens the account has at that moment are locked, nothing is terminated, no pool is selected. *)
Theorem C74_lockup_created_iff :
  forall c ex owner duration timestamp transfers vesting release whitelist foundation,
  is_ok (new c ex owner duration timestamp transfers vesting release whitelist foundation) = true <->
  ctx_attached c = 0 /\ ex = false /\ is_valid_account_id owner = true /\ is_valid_account_id whitelist = true /\
  match transfers with TransfersDisabled p => is_valid_account_id p = true | TransfersEnabled _ => True end /\
  match vesting, foundation with
  | None, None => True
  | Some _, Some f => is_valid_account_id f = true
  | _, _ => False
  end.
Proof. exact lockup_created_iff. Qed.
Print Assumptions C74_lockup_created_iff.
Theorem C74_lockup_created :
  forall c ex owner duration timestamp transfers vesting release whitelist foundation s,
  new c ex owner duration timestamp transfers vesting release whitelist foundation = Ok s ->
  get_owner_account_id s = owner /\ staking_pool_whitelist_account_id s = whitelist /\
  foundation_account_id s = foundation /\
  get_staking_pool_account_id s = None /\ get_known_deposited_balance s = 0 /\
  lockup_information s = mkLockup (ctx_balance c) 0 duration release timestamp transfers /\
  get_vesting_information s = match vesting with
                              | None => VNone
                              | Some (ArgHash h) => VHash h
                              | Some (ArgSchedule vs) => VSchedule vs
                              end.
Proof. exact lockup_created. Qed.
Print Assumptions C74_lockup_created.
Example C74_lockup_applies :
  let make ex owner vesting foundation :=
    new (mkCtx "lock.near" "x" 0 0 (100 * near) [] (fun _ s => s)) ex owner 15 None (TransfersEnabled 5) vesting (Some 40)
      "white.near" foundation in
  make false "owner.near" (Some (ArgSchedule vs1)) (Some "found.near") = Ok (w_lockup w1) /\
  is_ok (make true "owner.near" None None) = false /\ is_ok (make false "Owner" None None) = false /\
  is_ok (make false "owner.near" None (Some "found.near")) = false /\
  is_ok (make false "owner.near" (Some (ArgHash "h")) None) = false /\ is_ok (make false "owner.near" None None) = true.
Proof. vm_compute. auto 10. Qed.
