(** Properties of the lockup among the other contracts of this repository (C82 - C85): the whitelist, the voting
    contract, the staking pool factory and the pools it has created. In every statement [evs] is an arbitrary list of
    events: anyone calls any method of any of these contracts, messages arrive in any order, rewards, epochs,
    validators and time change at will. *)
From Coq Require Import NArith List Bool String.
From Verif Require Import Prelude LockupModel LockupWorld LockupSpec LockupPoolSpec LockupProps LockupPoolLiveProps
  EcoSpec EcoProofs EcoFacts EcoLive.
From Verif Require VotingProps.
Import ListNotations.
Open Scope string_scope.
Open Scope N_scope.

(** * A concrete history

    The foundation lists the factory, alice creates a pool, which the factory lists. The owner of the lockup tries a pool
    that is not listed, selects alice's, stakes 90 NEAR; rewards of 10 NEAR arrive. The validators vote, the
    owner asks for the result, and asks the pool to unstake 40 NEAR. *)
Definition dep : deployment := mkDeployment gen "white.near" "vote.near" "pools.near".
Definition eco0 : eco :=
  mkEco w2 (WM.mkContract "found.near" []) VotingProps.w0
    (FS.mkWorld (FM.mkFactory "white.near" []) (50 * near) ["lock.near"] []) [] (fun _ => None).
Definition pool : account_id := "a.pools.near".
Definition lock (m : call) : eevent := ELockup (by_owner m).
Definition run0 : eevent := ELockup (ERun 0).
Definition opening : list eevent :=
  [EWhitelist "found.near" 0 (WM.AddFactory "pools.near");
   EFactory (FS.ECall "alice" (31 * near) (FM.CreateStakingPool "a" "alice" "ed25519:key" (SM.mkFraction 1 10)));
   EFactory (FS.ECreate 0 true 10); EFactory (FS.ERun 0); EAdd 0;
   lock (SelectStakingPool "bad.near"); EWhitelistServes 0; run0;
   lock (SelectStakingPool pool); EWhitelistServes 0; run0].
Definition staking : list eevent :=
  [lock (DepositAndStake (90 * near)); EPoolServes pool 0 0; run0;
   EPool pool (SS.EvIncome (10 * near)); EPool pool (SS.EvEpoch 1); EPool pool (SS.EvCall "bob" 0 0 [] SM.Ping)].
Definition voting : list eevent := map EVoting (VotingProps.evs1 ++ [VotingProps.last_call])%list.
Definition asking : list eevent :=
  [ELockup (ETime 50); lock CheckTransfersVote; EVotingServes 0; run0; lock (Unstake (40 * near)); EPoolServes pool 0 0].
Definition story : list eevent := (opening ++ staking ++ voting ++ asking)%list.

Lemma starts_eco0 : estarts dep eco0.
Proof.
  split; try reflexivity.
  - exact starts_w2.
  - exists "found.near". reflexivity.
  - exact VotingProps.demo_initial.
  - split; reflexivity.
Qed.
Lemma typed_story : Forall typed story.
Proof. repeat constructor; cbn; try (intuition congruence); try reflexivity. Qed.
Lemma limits_story : all_within_limits dep eco0 story.
Proof. apply limits_check; [reflexivity|]. vm_compute. reflexivity. Qed.
Lemma policy_story : policy dep eco0 story.
Proof. repeat constructor; cbn; try (intros _; reflexivity). Qed.

(** * Which pools the lockup uses *)

(** C82. Whenever the lockup sends a request to a staking pool, the whitelist had that pool on its list at some
    earlier moment. *)
Theorem C82_pools_were_on_the_whitelist :
  forall d e evs ev p op,
  estarts d e -> Forall typed (evs ++ [ev]) -> all_within_limits d e (evs ++ [ev]) ->
  In (BSent (RPool p op)) (snd (estep_obs d (efinal d e evs) ev)) ->
  exists past rest, evs = (past ++ rest)%list /\
    WM.is_whitelisted (ec_whitelist (efinal d e past)) p = Ok true.
Proof. exact pools_were_listed. Qed.
Print Assumptions C82_pools_were_on_the_whitelist.
(** As long as the foundation lists no pools itself and no other factory, it is a pool that the factory had created. *)
Theorem C82_pools_come_from_the_factory :
  forall d e evs ev p op,
  estarts d e -> Forall typed (evs ++ [ev]) -> all_within_limits d e (evs ++ [ev]) -> policy d e evs ->
  In (BSent (RPool p op)) (snd (estep_obs d (efinal d e evs) ev)) ->
  In p (created d e evs).
Proof. exact pools_were_created. Qed.
Print Assumptions C82_pools_come_from_the_factory.
Example C82_applies :
  let n := 29%nat in
  nth_error story n = Some (lock (Unstake (40 * near))) /\
  In (BSent (RPool pool (PUnstake (40 * near)))) (snd (estep_obs dep (efinal dep eco0 (firstn n story)) (lock (Unstake (40 * near))))) /\
  created dep eco0 (firstn n story) = [pool] /\
  WM.is_whitelisted (ec_whitelist (efinal dep eco0 (firstn 4 story))) pool = Ok false /\
  WM.is_whitelisted (ec_whitelist (efinal dep eco0 (firstn 5 story))) pool = Ok true /\
  In (BAnswered (RIsWhitelisted "white.near" "bad.near") (ABool false)) (elog dep eco0 story).
Proof. vm_compute. auto 20. Qed.

(** * What the lockup can rely on *)

(** C83. Under that policy the lockup needs no assumption about its pools: whatever happens among the contracts, the lockup
    does in the abstract world of LockupWorld, with the same observations, where pools answer their views and keep
    the two balances apart. So every theorem about that world holds here. *)
Theorem C83_no_assumption_about_pools :
  forall d e evs,
  estarts d e -> Forall typed evs -> all_within_limits d e evs -> policy d e evs ->
  exists levs,
    ec_lockup (efinal d e evs) = final (d_lockup d) (ec_lockup e) levs /\
    elog d e evs = log (d_lockup d) (ec_lockup e) levs /\
    all_keep_apart (d_lockup d) (ec_lockup e) levs /\ views_answer (d_lockup d) (ec_lockup e) levs /\
    (all_lockup (reveals_covered (d_lockup d)) d e evs -> all_reveals_covered (d_lockup d) (ec_lockup e) levs).
Proof. exact eguarantees. Qed.
Print Assumptions C83_no_assumption_about_pools.
(** The balance, the tokens in flight and what the selected pool reports cover the locked amount. *)
Theorem C83_locked_amount_is_covered :
  forall d e evs,
  estarts d e -> Forall typed evs -> all_within_limits d e evs -> policy d e evs ->
  public_schedule_sane (w_lockup (ec_lockup e)) -> all_lockup (reveals_covered (d_lockup d)) d e evs ->
  let w := ec_lockup (efinal d e evs) in
  exists a b, get_locked_amount (w_lockup w) (w_time w) = Ok a /\ reported d (efinal d e evs) b /\
    a <= w_balance w + total in_flight (w_msgs w) + b + total to_foundation_pending (w_msgs w).
Proof. exact eco_locked. Qed.
Print Assumptions C83_locked_amount_is_covered.
(** The deposit that the lockup has recorded is what the pool reports, or less; more only by a withdrawal that the
    pool has paid and the lockup has not recorded yet. *)
Theorem C83_recorded_deposit_is_at_the_pool :
  forall d e evs b,
  estarts d e -> Forall typed evs -> all_within_limits d e evs -> policy d e evs ->
  let w := ec_lockup (efinal d e evs) in
  reported d (efinal d e evs) b ->
  get_known_deposited_balance (w_lockup w) <= b + total paid_not_recorded (w_msgs w) /\
  (busy (w_lockup w) = false -> get_known_deposited_balance (w_lockup w) <= b).
Proof. exact eco_recorded. Qed.
Print Assumptions C83_recorded_deposit_is_at_the_pool.
(** The lockup is busy exactly while an operation is outstanding, and at most one is. *)
Theorem C83_busy_while_outstanding :
  forall d e evs,
  estarts d e -> Forall typed evs -> all_within_limits d e evs -> policy d e evs ->
  let w := ec_lockup (efinal d e evs) in
  (busy (w_lockup w) = true <-> outstanding w = 1%nat) /\ (outstanding w <= 1)%nat.
Proof. exact eco_busy. Qed.
Print Assumptions C83_busy_while_outstanding.
Definition reports_of (n : nat) : option (res N) :=
  option_map (fun l => SM.get_account_total_balance (SS.w_pool (now pool l)) "lock.near")
             (ec_pools (efinal dep eco0 (firstn n story)) pool).
Example C83_applies :
  let w n := ec_lockup (efinal dep eco0 (firstn n story)) in
  public_schedule_sane (w_lockup (ec_lockup eco0)) /\ all_lockup (reveals_covered gen) dep eco0 story /\
  map (fun n => get_staking_pool_account_id (w_lockup (w n))) [5; 8; 11; 31]%nat = [None; None; Some pool; Some pool] /\
  map reports_of [2; 3; 13; 17]%nat =
    [None; Some (Ok 0); Some (Ok (90 * near)); Some (Ok 96694214876033113175329554)] /\
  get_locked_amount (w_lockup (w 31%nat)) 50 = Ok (50 * near) /\ w_balance (w 31%nat) = 10 * near /\
  map (fun n => busy (w_lockup (w n))) [11; 12; 13; 14; 29; 30]%nat = [false; true; true; false; false; true] /\
  map (fun n => outstanding (w n)) [11; 12; 13; 14; 29; 30]%nat = [0; 1; 1; 0; 0; 1]%nat.
Proof. split; [exact sane_vs1|]. vm_compute. auto 40. Qed.

(** * Transfers *)

(** C84. Transfers of a lockup that was created with the voting contract as its poll get enabled only with the timestamp
    that is the result of the vote; and this was set by a call after which the validators standing by a yes vote
    held more than two thirds of the stake. *)
Theorem C84_transfers_are_enabled_by_two_thirds :
  forall d e evs t,
  estarts d e -> Forall typed evs -> all_within_limits d e evs ->
  transfers_information (lockup_information (w_lockup (ec_lockup e))) = TransfersDisabled (d_voting d) ->
  transfers_information (lockup_information (w_lockup (ec_lockup (efinal d e evs)))) = TransfersEnabled t ->
  VM.get_result (VS.w_contract (ec_voting (efinal d e evs))) = Some t /\
  exists past who att m rest, let ev := VS.EvCall who att t m in
    let v := ec_voting (efinal d e past) in
    evs = (past ++ EVoting ev :: rest)%list /\ VS.accepted v ev = true /\
    2 * VS.total_stake v < 3 * VS.stake_for v (VS.poll (ec_voting e) (voting_history past ++ [ev]) VS.nobody).
Proof. exact transfers_by_vote. Qed.
Print Assumptions C84_transfers_are_enabled_by_two_thirds.
(** Before the vote has a result, no call of [transfer] or [add_full_access_key] succeeds. *)
Theorem C84_nothing_leaves_before_the_vote :
  forall d e evs ev who m,
  estarts d e -> Forall typed evs -> all_within_limits d e evs ->
  transfers_information (lockup_information (w_lockup (ec_lockup e))) = TransfersDisabled (d_voting d) ->
  (exists a r, m = Transfer a r) \/ (exists pk, m = AddFullAccessKey pk) ->
  In (BCalled who m true) (snd (estep_obs d (efinal d e evs) ev)) ->
  VM.get_result (VS.w_contract (ec_voting (efinal d e evs))) <> None.
Proof. exact taken_after_vote. Qed.
Print Assumptions C84_nothing_leaves_before_the_vote.
Example C84_applies :
  let info n := transfers_information (lockup_information (w_lockup (ec_lockup (efinal dep eco0 (firstn n story))))) in
  let early := (opening ++ [ELockup (ETime 50); lock CheckTransfersVote; EVotingServes 0; run0])%list in
  let pay := lock (Transfer (2 * near) "friend.near") in
  map info [0; 25; 28; 29]%nat = [TransfersDisabled "vote.near"; TransfersDisabled "vote.near"; TransfersDisabled "vote.near"; TransfersEnabled 7] /\
  nth_error story 24 = Some (EVoting (VS.EvCall "carol" 0 7 (VM.Vote true))) /\
  In (BAnswered (RGetResult "vote.near") (APollResult None)) (elog dep eco0 early) /\
  snd (estep_obs dep (efinal dep eco0 early) pay) = [BCalled "owner.near" (Transfer (2 * near) "friend.near") false] /\
  In (BCalled "owner.near" (Transfer (2 * near) "friend.near") true)
     (snd (estep_obs dep (efinal dep eco0 (firstn 29 story)) pay)).
Proof. vm_compute. auto 20. Qed.

(** * What the owner and the foundation can achieve *)

(** C85. Whatever happened before, the owner alone can bring everything back from the pool: there is a continuation made only
    of the owner's calls, deliveries of what is outstanding and epochs of the pool, after which nothing is
    outstanding, the pool reports nothing for the lockup, and the account has at least what the lockup controlled
    before. *)
Theorem C85_owner_can_leave_the_pool :
  forall d e evs p answers lk,
  estarts d e -> Forall typed evs -> all_within_limits d e evs -> policy d e evs ->
  let e' := efinal d e evs in
  let w := ec_lockup e' in
  let owner := owner_account_id (w_lockup w) in
  get_staking_pool_account_id (w_lockup w) = Some p -> get_termination_status (w_lockup w) = None ->
  owner <> g_self (d_lockup d) -> ready d e' p -> possible answers -> unlocks (d_lockup d) lk ->
  exists evs2, all_ealone answers lk d p owner owner_method e' evs2 /\
    let e2 := efinal d e' evs2 in
    w_msgs (ec_lockup e2) = [] /\ busy (w_lockup (ec_lockup e2)) = false /\ reported d e2 0 /\
    controlled w <= w_balance (ec_lockup e2).
Proof. exact eowner_leaves. Qed.
Print Assumptions C85_owner_can_leave_the_pool.
(** And once transfers are enabled, have all that is not locked paid to any account. *)
Theorem C85_owner_can_cash_out :
  forall d e evs p answers lk locked r,
  estarts d e -> Forall typed evs -> all_within_limits d e evs -> policy d e evs ->
  public_schedule_sane (w_lockup (ec_lockup e)) -> all_lockup (reveals_covered (d_lockup d)) d e evs ->
  let e' := efinal d e evs in
  let w := ec_lockup e' in
  let owner := owner_account_id (w_lockup w) in
  get_staking_pool_account_id (w_lockup w) = Some p -> get_termination_status (w_lockup w) = None ->
  owner <> g_self (d_lockup d) -> ready d e' p -> possible answers ->
  (forall w to a, answers w (RTransfer to a) = ODone) -> unlocks (d_lockup d) lk ->
  are_transfers_enabled (w_lockup w) = true -> get_locked_amount (w_lockup w) (w_time w) = Ok locked ->
  N.max locked MIN_BALANCE_FOR_STORAGE < controlled w -> is_valid_account_id r = true ->
  exists evs2 a, all_ealone answers lk d p owner owner_method e' evs2 /\
    In (BPaid r a false) (elog d e' evs2) /\
    controlled w <= a + N.max locked MIN_BALANCE_FOR_STORAGE.
Proof. exact eowner_cashes_out. Qed.
Print Assumptions C85_owner_can_cash_out.
(** After a termination, the foundation alone can collect the unvested amount, up to the storage reserve. *)
Theorem C85_foundation_can_collect :
  forall d e evs le u evs1 p answers lk r,
  estarts d e -> public_schedule_sane (w_lockup (ec_lockup e)) ->
  let all := (evs ++ ELockup le :: evs1)%list in
  Forall typed all -> all_within_limits d e all -> policy d e all ->
  all_lockup (reveals_covered (d_lockup d)) d e all ->
  terminates (d_lockup d) (ec_lockup (efinal d e evs)) le u ->
  let e' := efinal d e all in
  get_staking_pool_account_id (w_lockup (ec_lockup e')) = Some p -> ready d e' p ->
  possible answers -> (forall w to a, answers w (RTransfer to a) = ODone) -> unlocks (d_lockup d) lk ->
  is_valid_account_id r = true ->
  exists f evs2, foundation_account_id (w_lockup (ec_lockup (efinal d e evs))) = Some f /\
    all_ealone answers lk d p f foundation_method e' evs2 /\
    u <= received (elog d e (all ++ evs2)) + MIN_BALANCE_FOR_STORAGE.
Proof. exact efoundation_collects. Qed.
Print Assumptions C85_foundation_can_collect.
(** The hypotheses hold after [story]; this is a way out of the pool. ([answering_possible] and [unlocked_unlocks] in
    LockupPoolLiveProps show that there are such answers and such a lock.) *)
Definition way_out : list eevent :=
  [run0; lock UnstakeAll; EPoolServes pool 0 (20 * near); run0; EPool pool (SS.EvEpoch 4);
   lock WithdrawAllFromStakingPool; EPoolServes pool 0 (20 * near); run0; EPoolServes pool 0 (20 * near); run0; run0].
Lemma reported_check : forall d e p b,
  get_staking_pool_account_id (w_lockup (ec_lockup e)) = Some p ->
  option_map (fun l => SM.get_account_total_balance (SS.w_pool (now p l)) (g_self (d_lockup d))) (ec_pools e p)
  = Some (Ok b) ->
  reported d e b.
Proof.
  intros d e p b E H. unfold reported. rewrite E. destruct (ec_pools e p) as [l|]; [|discriminate].
  exists l. injection H as H. auto.
Qed.
Lemma ready_story : ready dep (efinal dep eco0 story) pool.
Proof. intros l E. vm_compute in E. injection E as <-. vm_compute. repeat split; discriminate. Qed.
Example C85_applies :
  let e' := efinal dep eco0 story in
  let w := ec_lockup e' in
  get_staking_pool_account_id (w_lockup w) = Some pool /\ get_termination_status (w_lockup w) = None /\
  owner_account_id (w_lockup w) <> g_self (d_lockup dep) /\ are_transfers_enabled (w_lockup w) = true /\
  get_locked_amount (w_lockup w) (w_time w) = Ok (50 * near) /\ busy (w_lockup w) = true /\
  N.max (50 * near) MIN_BALANCE_FOR_STORAGE < controlled w /\
  let e2 := efinal dep e' way_out in
  w_msgs (ec_lockup e2) = [] /\ busy (w_lockup (ec_lockup e2)) = false /\ reported dep e2 0 /\
  controlled w <= w_balance (ec_lockup e2).
Proof.
  do 6 (split; [vm_compute; first [reflexivity | discriminate]|]). split; [vm_compute; reflexivity|].
  do 2 (split; [vm_compute; reflexivity|]). split; [|vm_compute; discriminate].
  apply (reported_check _ _ pool); vm_compute; reflexivity.
Qed.
(** The vesting is terminated while the owner's last operation is outstanding. *)
Definition the_end : event := by_foundation (TerminateVesting None).
Definition ended : list eevent := (story ++ [ELockup the_end; run0])%list.
Example C85_foundation_applies :
  let e' := efinal dep eco0 ended in
  Forall typed ended /\ all_within_limits dep eco0 ended /\ policy dep eco0 ended /\
  all_lockup (reveals_covered gen) dep eco0 ended /\
  terminates gen (ec_lockup (efinal dep eco0 story)) the_end (50 * near) /\
  get_staking_pool_account_id (w_lockup (ec_lockup e')) = Some pool /\ ready dep e' pool /\
  get_termination_status (w_lockup (ec_lockup e')) = Some VestingTerminatedWithDeficit.
Proof.
  split; [apply Forall_app; split; [exact typed_story|repeat constructor]|].
  split; [apply limits_check; [reflexivity|vm_compute; reflexivity]|].
  split; [apply Forall_app; split; [exact policy_story|repeat constructor]|].
  split; [vm_compute; auto 60|].
  split; [exists "found.near", None, vs1; eexists; vm_compute; auto|].
  split; [vm_compute; reflexivity|]. split; [|vm_compute; reflexivity].
  intros l E. vm_compute in E. injection E as <-. vm_compute. repeat split; discriminate.
Qed.
