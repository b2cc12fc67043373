(** What each accepted call of the lockup contract does. *)
From Coq Require Import NArith List Bool String Lia.
From Verif Require Import Prelude PreludeFacts MapFacts LockupModel.
Import ListNotations.
Open Scope N_scope.

Definition with_pool (s : contract) (p : account_id) (st : tx_status) (d : N) : contract :=
  set_staking s (Some (mkStaking p st d)).
Definition with_term (s : contract) (u : N) (st : termination_status) : contract :=
  set_vesting s (VTerminating (mkTermination u st)).

(** The pool call and the callback of the owner's staking methods. *)
Definition owner_op (m : call) : option (pool_op * call) :=
  match m with
  | DepositToStakingPool a => Some (PDeposit a, OnStakingPoolDeposit a)
  | DepositAndStake a => Some (PDepositAndStake a, OnStakingPoolDepositAndStake a)
  | RefreshStakingPoolBalance => Some (PGetTotal, OnGetAccountTotalBalance)
  | WithdrawFromStakingPool a => Some (PWithdraw a, OnStakingPoolWithdraw a)
  | WithdrawAllFromStakingPool => Some (PGetUnstaked, OnGetAccountUnstakedBalanceToWithdrawByOwner)
  | Stake a => Some (PStake a, OnStakingPoolStake a)
  | Unstake a => Some (PUnstake a, OnStakingPoolUnstake a)
  | UnstakeAll => Some (PUnstakeAll, OnStakingPoolUnstakeAll)
  | _ => None
  end.

(** Callbacks of the owner's operations after which only the status changes. *)
Definition only_status (m : call) (r : option answer) : bool :=
  match m with
  | OnStakingPoolDeposit _ | OnStakingPoolDepositAndStake _ | OnStakingPoolWithdraw _ =>
      match r with None => true | Some _ => false end
  | OnStakingPoolStake _ | OnStakingPoolUnstake _ | OnStakingPoolUnstakeAll => true
  | OnGetAccountUnstakedBalanceToWithdrawByOwner =>
      match r with Some (ABalance x) => x =? 0 | _ => false end
  | _ => false
  end.

Definition is_some {A} (o : option A) : bool := match o with Some _ => true | None => false end.

Definition not_terminating (s : contract) : Prop :=
  match vesting_information s with VTerminating _ => False | _ => True end.

Inductive effect (c : ctx) (s : contract) : call -> contract -> option promise -> Prop :=
| E_select pool :
    ctx_predecessor c = owner_account_id s -> is_valid_account_id pool = true ->
    staking_information s = None -> not_terminating s ->
    effect c s (SelectStakingPool pool) s
      (Some (mkPromise (RIsWhitelisted (staking_pool_whitelist_account_id s) pool) G_IS_WHITELISTED
               (Some (OnWhitelistIsWhitelisted pool, G_ON_WHITELIST_IS_WHITELISTED))))
| E_unselect p :
    ctx_predecessor c = owner_account_id s -> staking_information s = Some (mkStaking p Idle 0) ->
    not_terminating s ->
    effect c s UnselectStakingPool (set_staking s None) None
| E_start m p d op cb g g' :
    ctx_predecessor c = owner_account_id s -> staking_information s = Some (mkStaking p Idle d) ->
    not_terminating s -> owner_op m = Some (op, cb) ->
    attached_to (RPool p op) <= get_account_balance (ctx_balance c) ->
    effect c s m (with_pool s p Busy d) (Some (mkPromise (RPool p op) g (Some (cb, g'))))
| E_vote poll :
    ctx_predecessor c = owner_account_id s ->
    transfers_information (lockup_information s) = TransfersDisabled poll -> not_terminating s ->
    effect c s CheckTransfersVote s
      (Some (mkPromise (RGetResult poll) G_GET_RESULT
               (Some (OnGetResultFromTransferPoll, G_ON_VOTING_GET_RESULT))))
| E_transfer a r liquid :
    ctx_predecessor c = owner_account_id s -> 0 < a -> is_valid_account_id r = true ->
    are_transfers_enabled s = true -> assert_no_staking_or_idle s = Ok tt -> not_terminating s ->
    get_liquid_owners_balance s (ctx_timestamp c) (ctx_balance c) = Ok liquid -> a <= liquid ->
    effect c s (Transfer a r) s (Some (mkPromise (RTransfer r a) 0 None))
| E_addkey pk :
    ctx_predecessor c = owner_account_id s ->
    are_transfers_enabled s = true -> assert_no_staking_or_idle s = Ok tt -> not_terminating s ->
    get_locked_amount s (ctx_timestamp c) = Ok 0 ->
    effect c s (AddFullAccessKey pk) s (Some (mkPromise (RAddFullAccessKey pk) 0 None))
| E_terminate f o vs u st :
    foundation_account_id s = Some f -> ctx_predecessor c = f ->
    assert_vesting c s o = Ok vs -> get_unvested_amount s (ctx_timestamp c) vs = Ok u -> 0 < u ->
    st = (if get_account_balance (ctx_balance c) <? u
          then if is_some (staking_information s) then VestingTerminatedWithDeficit else ReadyToWithdraw
          else ReadyToWithdraw) ->
    effect c s (TerminateVesting o) (with_term s u st) None
| E_prepare_unstake f p d u :
    foundation_account_id s = Some f -> ctx_predecessor c = f ->
    staking_information s = Some (mkStaking p Idle d) ->
    vesting_information s = VTerminating (mkTermination u VestingTerminatedWithDeficit) ->
    effect c s TerminationPrepareToWithdraw (with_pool (with_term s u UnstakingInProgress) p Busy d)
      (Some (mkPromise (RPool p PGetStaked) G_GET_ACCOUNT_STAKED_BALANCE
               (Some (OnGetAccountStakedBalanceToUnstake, G_ON_GET_ACCOUNT_STAKED_BALANCE_TO_UNSTAKE))))
| E_prepare_withdraw f p d u :
    foundation_account_id s = Some f -> ctx_predecessor c = f ->
    staking_information s = Some (mkStaking p Idle d) ->
    vesting_information s = VTerminating (mkTermination u EverythingUnstaked) ->
    effect c s TerminationPrepareToWithdraw
      (with_pool (with_term s u WithdrawingFromStakingPoolInProgress) p Busy d)
      (Some (mkPromise (RPool p PGetUnstaked) G_GET_ACCOUNT_UNSTAKED_BALANCE
               (Some (OnGetAccountUnstakedBalanceToWithdraw, G_ON_GET_ACCOUNT_UNSTAKED_BALANCE_TO_WITHDRAW))))
| E_withdraw_term f r u a :
    foundation_account_id s = Some f -> ctx_predecessor c = f -> is_valid_account_id r = true ->
    vesting_information s = VTerminating (mkTermination u ReadyToWithdraw) ->
    a = N.min u (get_account_balance (ctx_balance c)) -> 0 < a ->
    effect c s (TerminationWithdraw r) (with_term s u WithdrawingFromAccountInProgress)
      (Some (mkPromise (RTransfer r a) 0 (Some (OnWithdrawUnvestedAmount a r, G_ON_WITHDRAW_UNVESTED_AMOUNT))))
| E_selected pool l :
    ctx_predecessor c = ctx_current c -> ctx_results c = Some (ABool true) :: l ->
    staking_information s = None -> not_terminating s ->
    effect c s (OnWhitelistIsWhitelisted pool) (with_pool s pool Idle 0) None
| E_deposited m a x p st d :
    ctx_predecessor c = ctx_current c -> m = OnStakingPoolDeposit a \/ m = OnStakingPoolDepositAndStake a ->
    ctx_results c = [Some x] -> staking_information s = Some (mkStaking p st d) -> d + a < U128_BOUND ->
    effect c s m (with_pool s p Idle (d + a)) None
| E_withdrawn a x p st d :
    ctx_predecessor c = ctx_current c -> ctx_results c = [Some x] ->
    staking_information s = Some (mkStaking p st d) ->
    effect c s (OnStakingPoolWithdraw a) (with_pool s p Idle (d - a)) None
| E_only_status m r l p st d :
    ctx_predecessor c = ctx_current c -> ctx_results c = r :: l -> only_status m r = true ->
    staking_information s = Some (mkStaking p st d) ->
    effect c s m (with_pool s p Idle d) None
| E_refreshed x l p st d :
    ctx_predecessor c = ctx_current c -> ctx_results c = Some (ABalance x) :: l ->
    staking_information s = Some (mkStaking p st d) ->
    effect c s OnGetAccountTotalBalance (with_pool s p Idle x) None
| E_owner_continues x l p st d :
    ctx_predecessor c = ctx_current c -> ctx_results c = Some (ABalance x) :: l -> 0 < x ->
    staking_information s = Some (mkStaking p st d) ->
    effect c s OnGetAccountUnstakedBalanceToWithdrawByOwner s
      (Some (mkPromise (RPool p (PWithdraw x)) G_WITHDRAW
               (Some (OnStakingPoolWithdraw x, G_ON_STAKING_POOL_WITHDRAW))))
| E_poll_passed t l :
    ctx_predecessor c = ctx_current c -> ctx_results c = Some (APollResult (Some t)) :: l ->
    are_transfers_enabled s = false ->
    effect c s OnGetResultFromTransferPoll
      (set_lockup s (mkLockup (lockup_amount (lockup_information s))
         (termination_withdrawn_tokens (lockup_information s)) (lockup_duration (lockup_information s))
         (release_duration (lockup_information s)) (lockup_timestamp (lockup_information s))
         (TransfersEnabled t))) None
| E_poll_open l :
    ctx_predecessor c = ctx_current c -> ctx_results c = Some (APollResult None) :: l ->
    are_transfers_enabled s = false ->
    effect c s OnGetResultFromTransferPoll s None
| E_term_unstakes x l p st d :
    ctx_predecessor c = ctx_current c -> ctx_results c = Some (ABalance x) :: l -> 0 < x ->
    staking_information s = Some (mkStaking p st d) ->
    effect c s OnGetAccountStakedBalanceToUnstake s
      (Some (mkPromise (RPool p (PUnstake x)) G_UNSTAKE
               (Some (OnStakingPoolUnstakeForTermination x, G_ON_STAKING_POOL_UNSTAKE_FOR_TERMINATION))))
| E_term_nothing_staked l p st d u ts :
    ctx_predecessor c = ctx_current c -> ctx_results c = Some (ABalance 0) :: l ->
    staking_information s = Some (mkStaking p st d) ->
    vesting_information s = VTerminating (mkTermination u ts) ->
    effect c s OnGetAccountStakedBalanceToUnstake (with_term (with_pool s p Idle d) u EverythingUnstaked) None
| E_term_unstaked a r p st d u ts :
    ctx_predecessor c = ctx_current c -> ctx_results c = [r] ->
    staking_information s = Some (mkStaking p st d) ->
    vesting_information s = VTerminating (mkTermination u ts) ->
    effect c s (OnStakingPoolUnstakeForTermination a)
      (with_term (with_pool s p Idle d) u (if is_some r then EverythingUnstaked else VestingTerminatedWithDeficit))
      None
| E_term_withdraws x l p st d :
    ctx_predecessor c = ctx_current c -> ctx_results c = Some (ABalance x) :: l -> 0 < x ->
    staking_information s = Some (mkStaking p st d) ->
    effect c s OnGetAccountUnstakedBalanceToWithdraw s
      (Some (mkPromise (RPool p (PWithdraw x)) G_WITHDRAW
               (Some (OnStakingPoolWithdrawForTermination x, G_ON_STAKING_POOL_WITHDRAW_FOR_TERMINATION))))
| E_term_nothing_unstaked l p st d u ts :
    ctx_predecessor c = ctx_current c -> ctx_results c = Some (ABalance 0) :: l ->
    staking_information s = Some (mkStaking p st d) ->
    vesting_information s = VTerminating (mkTermination u ts) ->
    effect c s OnGetAccountUnstakedBalanceToWithdraw (with_term (with_pool s p Idle d) u ReadyToWithdraw) None
| E_term_withdrawn a x p st d u ts :
    ctx_predecessor c = ctx_current c -> ctx_results c = [Some x] ->
    staking_information s = Some (mkStaking p st d) ->
    vesting_information s = VTerminating (mkTermination u ts) ->
    effect c s (OnStakingPoolWithdrawForTermination a)
      (with_term (with_pool s p Idle (d - a)) u ReadyToWithdraw) None
| E_term_not_withdrawn a p st d u ts :
    ctx_predecessor c = ctx_current c -> ctx_results c = [None] ->
    staking_information s = Some (mkStaking p st d) ->
    vesting_information s = VTerminating (mkTermination u ts) ->
    effect c s (OnStakingPoolWithdrawForTermination a)
      (with_term (with_pool s p Idle d) u EverythingUnstaked) None
| E_paid a r x s' :
    ctx_predecessor c = ctx_current c -> ctx_results c = [Some x] ->
    termination_withdrawn_tokens (lockup_information s) + a < U128_BOUND ->
    s' = set_lockup s (mkLockup (lockup_amount (lockup_information s))
           (termination_withdrawn_tokens (lockup_information s) + a) (lockup_duration (lockup_information s))
           (release_duration (lockup_information s)) (lockup_timestamp (lockup_information s))
           (transfers_information (lockup_information s))) ->
    effect c s (OnWithdrawUnvestedAmount a r)
      (if a <? get_terminated_unvested_balance s
       then with_term s' (get_terminated_unvested_balance s - a) ReadyToWithdraw
       else set_vesting (set_foundation s' None) VNone) None
| E_not_paid a r u ts :
    ctx_predecessor c = ctx_current c -> ctx_results c = [None] ->
    vesting_information s = VTerminating (mkTermination u ts) ->
    effect c s (OnWithdrawUnvestedAmount a r) (with_term s u ReadyToWithdraw) None.

Lemma no_termination_ok s u : assert_no_termination s = Ok u -> not_terminating s.
Proof. unfold assert_no_termination, not_terminating. destruct (vesting_information s); auto; discriminate. Qed.
Lemma not_selected_ok s u : assert_staking_pool_is_not_selected s = Ok u -> staking_information s = None.
Proof. unfold assert_staking_pool_is_not_selected. destruct (staking_information s); auto; discriminate. Qed.
Lemma idle_ok s p : assert_staking_pool_is_idle s = Ok p ->
  exists d, staking_information s = Some (mkStaking p Idle d).
Proof.
  unfold assert_staking_pool_is_idle. destruct (staking_information s) as [[p' st d]|]; [|discriminate].
  cbn. destruct st; [|discriminate]. intros [= ->]. eauto.
Qed.
Lemma set_status_ok s st s' : set_staking_pool_status s st = Ok s' ->
  exists p st0 d, staking_information s = Some (mkStaking p st0 d) /\ s' = with_pool s p st d.
Proof.
  unfold set_staking_pool_status. destruct (staking_information s) as [[p st0 d]|]; [|discriminate].
  cbn. intros [= <-]. exists p, st0, d. auto.
Qed.
Lemma set_term_ok s st s' : set_termination_status s st = Ok s' ->
  exists u st0, vesting_information s = VTerminating (mkTermination u st0) /\ s' = with_term s u st.
Proof.
  unfold set_termination_status. destruct (vesting_information s) as [| | |[u st0]]; try discriminate.
  cbn. intros [= <-]. exists u, st0. auto.
Qed.
Lemma update_deposit_ok s f s' : update_deposit s f = Ok s' ->
  exists p st d d', staking_information s = Some (mkStaking p st d) /\ f d = Ok d' /\ s' = with_pool s p st d'.
Proof.
  unfold update_deposit. destruct (staking_information s) as [[p st d]|]; [|discriminate].
  cbn. destruct (f d) as [d'|] eqn:E; [|discriminate]. cbn. intros [= <-]. exists p, st, d, d'. auto.
Qed.
Lemma the_pool_ok s p : the_pool s = Ok p -> exists st d, staking_information s = Some (mkStaking p st d).
Proof.
  unfold the_pool. destruct (staking_information s) as [[p' st d]|]; [|discriminate].
  cbn. intros [= ->]. eauto.
Qed.
Lemma foundation_ok c s u : assert_called_by_foundation c s = Ok u ->
  exists f, foundation_account_id s = Some f /\ ctx_predecessor c = f.
Proof.
  unfold assert_called_by_foundation. destruct (foundation_account_id s) as [f|]; [|discriminate].
  intros H. inv_all. eauto.
Qed.
Lemma owner_ok c s u : assert_owner c s = Ok u -> ctx_predecessor c = owner_account_id s.
Proof. unfold assert_owner. intros H. inv_all. auto. Qed.
Lemma self_ok c u : assert_self c = Ok u -> ctx_predecessor c = ctx_current c.
Proof. unfold assert_self. intros H. inv_all. auto. Qed.
Lemma success_ok c b : is_promise_success c = Ok b -> exists r, ctx_results c = [r] /\ b = is_some r.
Proof.
  unfold is_promise_success. destruct (ctx_results c) as [|r [|]]; try discriminate.
  intros [= <-]. exists r. auto.
Qed.
Lemma callback_bool_ok c b : callback_bool c = Ok b -> exists l, ctx_results c = Some (ABool b) :: l.
Proof.
  unfold callback_bool, callback_arg. destruct (ctx_results c) as [|[a|] l]; try discriminate.
  cbn. destruct a; try discriminate. intros [= ->]. eauto.
Qed.
Lemma callback_balance_ok c b : callback_balance c = Ok b -> exists l, ctx_results c = Some (ABalance b) :: l.
Proof.
  unfold callback_balance, callback_arg. destruct (ctx_results c) as [|[a|] l]; try discriminate.
  cbn. destruct a; try discriminate. intros [= ->]. eauto.
Qed.
Lemma callback_poll_ok c b : callback_poll c = Ok b -> exists l, ctx_results c = Some (APollResult b) :: l.
Proof.
  unfold callback_poll, callback_arg. destruct (ctx_results c) as [|[a|] l]; try discriminate.
  cbn. destruct a; try discriminate. intros [= ->]. eauto.
Qed.

Ltac inv_calls :=
  repeat (inv_all; match goal with
  | H : assert_owner _ _ = Ok _ |- _ => apply owner_ok in H
  | H : assert_self _ = Ok _ |- _ => apply self_ok in H
  | H : assert_no_termination _ = Ok _ |- _ => apply no_termination_ok in H
  | H : assert_staking_pool_is_not_selected _ = Ok _ |- _ => apply not_selected_ok in H
  | H : assert_staking_pool_is_idle _ = Ok _ |- _ => apply idle_ok in H; destruct H as [? ?]
  | H : set_staking_pool_status _ _ = Ok _ |- _ => apply set_status_ok in H; destruct H as (? & ? & ? & ? & ?); subst
  | H : set_termination_status _ _ = Ok _ |- _ => apply set_term_ok in H; destruct H as (? & ? & ? & ?); subst
  | H : update_deposit _ _ = Ok _ |- _ => apply update_deposit_ok in H; destruct H as (? & ? & ? & ? & ? & ? & ?); subst
  | H : the_pool _ = Ok _ |- _ => apply the_pool_ok in H; destruct H as (? & ? & ?)
  | H : assert_called_by_foundation _ _ = Ok _ |- _ => apply foundation_ok in H; destruct H as (? & ? & ?)
  | H : assert_transfers_enabled _ = Ok _ |- _ => unfold assert_transfers_enabled in H
  | H : assert_transfers_disabled _ = Ok _ |- _ => unfold assert_transfers_disabled in H
  | H : is_promise_success _ = Ok _ |- _ => apply success_ok in H; destruct H as (? & ? & ?); subst
  | H : callback_bool _ = Ok _ |- _ => apply callback_bool_ok in H; destruct H as (? & ?)
  | H : callback_balance _ = Ok _ |- _ => apply callback_balance_ok in H; destruct H as (? & ?)
  | H : callback_poll _ = Ok _ |- _ => apply callback_poll_ok in H; destruct H as (? & ?)
  | H : ask _ _ _ _ _ = Ok _ |- _ => unfold ask in H; injection H; clear H; intros; subst
  | H : _ |- _ => progress cbn [staking_information vesting_information with_pool with_term set_staking set_vesting] in H
  end); inv_all.

Ltac same_pool :=
  repeat match goal with
  | H1 : staking_information ?s = Some _, H2 : staking_information ?s = Some _ |- _ =>
      rewrite H1 in H2; injection H2; clear H2; intros; subst
  | H1 : Some _ = Some _ |- _ => injection H1; clear H1; intros; subst
  | H1 : vesting_information ?s = VTerminating _, H2 : vesting_information ?s = VTerminating _ |- _ =>
      rewrite H1 in H2; injection H2; clear H2; intros; subst
  end.

Lemma with_pool_twice s p st d p' st' d' :
  with_pool (with_pool s p st d) p' st' d' = with_pool s p' st' d'.
Proof. reflexivity. Qed.
Lemma with_pool_term s u ts p st d : with_pool (with_term s u ts) p st d = with_term (with_pool s p st d) u ts.
Proof. reflexivity. Qed.

Ltac split_result H :=
  match type of H with context[is_some ?r] => destruct r as [v|] end; cbn [is_some] in H.

Ltac start := inv_calls; same_pool; eapply E_start;
  [eassumption|eassumption|assumption|reflexivity|cbn [attached_to]; first [assumption | apply N.le_0_l]].

Lemma exec_effect c s m s' p : exec c s m = Ok (s', p) -> effect c s m s' p.
Proof.
  unfold exec. intros H. inv_all.
  destruct m; cbv beta iota in H.
  - unfold select_staking_pool in H. inv_calls. now apply E_select.
  - unfold unselect_staking_pool in H. inv_calls.
    match goal with H1 : staking_information s = _, H2 : get_known_deposited_balance s = 0 |- _ =>
      unfold get_known_deposited_balance in H2; rewrite H1 in H2; cbn in H2; subst end.
    eapply E_unselect; eauto.
  - unfold deposit_to_staking_pool in H. start.
  - unfold deposit_and_stake in H. start.
  - unfold refresh_staking_pool_balance in H. start.
  - unfold withdraw_from_staking_pool in H. start.
  - unfold withdraw_all_from_staking_pool in H. start.
  - unfold stake in H. start.
  - unfold unstake in H. start.
  - unfold unstake_all in H. start.
  - unfold check_transfers_vote in H. inv_calls.
    destruct (transfers_information (lockup_information s)) eqn:Et; inv_calls. now apply E_vote.
  - unfold transfer in H. inv_calls. destruct x4. eapply E_transfer; eauto.
  - unfold add_full_access_key in H. inv_calls. destruct x2. subst. eapply E_addkey; eauto.
  - unfold terminate_vesting in H. inv_calls. eapply E_terminate; eauto.
    unfold sat_sub. destruct (N.ltb_spec 0 (x2 - get_account_balance (ctx_balance c)));
    destruct (N.ltb_spec (get_account_balance (ctx_balance c)) x2); try lia; cbn [andb];
    destruct (staking_information s); reflexivity.
  - unfold termination_prepare_to_withdraw in H. inv_calls.
    destruct (get_termination_status s) as [[]|] eqn:Et; inv_calls; same_pool;
    unfold get_termination_status in Et;
    match goal with Hv : vesting_information s = _ |- _ => rewrite Hv in Et; cbn in Et; injection Et as ->  end.
    + eapply E_prepare_unstake; eauto.
    + eapply E_prepare_withdraw; eauto.
  - unfold termination_withdraw in H. cbv zeta in H. inv_calls.
    destruct (get_termination_status s) as [[]|] eqn:Et; try discriminate.
    unfold get_termination_status in Et.
    match goal with Hv : vesting_information s = _ |- _ =>
      rewrite Hv in Et; cbn in Et; injection Et as ->; rename Hv into Hvest end.
    eapply E_withdraw_term; eauto; unfold get_terminated_unvested_balance in *; rewrite Hvest in *; auto.
  - unfold on_whitelist_is_whitelisted in H. inv_calls. subst. eapply E_selected; eauto.
  - unfold on_staking_pool_deposit in H. inv_calls. split_result H; inv_calls; same_pool.
    + rewrite with_pool_twice; eapply E_deposited; eauto.
    + eapply E_only_status; eauto.
  - unfold on_staking_pool_deposit_and_stake in H. inv_calls.
    split_result H; inv_calls; same_pool.
    + rewrite with_pool_twice; eapply E_deposited; eauto.
    + eapply E_only_status; eauto.
  - unfold on_staking_pool_withdraw in H. inv_calls.
    split_result H; inv_calls; same_pool.
    + rewrite with_pool_twice; eapply E_withdrawn; eauto.
    + eapply E_only_status; eauto.
  - unfold on_staking_pool_stake in H. inv_calls. eapply E_only_status; eauto.
  - unfold on_staking_pool_unstake in H. inv_calls. eapply E_only_status; eauto.
  - unfold on_staking_pool_unstake_all in H. inv_calls. eapply E_only_status; eauto.
  - unfold on_get_result_from_transfer_poll in H. inv_calls.
    destruct x0 as [t|]; inv_calls; [eapply E_poll_passed|eapply E_poll_open]; eauto.
  - unfold on_get_account_total_balance in H. inv_calls. same_pool. rewrite with_pool_twice; eapply E_refreshed; eauto.
  - unfold on_get_account_unstaked_balance_to_withdraw_by_owner in H. inv_calls.
    destruct (N.ltb_spec 0 x0); cbv iota in H; inv_calls.
    + eapply E_owner_continues; eauto.
    + eapply E_only_status; eauto. cbn. apply N.eqb_eq. lia.
  - unfold on_get_account_staked_balance_to_unstake in H. inv_calls.
    destruct (N.ltb_spec 0 x0); cbv iota in H; inv_calls.
    + eapply E_term_unstakes; eauto.
    + replace x0 with 0 in * by lia. eapply E_term_nothing_staked; eauto.
  - unfold on_staking_pool_unstake_for_termination in H. inv_calls. eapply E_term_unstaked; eauto.
  - unfold on_get_account_unstaked_balance_to_withdraw in H. inv_calls.
    destruct (N.ltb_spec 0 x0); cbv iota in H; inv_calls.
    + eapply E_term_withdraws; eauto.
    + replace x0 with 0 in * by lia. eapply E_term_nothing_unstaked; eauto.
  - unfold on_staking_pool_withdraw_for_termination in H. inv_calls.
    split_result H; inv_calls; same_pool.
    + rewrite with_pool_term, with_pool_twice; eapply E_term_withdrawn; eauto.
    + eapply E_term_not_withdrawn; eauto.
  - unfold on_withdraw_unvested_amount in H. inv_calls.
    split_result H; inv_calls.
    + change (get_terminated_unvested_balance (set_lockup s _)) with (get_terminated_unvested_balance s) in H.
      pose proof (E_paid c s amount receiver v _ E0 ltac:(eassumption) ltac:(eassumption) eq_refl) as Hp.
      destruct (amount <? get_terminated_unvested_balance s) eqn:Ha; inv_calls; exact Hp.
    + eapply E_not_paid; eauto.
Qed.
