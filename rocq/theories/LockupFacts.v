(** Facts about single calls of the lockup contract, and the properties of histories in the form in which they
    are stated in LockupProps. *)
From Coq Require Import NArith List Bool String Lia.
From Verif Require Import Prelude PreludeFacts MapFacts LockupModel LockupWorld LockupSpec LockupMath LockupEffects
  LockupInv LockupMoves LockupLocked LockupBusy LockupTerm LockupHist LockupLive.
Import ListNotations.
Open Scope N_scope.

(** * Single calls *)
Lemma ok_effect c s m s' p : exec c s m = Ok (s', p) -> ctx_attached c = 0 /\ effect c s m s' p.
Proof.
  intros H. split; [|now apply exec_effect]. unfold exec, require in H. destruct (N.eqb_spec (ctx_attached c) 0); [assumption|discriminate].
Qed.

Lemma owner_frozen c s m : owner_method m = true -> get_termination_status s <> None -> exists e, exec c s m = Panic e.
Proof.
  intros Hm Ht. destruct (exec c s m) as [[s' p]|e] eqn:E; [|eauto]. exfalso.
  apply ok_effect in E. destruct E as [_ He].
  assert (Hn : not_terminating s -> False).
  { unfold not_terminating, get_termination_status in *. destruct (vesting_information s); auto. }
  inversion He; subst; try discriminate; auto;
  try (match goal with H : only_status ?m _ = true |- _ => destruct m; discriminate end);
  match goal with H : _ \/ _ |- _ => destruct H; subst; discriminate end.
Qed.

Lemma caller_checked c s m s' p : exec c s m = Ok (s', p) ->
  ctx_attached c = 0 /\
  if owner_method m then ctx_predecessor c = owner_account_id s
  else if foundation_method m then foundation_account_id s = Some (ctx_predecessor c)
  else ctx_predecessor c = ctx_current c.
Proof.
  intros H. apply ok_effect in H. destruct H as [Ha He]. split; [exact Ha|].
  inversion He; subst; cbn [owner_method foundation_method]; auto;
  try (destruct m; cbn in *; try discriminate; auto; fail);
  match goal with H : _ \/ _ |- _ => destruct H; subst; cbn; assumption end.
Qed.

Lemma add_key_only c s m s' p pk :
  exec c s m = Ok (s', Some p) -> p_remote p = RAddFullAccessKey pk -> m = AddFullAccessKey pk.
Proof.
  intros H Hp. apply ok_effect in H. destruct H as [_ He].
  inversion He; subst; cbn in Hp; try discriminate; congruence.
Qed.

Lemma add_key_accepted c s pk : well_formed s ->
  exec c s (AddFullAccessKey pk) = Ok (s, Some (mkPromise (RAddFullAccessKey pk) 0 None)) <->
  ctx_attached c = 0 /\ ctx_predecessor c = owner_account_id s /\ are_transfers_enabled s = true /\
  busy s = false /\ get_termination_status s = None /\ locked s (ctx_timestamp c) = 0.
Proof.
  intros Hwf. unfold exec, add_full_access_key, assert_owner, assert_transfers_enabled, assert_no_staking_or_idle,
    assert_no_termination, require, busy, get_termination_status.
  rewrite (get_locked_ok _ _ Hwf).
  destruct (N.eqb_spec (ctx_attached c) 0); cbn [bind]; [|split; [discriminate|intros (? & _); congruence]].
  destruct (String.eqb_spec (ctx_predecessor c) (owner_account_id s)); cbn [bind]; [|split; [discriminate|intros (_ & ? & _); congruence]].
  destruct (are_transfers_enabled s); cbn [bind]; [|split; [discriminate|intros (_ & _ & ? & _); congruence]].
  destruct (staking_information s) as [[q [] d]|]; cbn [bind status]; try (split; [discriminate|intros (_ & _ & _ & ? & _); congruence]);
  destruct (vesting_information s); cbn [bind]; try (split; [discriminate|intros (_ & _ & _ & _ & ? & _); congruence]);
  destruct (N.eqb_spec (locked s (ctx_timestamp c)) 0); cbn [bind]; try (split; [discriminate|intros (_ & _ & _ & _ & _ & ?); congruence]);
  split; auto 10.
Qed.

Lemma add_key_ok c s pk s' p : exec c s (AddFullAccessKey pk) = Ok (s', p) ->
  s' = s /\ p = Some (mkPromise (RAddFullAccessKey pk) 0 None).
Proof. intros H. apply ok_effect in H. destruct H as [_ He]. inversion He; subst; try discriminate; auto. 
  match goal with H : _ \/ _ |- _ => destruct H; discriminate end. Qed.

Lemma liquid_ok s now balance : well_formed s -> balance + get_known_deposited_balance s < U128_BOUND ->
  get_liquid_owners_balance s now balance = Ok (liquid s now balance).
Proof.
  intros Hwf Hb. unfold get_liquid_owners_balance, get_owners_balance. rewrite (get_locked_ok _ _ Hwf).
  unfold add128. rewrite add_chk_intro by exact Hb. reflexivity.
Qed.

Lemma transfer_accepted c s a r : well_formed s -> ctx_balance c + get_known_deposited_balance s < U128_BOUND ->
  exec c s (Transfer a r) = Ok (s, Some (mkPromise (RTransfer r a) 0 None)) <->
  ctx_attached c = 0 /\ ctx_predecessor c = owner_account_id s /\ 0 < a /\ is_valid_account_id r = true /\
  are_transfers_enabled s = true /\ busy s = false /\ get_termination_status s = None /\
  a <= liquid s (ctx_timestamp c) (ctx_balance c).
Proof.
  intros Hwf Hb. unfold exec, transfer, assert_owner, assert_transfers_enabled, assert_no_staking_or_idle,
    assert_no_termination, require, busy, get_termination_status.
  rewrite (liquid_ok _ _ _ Hwf Hb).
  destruct (N.eqb_spec (ctx_attached c) 0); cbn [bind]; [|split; [discriminate|intros (? & _); congruence]].
  destruct (String.eqb_spec (ctx_predecessor c) (owner_account_id s)); cbn [bind]; [|split; [discriminate|intros (_ & ? & _); congruence]].
  destruct (N.ltb_spec 0 a); cbn [bind]; [|split; [discriminate|intros (_ & _ & ? & _); lia]].
  destruct (is_valid_account_id r); cbn [bind]; [|split; [discriminate|intros (_ & _ & _ & ? & _); congruence]].
  destruct (are_transfers_enabled s); cbn [bind]; [|split; [discriminate|intros (_ & _ & _ & _ & ? & _); congruence]].
  destruct (staking_information s) as [[q [] d]|]; cbn [bind status]; try (split; [discriminate|intros (_ & _ & _ & _ & _ & ? & _); congruence]);
  destruct (vesting_information s); cbn [bind]; try (split; [discriminate|intros (_ & _ & _ & _ & _ & _ & ? & _); congruence]);
  destruct (N.leb_spec a (liquid s (ctx_timestamp c) (ctx_balance c))); cbn [bind];
  try (split; [discriminate|intros (_ & _ & _ & _ & _ & _ & _ & ?); lia]);
  split; auto 10.
Qed.

Lemma transfer_ok c s a r s' p : exec c s (Transfer a r) = Ok (s', p) ->
  s' = s /\ p = Some (mkPromise (RTransfer r a) 0 None) /\ are_transfers_enabled s = true /\
  exists l, get_liquid_owners_balance s (ctx_timestamp c) (ctx_balance c) = Ok l /\
    a <= l /\ a + MIN_BALANCE_FOR_STORAGE <= ctx_balance c.
Proof.
  intros H. apply ok_effect in H. destruct H as [_ He]. inversion He; subst; try discriminate.
  - split; [reflexivity|]. split; [reflexivity|]. split; [assumption|]. eexists. split; [eassumption|]. split; [assumption|].
    match goal with H : get_liquid_owners_balance _ _ _ = _ |- _ => unfold get_liquid_owners_balance in H; inv_res end.
    unfold get_account_balance, sat_sub in *. lia.
  - match goal with H : _ \/ _ |- _ => destruct H; discriminate end.
Qed.

(** Transfers by the owner and payments to the foundation are the only ones. *)
Lemma transfer_only c s m s' p r a :
  exec c s m = Ok (s', Some p) -> p_remote p = RTransfer r a ->
  m = Transfer a r \/ m = TerminationWithdraw r /\ get_termination_status s = Some ReadyToWithdraw /\
    a <= get_terminated_unvested_balance s /\ a + MIN_BALANCE_FOR_STORAGE <= ctx_balance c.
Proof.
  intros H Hp. apply ok_effect in H. destruct H as [_ He].
  inversion He; subst; cbn in Hp; try discriminate; injection Hp as <- <-; [left; reflexivity|right].
  match goal with H : vesting_information s = _ |- _ => unfold get_termination_status, get_terminated_unvested_balance; rewrite H end.
  cbn. unfold get_account_balance, sat_sub in *. repeat split; lia.
Qed.

(** * Gas *)
Ltac open_exec H :=
  unfold exec, select_staking_pool, unselect_staking_pool, deposit_to_staking_pool, deposit_and_stake,
    refresh_staking_pool_balance, withdraw_from_staking_pool, withdraw_all_from_staking_pool, stake, unstake,
    unstake_all, check_transfers_vote, transfer, add_full_access_key, terminate_vesting,
    termination_prepare_to_withdraw, termination_withdraw, on_whitelist_is_whitelisted, on_staking_pool_deposit,
    on_staking_pool_deposit_and_stake, on_staking_pool_withdraw, on_staking_pool_stake, on_staking_pool_unstake,
    on_staking_pool_unstake_all, on_get_result_from_transfer_poll, on_get_account_total_balance,
    on_get_account_unstaked_balance_to_withdraw_by_owner, on_get_account_staked_balance_to_unstake,
    on_staking_pool_unstake_for_termination, on_get_account_unstaked_balance_to_withdraw,
    on_staking_pool_withdraw_for_termination, on_withdraw_unvested_amount, ask in H.

(** The gas every callback is given, wherever it is scheduled. *)
Definition callback_gas (m : call) : N :=
  match m with
  | OnGetAccountUnstakedBalanceToWithdrawByOwner | OnGetAccountStakedBalanceToUnstake
  | OnGetAccountUnstakedBalanceToWithdraw => 125000000000000
  | _ => 25000000000000
  end.

Lemma gas_method c s m s' p : exec c s m = Ok (s', Some p) ->
  (owner_method m || foundation_method m = true -> chain_gas p <= gas_requirement m) /\
  (owner_method m || foundation_method m = false -> chain_gas p <= callback_gas m) /\
  match p_then p with Some (cb, g) => owner_method cb || foundation_method cb = false /\ g = callback_gas cb | None => True end.
Proof.
  intros H. destruct m; open_exec H.
  all: repeat (match type of H with
    | context[if ?b then _ else _] => destruct b
    | context[match ?x with _ => _ end] => destruct x
    | bind ?x _ = _ => destruct x; cbn [bind] in H
    end; try discriminate H).
  all: try (injection H as <- <-); try discriminate.
  all: unfold chain_gas; cbn; repeat split; try discriminate; intros; try discriminate; vm_compute; try discriminate.
Qed.

Lemma gas_chain c s m s' p c2 s2 cb g s2' p2 :
  exec c s m = Ok (s', Some p) -> p_then p = Some (cb, g) -> exec c2 s2 cb = Ok (s2', Some p2) ->
  chain_gas p2 <= g.
Proof.
  intros H Hp H2. apply gas_method in H. destruct H as (_ & _ & H). rewrite Hp in H. destruct H as [H ->].
  apply gas_method in H2. apply H2, H.
Qed.

(** * Creation *)
Lemma schedule_defined c e ow du ti tr vs re wl fo s now :
  new c e ow du ti tr (Some (ArgSchedule vs)) re wl fo = Ok s ->
  ctx_balance c < U128_BOUND -> sane vs ->
  get_unvested_amount s now vs = Ok (not_vested (lockup_amount (lockup_information s)) vs now) /\
  not_vested (lockup_amount (lockup_information s)) vs now <= lockup_amount (lockup_information s).
Proof.
  intros H Hb Hs. apply new_ok in H. destruct H as (-> & _).
  split; [apply get_unvested_ok; cbn; auto|]. apply not_vested_le. exact Hs.
Qed.

(** * Histories *)
Lemma reachable_well_formed g w0 evs : starts g w0 -> public_schedule_sane (w_lockup w0) -> all_reveals_covered g w0 evs ->
  well_formed (w_lockup (final g w0 evs)).
Proof.
  intros H0 Hs Hr. apply c_wf. apply covered_final; auto; [exact (inv_start g w0 H0)|]. now apply (covered_start g).
Qed.

Lemma locked_never_grows s t t' : well_formed s -> t <= t' ->
  exists a a', get_locked_amount s t = Ok a /\ get_locked_amount s t' = Ok a' /\ a' <= a.
Proof.
  intros H Ht. exists (locked s t), (locked s t'). rewrite !get_locked_ok by exact H. auto using locked_mono.
Qed.

Lemma locked_within s now : well_formed s ->
  exists a, get_locked_amount s now = Ok a /\
    a + termination_withdrawn_tokens (lockup_information s) <= lockup_amount (lockup_information s).
Proof. intros H. exists (locked s now). rewrite get_locked_ok by exact H. auto using locked_le. Qed.

Lemma all_unlocked s now e : well_formed s ->
  lockup_end (lockup_information s) = Some e -> e <= now ->
  match release_duration (lockup_information s) with Some d => later e d <= now | None => True end ->
  match vesting_information s with VSchedule vs => end_timestamp vs <= now | VTerminating _ => False | _ => True end ->
  get_locked_amount s now = Ok 0.
Proof.
  intros H He Hn Hr Hv. rewrite get_locked_ok by exact H. f_equal. pose proof (wf_vesting s H) as Hw.
  unfold locked. rewrite He. destruct (N.ltb_spec now e); [lia|].
  unfold not_released, held_by_vesting. destruct (release_duration _) as [d|].
  - destruct (N.ltb_spec now (later e d)); [lia|]. destruct (vesting_information s) as [|h|vs|ti]; try contradiction; auto.
    destruct Hw as [(S1 & S2 & S3 & S4) _]. unfold not_vested. destruct (N.ltb_spec now (cliff_timestamp vs)); [lia|]. destruct (N.ltb_spec now (end_timestamp vs)); [lia|reflexivity].
  - destruct (vesting_information s) as [|h|vs|ti]; try contradiction; auto.
    destruct Hw as [(S1 & S2 & S3 & S4) _]. unfold not_vested. destruct (N.ltb_spec now (cliff_timestamp vs)); [lia|]. destruct (N.ltb_spec now (end_timestamp vs)); [lia|reflexivity].
Qed.

Lemma never_below_locked g w0 evs :
  starts g w0 -> public_schedule_sane (w_lockup w0) -> all_reveals_covered g w0 evs ->
  let w := final g w0 evs in
  exists a, get_locked_amount (w_lockup w) (w_time w) = Ok a /\
    a <= controlled w + total to_foundation_pending (w_msgs w).
Proof.
  intros H0 Hs Hr w. exists (locked (w_lockup w) (w_time w)).
  assert (HI : inv w) by (apply inv_final; exact (inv_start g w0 H0)).
  assert (HC : covered w) by (apply covered_final; auto; [exact (inv_start g w0 H0)|now apply (covered_start g)]).
  split; [apply get_locked_ok, c_wf, HC|]. now apply locked_covered.
Qed.

Lemma one_operation g w0 evs : starts g w0 -> (outstanding (final g w0 evs) <= 1)%nat.
Proof. intros H0. apply outstanding_le, inv_final, (inv_start g w0 H0). Qed.
Lemma busy_while_outstanding g w0 evs : starts g w0 -> views_answer g w0 evs ->
  busy (w_lockup (final g w0 evs)) = true <-> outstanding (final g w0 evs) = 1%nat.
Proof.
  intros H0 Hv. pose proof (inv_start g w0 H0) as HI. apply busy_iff; [apply inv_final, HI|].
  apply steady_final; auto. exact (steady_start g w0 H0).
Qed.

Lemma owner_frozen_step g w who att m :
  owner_method m = true -> get_termination_status (w_lockup w) <> None -> step g w (ECall who att m) = w.
Proof.
  intros Hm Ht. unfold step, step_obs. destruct (String.eqb who (g_self g)); [reflexivity|].
  unfold run. match goal with |- context[exec ?c ?s m] => destruct (owner_frozen c s m Hm Ht) as [e ->] end. reflexivity.
Qed.

Lemma status_follows g w0 evs ev : starts g w0 ->
  let a := get_termination_status (w_lockup (final g w0 evs)) in
  let b := get_termination_status (w_lockup (final g w0 (evs ++ [ev]))) in
  b = a \/ documented a b = true.
Proof. intros H0. cbv zeta. rewrite final_app. cbn. apply status_step, inv_final, (inv_start g w0 H0). Qed.

Lemma termination_over g w0 evs ev ti : starts g w0 ->
  let w := final g w0 evs in
  vesting_information (w_lockup w) = VTerminating ti ->
  get_termination_status (w_lockup (step g w ev)) = None ->
  vesting_information (w_lockup (step g w ev)) = VNone /\
  exists n r x, ev = ERun n /\
    nth_error (w_msgs w) n = Some (MBack (OnWithdrawUnvestedAmount (unvested_amount ti) r) (Some x)).
Proof.
  intros H0 w Hv Hs. destruct (leaves_terminating g w ev ti) as (A & _ & B); auto.
  { apply inv_final, (inv_start g w0 H0). }
  intros ti' E. unfold get_termination_status in Hs. rewrite E in Hs. discriminate.
Qed.

Lemma transfers_stay_enabled g w0 evs evs' t : starts g w0 ->
  transfers_information (lockup_information (w_lockup (final g w0 evs))) = TransfersEnabled t ->
  transfers_information (lockup_information (w_lockup (final g w0 (evs ++ evs')))) = TransfersEnabled t.
Proof. intros H0 Ht. rewrite final_app. apply transfers_stay; auto. apply inv_final, (inv_start g w0 H0). Qed.

(** ** Operations end *)
Lemma work_bound w : inv w -> work w <= 4.
Proof.
  intros HI. pose proof (i_one w HI) as H1. unfold work. revert H1. induction (w_msgs w) as [|m l IH]; cbn; [lia|].
  change (fold_right (fun x n => scnt x + n) 0 l) with (total scnt l).
  change (fold_right (fun x n => work_of x + n) 0 l) with (total work_of l). intros H1.
  assert (Hm : work_of m <= 4 /\ (scnt m = 0 -> work_of m = 0) /\ (scnt m = 0 \/ scnt m = 1)).
  { unfold scnt. destruct m as [[]|cb r|]; cbn; try destruct (is_view op); try (destruct cb; cbn); repeat split; auto; lia. }
  destruct Hm as (M1 & M2 & [M3|M3]).
  - rewrite M2 by exact M3. specialize (IH ltac:(lia)). lia.
  - assert (Hz : total scnt l = 0) by lia. assert (Hw : total work_of l = 0); [|lia].
    clear IH H1 M1 M2 M3. induction l as [|x l IH]; [reflexivity|]. cbn in *.
    change (fold_right (fun x n => scnt x + n) 0 l) with (total scnt l) in *.
    change (fold_right (fun x n => work_of x + n) 0 l) with (total work_of l).
    rewrite IH by lia. assert (Hx : scnt x = 0) by lia. revert Hx. unfold scnt.
    destruct x as [[]|cb r|]; cbn; try destruct (is_view op); try (destruct cb; cbn); lia.
Qed.

Lemma operation_ends g w0 evs : starts g w0 -> views_answer g w0 evs ->
  let w := final g w0 evs in
  work w <= 4 /\ (busy (w_lockup w) = false <-> work w = 0) /\
  (busy (w_lockup w) = true ->
   (exists n m, nth_error (w_msgs w) n = Some m /\ staking_msg m = true) /\
   (forall ev, work (step g w ev) <= work w) /\
   (forall n o r cb, nth_error (w_msgs w) n = Some (MCall r cb) -> staking_msg (MCall r cb) = true ->
      execute w r cb o <> None -> work (step g w (EDeliver n o)) < work w) /\
   (forall n cb r, nth_error (w_msgs w) n = Some (MBack cb r) -> staking_msg (MBack cb r) = true ->
      work (step g w (ERun n)) < work w)).
Proof.
  intros H0 Hv w. pose proof (inv_start g w0 H0) as HI0.
  assert (HI : inv w) by now apply inv_final.
  assert (HS : steady w) by (apply steady_final; auto; exact (steady_start g w0 H0)).
  split; [now apply work_bound|]. split; [now apply idle_work|]. intros Hb.
  split; [now apply outstanding_message|]. split; [intros ev; now apply work_step|].
  split; [intros; eapply work_deliver; eauto|intros; eapply work_run; eauto].
Qed.

Lemma stays_busy g w0 evs : starts g w0 -> busy (w_lockup (final g w0 evs)) = true ->
  outstanding (final g w0 evs) = 0%nat ->
  forall evs', busy (w_lockup (final g w0 (evs ++ evs'))) = true.
Proof.
  intros H0 Hb Ho evs'. rewrite final_app. apply stuck_final.
  - apply inv_final, (inv_start g w0 H0).
  - split; [exact Hb|]. unfold outstanding in Ho. revert Ho.
    generalize (w_msgs (final g w0 evs)). induction l as [|m l IH]; [reflexivity|]. cbn. unfold scnt at 1.
    destruct (staking_msg m); cbn; [discriminate|]. intros H. now apply IH.
Qed.

(** * Receivers that do what they are asked to *)
Definition honest (w : world) (r : remote) : outcome :=
  match r with
  | RIsWhitelisted _ _ => OBool true
  | RGetResult _ => OPoll None
  | RPool p op =>
      let '(s, u) := w_pools w p in
      let ok b s' u' := if b && (s + u <? U128_BOUND) && (s' + u' <? U128_BOUND) then OPool s' u' else OFail in
      match op with
      | PDeposit a => ok true s (u + a)
      | PDepositAndStake a => ok true (s + a) u
      | PWithdraw a => ok (a <=? u) s (u - a)
      | PStake a => ok (a <=? u) (s + a) (u - a)
      | PUnstake a => ok (a <=? s) (s - a) (u + a)
      | PUnstakeAll => ok true 0 (s + u)
      | PGetStaked | PGetUnstaked | PGetTotal => OView
      end
  | RTransfer _ _ | RAddFullAccessKey _ => ODone
  end.

Lemma honest_cooperative : cooperative honest.
Proof.
  split.
  - intros w r cb. destruct r as [wl p|poll|p op|rc a|pk]; cbn; try discriminate.
    destruct (w_pools w p) as [s u] eqn:Ep.
    destruct op; cbn; try discriminate;
    match goal with |- context[if ?b then _ else _] => destruct b eqn:Hb end; cbn; try discriminate;
    repeat match goal with H : _ && _ = true |- _ => apply andb_true_iff in H; destruct H end;
    rewrite Ep; cbn; norm_bool;
    match goal with |- context[if ?b then _ else _] => destruct b eqn:Hk end; try discriminate;
    exfalso; repeat match goal with H : _ && _ = false |- _ => apply andb_false_iff in H; destruct H end; norm_bool; lia.
  - intros w p op Hv. cbn. destruct (w_pools w p). destruct op; try discriminate; reflexivity.
  - intros w p a Ha Hb. cbn. destruct (w_pools w p) as [s u]. cbn in *. apply N.leb_le in Ha as Hl. apply N.ltb_lt in Hb as Hl'.
    rewrite Hl, Hl'. replace (s - a + (u + a)) with (s + u) by lia. rewrite Hl'. cbn. eauto.
  - intros w p a s u. cbn. destruct (w_pools w p) as [s0 u0]. cbn.
    match goal with |- context[if ?b then _ else _] => destruct b eqn:Hb end; [|discriminate]. intros [= <- <-]. lia.
  - intros w p a Ha Hb. cbn. destruct (w_pools w p) as [s u]. cbn in *. apply N.leb_le in Ha as Hl. apply N.ltb_lt in Hb as Hl'.
    rewrite Hl, Hl'. cbn. replace (s + (u - a) <? U128_BOUND) with true by (symmetry; apply N.ltb_lt; lia). eauto.
  - reflexivity.
Qed.

Lemma add_key_checked c s m s' p pk :
  exec c s m = Ok (s', Some p) -> p_remote p = RAddFullAccessKey pk ->
  m = AddFullAccessKey pk /\ ctx_attached c = 0 /\ ctx_predecessor c = owner_account_id s /\
  are_transfers_enabled s = true /\ busy s = false /\ get_termination_status s = None /\
  get_locked_amount s (ctx_timestamp c) = Ok 0.
Proof.
  intros H Hp. apply ok_effect in H. destruct H as [Ha He].
  inversion He; subst; cbn in Hp; try discriminate. injection Hp as <-.
  split; [reflexivity|]. split; [exact Ha|]. split; [assumption|]. split; [assumption|].
  unfold busy, get_termination_status, not_terminating, assert_no_staking_or_idle in *.
  split; [|split; [destruct (vesting_information s'); auto; contradiction|assumption]].
  destruct (staking_information s') as [[q [] d]|]; auto; discriminate.
Qed.

Lemma lockup_created_iff c ex owner duration timestamp transfers vesting release whitelist foundation :
  is_ok (new c ex owner duration timestamp transfers vesting release whitelist foundation) = true <->
  ctx_attached c = 0 /\ ex = false /\ is_valid_account_id owner = true /\ is_valid_account_id whitelist = true /\
  match transfers with TransfersDisabled p => is_valid_account_id p = true | TransfersEnabled _ => True end /\
  match vesting, foundation with
  | None, None => True
  | Some _, Some f => is_valid_account_id f = true
  | _, _ => False
  end.
Proof.
  unfold new, require.
  destruct (N.eqb_spec (ctx_attached c) 0); cbn [bind is_ok]; [|split; [discriminate|tauto]].
  destruct ex; cbn [negb bind is_ok]; [split; [discriminate|intros (_ & X & _); discriminate]|].
  destruct (is_valid_account_id owner); cbn [bind is_ok]; [|split; [discriminate|intros (_ & _ & X & _); discriminate]].
  destruct (is_valid_account_id whitelist); cbn [bind is_ok]; [|split; [discriminate|intros (_ & _ & _ & X & _); discriminate]].
  assert (T : match transfers with TransfersDisabled p => is_valid_account_id p | _ => true end = true <->
              match transfers with TransfersDisabled p => is_valid_account_id p = true | TransfersEnabled _ => True end).
  { destruct transfers; tauto. }
  destruct (match transfers with TransfersDisabled p => is_valid_account_id p | _ => true end) eqn:ET; cbn [bind is_ok].
  2: { split; [discriminate|]. intros (_ & _ & _ & _ & X & _). apply T in X. discriminate. }
  destruct vesting as [[h|vs]|], foundation as [f|]; cbn [bind is_ok expect]; try (split; [discriminate|tauto]); try tauto;
  destruct (is_valid_account_id f); cbn [bind is_ok]; try tauto; split; try discriminate; intros (_ & _ & _ & _ & _ & X); discriminate.
Qed.

Lemma lockup_created c ex owner duration timestamp transfers vesting release whitelist foundation s :
  new c ex owner duration timestamp transfers vesting release whitelist foundation = Ok s ->
  get_owner_account_id s = owner /\ staking_pool_whitelist_account_id s = whitelist /\
  foundation_account_id s = foundation /\
  get_staking_pool_account_id s = None /\ get_known_deposited_balance s = 0 /\
  lockup_information s = mkLockup (ctx_balance c) 0 duration release timestamp transfers /\
  get_vesting_information s = match vesting with
                              | None => VNone
                              | Some (ArgHash h) => VHash h
                              | Some (ArgSchedule vs) => VSchedule vs
                              end.
Proof.
  unfold new. intros E. inv_res. cbn.
  destruct vesting as [[h|vs]|]; cbn in *; inv_res; auto 10;
  repeat match goal with H : Ok _ = Ok _ |- _ => injection H as <- end; auto 10.
Qed.
