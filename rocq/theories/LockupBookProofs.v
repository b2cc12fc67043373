(** The lockup contract answers every call as the agreement of LockupBook says. *)
From Coq Require Import NArith List Bool String Lia.
From Verif Require Import Prelude PreludeFacts LockupModel LockupWorld LockupSpec LockupMath LockupInv LockupLocked
  LockupFacts LockupBook.
Import ListNotations.
Open Scope N_scope.

(** * The amount not vested *)
Lemma unvested_exact s now vs : lockup_amount (lockup_information s) < U128_BOUND -> end_timestamp vs < U64_BOUND ->
  match vesting_information s with VSchedule _ | VHash _ => True | _ => False end ->
  match get_unvested_amount s now vs with
  | Ok u => defined (lockup_amount (lockup_information s)) vs now = true /\
            u = not_vested (lockup_amount (lockup_information s)) vs now
  | Panic _ => defined (lockup_amount (lockup_information s)) vs now = false
  end.
Proof.
  intros HL HE Hv.
  assert (E : get_unvested_amount s now vs =
    (if now <? cliff_timestamp vs then Ok (lockup_amount (lockup_information s))
      else if end_timestamp vs <=? now then Ok 0
      else
        let! time_left := sub_chk (end_timestamp vs) now in
        let! total_time := sub_chk (end_timestamp vs) (start_timestamp vs) in
        let! m := mul256 (lockup_amount (lockup_information s)) time_left in
        let! q := div_chk m total_time in
        as_u128 q)).
  { unfold get_unvested_amount. destruct (vesting_information s); try contradiction; reflexivity. }
  rewrite E. clear E Hv. unfold defined, not_vested. set (A := lockup_amount (lockup_information s)) in *.
  destruct (N.ltb_spec now (cliff_timestamp vs)); [auto|].
  destruct (N.leb_spec (end_timestamp vs) now); destruct (N.ltb_spec now (end_timestamp vs)); try lia; cbn [orb]; auto.
  rewrite (sub_chk_intro _ now) by lia. cbn [bind].
  destruct (N.ltb_spec (start_timestamp vs) (end_timestamp vs)); cbn [andb].
  - rewrite sub_chk_intro by lia. cbn [bind]. rewrite mul256_ok by lia. cbn [bind].
    rewrite div_chk_intro by lia. cbn [bind]. unfold as_u128, fits.
    destruct (A * (end_timestamp vs - now) / (end_timestamp vs - start_timestamp vs) <? U128_BOUND); auto.
  - unfold sub_chk. destruct (N.leb_spec (start_timestamp vs) (end_timestamp vs)); [|reflexivity].
    cbn [bind]. rewrite mul256_ok by lia. cbn [bind]. unfold div_chk.
    replace (end_timestamp vs - start_timestamp vs) with 0 by lia. reflexivity.
Qed.

Lemma deficit_stage u x b : (0 <? u - x) && b = b && (x <? u).
Proof. destruct (N.ltb_spec 0 (u - x)), (N.ltb_spec x u), b; try reflexivity; lia. Qed.

Ltac reduce :=
  cbn [bind answered option_map fst snd p_remote p_then staking_pool_account_id status deposit_amount andb orb negb
       lockup_information vesting_information staking_information foundation_account_id owner_account_id
       staking_pool_whitelist_account_id transfers_information lockup_amount termination_withdrawn_tokens
       lockup_duration release_duration lockup_timestamp unvested_amount t_status ctx_results ctx_attached
       ctx_predecessor ctx_current ctx_timestamp ctx_balance ctx_hash
       set_staking set_vesting set_lockup set_foundation expect].
Ltac splits :=
  repeat (reduce; try reflexivity;
    match goal with
    | |- context[match ?x with _ => _ end] => is_var x; destruct x
    | |- context[match t_status ?x with _ => _ end] => destruct x as [? []]
    | |- context[String.eqb ?a ?b] => destruct (String.eqb a b)
    | |- context[is_valid_account_id ?a] => destruct (is_valid_account_id a)
    | |- context[?a <? ?b] => destruct (N.ltb_spec a b)
    | |- context[?a <=? ?b] => destruct (N.leb_spec a b)
    | |- context[?a =? ?b] => destruct (N.eqb_spec a b)
    end); try lia.

Lemma call_by_the_book c s m :
  well_formed s -> ctx_balance c + get_known_deposited_balance s < U128_BOUND -> call_in_range m ->
  answered (exec c s m) = by_the_book c s m.
Proof.
  intros Hwf Hb Hr.
  destruct m; unfold by_the_book, exec;
  unfold select_staking_pool, unselect_staking_pool, deposit_to_staking_pool, deposit_and_stake,
    refresh_staking_pool_balance, withdraw_from_staking_pool, withdraw_all_from_staking_pool, stake, unstake, unstake_all,
    check_transfers_vote, transfer, add_full_access_key, terminate_vesting, termination_prepare_to_withdraw,
    termination_withdraw, on_whitelist_is_whitelisted, on_staking_pool_deposit, on_staking_pool_deposit_and_stake,
    on_staking_pool_withdraw, on_staking_pool_stake, on_staking_pool_unstake, on_staking_pool_unstake_all,
    on_get_result_from_transfer_poll, on_get_account_total_balance,
    on_get_account_unstaked_balance_to_withdraw_by_owner, on_get_account_staked_balance_to_unstake,
    on_staking_pool_unstake_for_termination, on_get_account_unstaked_balance_to_withdraw,
    on_staking_pool_withdraw_for_termination, on_withdraw_unvested_amount.
  12: rewrite (liquid_ok _ _ _ Hwf Hb); unfold liquid; set (L := locked _ _).
  13: rewrite (get_locked_ok _ _ Hwf); set (L := locked _ _).
  14: { destruct Hwf as [HL _ _ HV].
    unfold accepted, effect_of, request_of, from_foundation, selected, with_vesting, assert_called_by_foundation,
      assert_vesting, schedule_presented, require.
    assert (HS : forall vs, (match vesting_information s with VSchedule _ | VHash _ => True | _ => False end) ->
      end_timestamp vs < U64_BOUND -> _) by (intros vs H1 H2; exact (unvested_exact s (ctx_timestamp c) vs HL H2 H1)).
    destruct (ctx_attached c =? 0); [|reflexivity]. cbn [bind andb].
    destruct (foundation_account_id s) as [f|] eqn:Ef; [|reflexivity].
    destruct (String.eqb (ctx_predecessor c) f); [|reflexivity]. cbn [bind andb].
    destruct (vesting_information s) as [|h|vs|ti] eqn:Ev; try reflexivity; [|].
    - destruct o as [[vs salt]|]; [|reflexivity]. destruct (String.eqb (ctx_hash c vs salt) h); [|reflexivity].
      cbn [bind]. cbn in Hr. specialize (HS vs I (proj2 (proj2 Hr))). revert HS.
      destruct (get_unvested_amount s (ctx_timestamp c) vs) as [u|e]; [intros [-> ->]|intros ->; reflexivity].
      cbn [bind andb]. set (u := not_vested _ _ _). destruct (0 <? u); [|reflexivity].
      unfold sat_sub, get_account_balance, spare, MIN_BALANCE_FOR_STORAGE. cbn [bind answered option_map].
      unfold set_vesting. rewrite Ef. rewrite deficit_stage. reflexivity.
    - destruct o as [[vs' salt]|]; [reflexivity|]. cbn [bind]. destruct HV as [HV _]. 
      specialize (HS vs I (proj2 (proj2 (proj2 HV)))). revert HS.
      destruct (get_unvested_amount s (ctx_timestamp c) vs) as [u|e]; [intros [-> ->]|intros ->; reflexivity].
      cbn [bind andb]. set (u := not_vested _ _ _). destruct (0 <? u); [|reflexivity].
      unfold sat_sub, get_account_balance, spare, MIN_BALANCE_FOR_STORAGE. cbn [bind answered option_map].
      unfold set_vesting. rewrite Ef. rewrite deficit_stage. reflexivity. }
  all: destruct c as [cur pre att now bal results hash], s as [ow [la tw ld rd lt ti] v wl [[q st d]|] fo].
  all: unfold accepted, effect_of, owner_at_pool; try fold L; unfold request_of, to_pool, from_owner, from_foundation, from_itself,
      terminating, selected, enabled, recorded, stage, owed, one_result, succeeded, told_bool, told_balance, told_poll,
      begun, over, pool_now, at_stage, with_pool, with_vesting, busy,
      assert_owner, assert_called_by_foundation, assert_self, assert_no_termination, assert_transfers_disabled,
      assert_transfers_enabled, are_transfers_enabled, assert_staking_pool_is_idle,
      assert_staking_pool_is_not_selected, assert_no_staking_or_idle, get_known_deposited_balance,
      get_termination_status, get_terminated_unvested_balance, set_staking_pool_status, set_termination_status,
      update_deposit, the_pool, is_promise_success, callback_bool, callback_balance, callback_poll, callback_arg,
      ask, require, add128, add_chk, fits, sub_chk, sat_sub, get_account_balance, spare, MIN_BALANCE_FOR_STORAGE, set_staking, set_vesting, set_lockup, set_foundation; unfold sat_sub, recorded, ask; reduce.
  all: clear Hwf Hb Hr.
  all: splits.
Qed.

(** A request never takes more than the account has. *)
Lemma request_funded c s m : accepted c s m = true ->
  match request_of c s m with Some (r, _) => attached_to r <= ctx_balance c | None => True end.
Proof.
  intros H. destruct (request_of c s m) as [[r cb]|] eqn:E; [|exact I].
  destruct m; cbn [request_of] in E; unfold to_pool, accepted in *;
  repeat match goal with
  | E : option_map _ ?o = Some _ |- _ => destruct o; cbn [option_map] in E
  | E : match ?x with _ => _ end = Some _ |- _ => destruct x
  end;
  try discriminate; try (inversion E; subst; cbn [attached_to]; lia);
  inversion E; subst; cbn [attached_to]; repeat rewrite andb_true_iff in H; unfold spare in *;
  repeat match goal with H : _ /\ _ |- _ => destruct H end;
  repeat match goal with H : (_ <=? _) = true |- _ => apply N.leb_le in H end; lia.
Qed.

Lemma run_same g w who att results m :
  well_formed (w_lockup w) -> w_balance w + recorded (w_lockup w) < U128_BOUND -> call_in_range m ->
  run g w who att results m = run_by_the_book g w who att results m.
Proof.
  intros Hwf Hb Hr. unfold run, run_by_the_book. cbv zeta.
  set (c := mkCtx _ _ _ _ _ _ _).
  destruct (N.eqb_spec att 0) as [->|Ha].
  - assert (E : answered (exec c (w_lockup w) m) = by_the_book c (w_lockup w) m).
    { apply call_by_the_book; auto. unfold c. cbn [ctx_balance]. rewrite N.add_0_r. exact Hb. }
    rewrite <- E. unfold by_the_book in E. destruct (exec c (w_lockup w) m) as [[s [p|]]|e]; cbn [answered option_map] in *; auto.
    destruct (accepted c (w_lockup w) m) eqn:A; [|discriminate].
    apply request_funded in A. inversion E as [[E1 E2]]. rewrite <- E2 in A. unfold c in A. cbn [ctx_balance] in A.
    rewrite N.add_0_r in A. destruct (N.leb_spec (attached_to (p_remote p)) (w_balance w)); [reflexivity|lia].
  - unfold exec, by_the_book, accepted. cbn [ctx_attached c]. destruct (N.eqb_spec att 0); [contradiction|]. reflexivity.
Qed.

Lemma step_same g w ev : inv w -> well_formed (w_lockup w) -> modest w ev ->
  step_obs g w ev = step_by_the_book g w ev.
Proof.
  intros HI Hwf [Hb Hr]. destruct ev; try reflexivity; cbn [step_obs step_by_the_book].
  - rewrite run_same; auto.
  - destruct (nth_error (w_msgs w) n) as [[r cb|cb r|a]|] eqn:En; try reflexivity.
    cbv zeta. rewrite run_same; auto.
    pose proof (i_msgs _ HI) as IM. rewrite Forall_forall in IM. specialize (IM _ (nth_error_In _ _ En)).
    destruct cb; try exact I. cbn in IM. contradiction.
Qed.

Lemma history_by_the_book g w0 evs :
  starts g w0 -> public_schedule_sane (w_lockup w0) -> all_reveals_covered g w0 evs -> all_modest g w0 evs ->
  final g w0 evs = final_by_the_book g w0 evs /\ log g w0 evs = log_by_the_book g w0 evs.
Proof.
  intros H0 Hs Hr Hm.
  assert (HI : inv w0) by exact (inv_start g w0 H0).
  assert (HC : covered w0) by now apply (covered_start g).
  clear H0 Hs. revert w0 HI HC Hr Hm. induction evs as [|ev evs IH]; intros w HI HC Hr Hm; [auto|].
  destruct Hr as [Hr1 Hr2], Hm as [Hm1 Hm2].
  assert (E : step_obs g w ev = step_by_the_book g w ev) by (apply step_same; auto; apply c_wf, HC).
  assert (HI' : inv (step g w ev)) by exact (inv_final g w [ev] HI).
  assert (HC' : covered (step g w ev)) by exact (covered_final g w [ev] HI HC (conj Hr1 I)).
  destruct (IH _ HI' HC' Hr2 Hm2) as [E1 E2].
  cbn [final log final_by_the_book log_by_the_book]. rewrite <- E. fold (step g w ev). rewrite E1, E2. auto.
Qed.

(** * Views *)
Lemma unvested_shown_ok s now vs : well_formed s -> sane vs ->
  get_unvested_amount s now vs = Ok (unvested_shown s vs now).
Proof.
  intros Hwf Hs. unfold unvested_shown. destruct (vesting_information s) as [|h|vs'|ti] eqn:E.
  - unfold get_unvested_amount. now rewrite E.
  - rewrite get_unvested_ok; auto; [apply Hwf|now rewrite E].
  - rewrite get_unvested_ok; auto; [apply Hwf|now rewrite E].
  - unfold get_unvested_amount. now rewrite E.
Qed.

Lemma views_by_the_book s now balance : well_formed s -> balance + recorded s < U128_BOUND ->
  get_owner_account_id s = owner_account_id s /\
  get_staking_pool_account_id s = option_map staking_pool_account_id (staking_information s) /\
  get_known_deposited_balance s = recorded s /\
  get_termination_status s = stage s /\
  get_terminated_unvested_balance s = owed s /\
  get_terminated_unvested_balance_deficit s balance = owed s - spare balance /\
  get_locked_amount s now = Ok (locked s now) /\
  get_vesting_information s = vesting_information s /\
  get_balance s balance = Ok (balance + recorded s) /\
  get_owners_balance s now balance = Ok (balance + recorded s - locked s now) /\
  get_liquid_owners_balance s now balance = Ok (N.min (balance + recorded s - locked s now) (spare balance)) /\
  are_transfers_enabled s = enabled s.
Proof.
  intros Hwf Hb. repeat split; try reflexivity.
  - now apply get_locked_ok.
  - now apply add_chk_intro.
  - unfold get_owners_balance. unfold add128. rewrite add_chk_intro by exact Hb. cbn [bind]. now rewrite get_locked_ok.
  - now apply liquid_ok.
Qed.

Lemma locked_vested_shown s now vs : well_formed s -> sane vs ->
  (get_locked_vested_amount s now vs = Ok (locked s now - unvested_shown s vs now) /\ unvested_shown s vs now <= locked s now) \/
  (exists e, get_locked_vested_amount s now vs = Panic e) /\ locked s now < unvested_shown s vs now.
Proof.
  intros Hwf Hs. unfold get_locked_vested_amount. rewrite get_locked_ok, unvested_shown_ok by auto. cbn [bind].
  unfold sub_chk. destruct (N.leb_spec (unvested_shown s vs now) (locked s now)); [left|right]; eauto.
Qed.
