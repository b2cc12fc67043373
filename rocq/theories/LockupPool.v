(** The lockup with the staking pool of this repository behaves like the lockup with an abstract pool that keeps
    its guarantees. *)
From Coq Require Import NArith List Bool String Lia.
From Verif Require Import Prelude PreludeFacts MapFacts LockupModel LockupWorld LockupSpec LockupEffects LockupInv
  LockupMoves LockupLocked LockupBusy LockupFacts LockupPoolSpec.
From Verif Require StakingPoolModel StakingPoolSpec StakingPoolProofs StakingPoolHistory StakingPoolFacts
  StakingPoolCustomer.
Import ListNotations.
Open Scope N_scope.

Module SM := StakingPoolModel.
Module SS := StakingPoolSpec.
Module SP := StakingPoolProofs.
Module SH := StakingPoolHistory.
Module SF := StakingPoolFacts.
Module SC := StakingPoolCustomer.

Notation fund := SM.STAKE_SHARE_PRICE_GUARANTEE_FUND.

Lemma worth_value p u : fst (worth p u) + snd (worth p u) = SP.value p u.
Proof. unfold worth, SP.value. cbn [fst snd]. rewrite SC.record_acct. lia. Qed.
Lemma worth_staked p u :
  fst (worth p u) = SM.total_staked_balance p * SM.stake_shares (SP.acct_of (SM.accounts p) u) / SM.total_stake_shares p.
Proof. reflexivity. Qed.
Lemma worth_unstaked p u : snd (worth p u) = SM.unstaked (SP.acct_of (SM.accounts p) u).
Proof. reflexivity. Qed.

Definition tied (g : genesis) (pid : account_id) (sys : system) : Prop :=
  w_pools (sy_lockup sys) pid = worth (SS.w_pool (sy_pool sys)) (g_self g).

Definition sound (S0 k : N) (pw : SS.world) : Prop :=
  SH.winv S0 k pw /\ k <= fund /\ SS.w_total pw < U128_BOUND.

Lemma set_pool_same f p b : set_pool f p b p = b.
Proof. unfold set_pool. now rewrite String.eqb_refl. Qed.
Lemma set_pool_other f p b q : q <> p -> set_pool f p b q = f q.
Proof. unfold set_pool. intros H. now destruct (String.eqb_spec q p). Qed.

Lemma run_pools g w who a rs m w' l : run g w who a rs m = (Some w', l) -> w_pools w' = w_pools w.
Proof.
  unfold run. destruct (exec _ _ _) as [[s [p|]]|]; [|intros [= <- _]; reflexivity|discriminate].
  destruct (_ <=? _); [|discriminate]. intros [= <- _]. reflexivity.
Qed.

(** Events that do not involve the pool leave the balances at it alone. *)
Lemma untouched g pid w ev : involves pid w ev = false -> w_pools (step g w ev) pid = w_pools w pid.
Proof.
  unfold step. destruct ev as [t|x|q s u|who att m|n o|n]; cbn [step_obs involves]; intros H.
  - destruct (_ && _); reflexivity.
  - reflexivity.
  - destruct (_ && _); [|reflexivity]. cbn. apply set_pool_other. apply String.eqb_neq in H. congruence.
  - destruct (String.eqb who (g_self g)); [reflexivity|].
    destruct (run g w who att [] m) as [[w'|] l] eqn:E; [|reflexivity]. cbn. now rewrite (run_pools _ _ _ _ _ _ _ _ E).
  - unfold request in H. destruct (nth_error (w_msgs w) n) as [[r cb|cb r|a]|]; try reflexivity.
    destruct (execute w r cb o) as [[[pools new] l]|] eqn:E; [|reflexivity]. cbn.
    destruct o, r; cbn in E; try discriminate; try (injection E as <- _ _; reflexivity).
    + destruct (is_view op); [|discriminate]. now injection E as <- _ _.
    + destruct (pool_keeps _ _ _); [|discriminate]. injection E as <- _ _.
      destruct (String.eqb_spec pool pid); [discriminate|]. apply set_pool_other. congruence.
  - destruct (nth_error (w_msgs w) n) as [[r cb|cb r|a]|]; try reflexivity.
    match goal with |- context[run g ?w1 ?a ?b ?c ?d] => destruct (run g w1 a b c d) as [[w'|] l] eqn:E end;
      cbn; [now rewrite (run_pools _ _ _ _ _ _ _ _ E)|reflexivity].
Qed.

Lemma request_some pid w n op cb :
  request pid w n = Some (op, cb) -> nth_error (w_msgs w) n = Some (MCall (RPool pid op) cb).
Proof.
  unfold request. destruct (nth_error _ _) as [[[| |q op'| |] cb'|? ?|?]|]; try discriminate.
  destruct (String.eqb_spec q pid); [|discriminate]. intros [= -> ->]. now subst.
Qed.

Lemma pool_call_view op : pool_call op = None <-> is_view op = true.
Proof. destruct op; cbn; split; congruence. Qed.

(** Whatever the pool does with an accepted call keeps the guarantees. *)
Lemma pool_accepts g pid pw op l cb_m pw' ps S0 k k' :
  sound S0 k pw -> sound S0 k' pw' -> pool_call op = Some cb_m ->
  SS.step pid pw (SS.EvCall (g_self g) (attached_to (RPool pid op)) l [] cb_m) = (pw', Some ps) ->
  pool_keeps op (worth (SS.w_pool pw) (g_self g)) (worth (SS.w_pool pw') (g_self g)) = true /\
  tokens (SS.sent_to (g_self g) ps) = match op with PWithdraw a => tokens a | _ => [] end.
Proof.
  intros (W & K & B) (W' & K' & B') Hm HS.
  pose proof (SC.own_value _ _ _ _ _ _ _ _ _ _ _ W HS) as V.
  pose proof (SC.value_fits _ _ _ (g_self g) W' K' B') as F.
  rewrite <- !worth_value in V. rewrite <- worth_value in F.
  unfold pool_keeps. destruct (worth (SS.w_pool pw) (g_self g)) as [s u] eqn:E1.
  destruct (worth (SS.w_pool pw') (g_self g)) as [s' u'] eqn:E2. cbn [fst snd] in *.
  destruct op; cbn [pool_call attached_to] in *; try discriminate; injection Hm as <-;
    try (rewrite (SC.others_send_nothing _ _ _ _ _ _ _ _ _ _ _ W HS eq_refl) in V |- *;
         split; [|reflexivity]; apply andb_true_iff; split; [apply N.ltb_lt; exact F|apply N.leb_le; lia]).
  destruct (SC.withdraw_sends _ _ _ _ _ _ _ _ _ _ _ W HS) as (Ha & Hu). rewrite Ha in V |- *.
  rewrite <- worth_unstaked, E1 in Hu. cbn [snd] in Hu.
  split; [|reflexivity]. rewrite !andb_true_iff, N.ltb_lt, !N.leb_le. lia.
Qed.

(** The views answer with what the lockup's world says. *)
Lemma pool_view_answers op p u x : is_view op = true -> pool_view op p u = Ok x -> x = view_answer op (worth p u).
Proof.
  destruct op; try discriminate; intros _ H; cbn in H; cbn [view_answer].
  - now apply SC.staked_view_ok in H.
  - now apply SC.unstaked_view_ok in H.
  - apply SC.total_view_ok in H. now rewrite worth_value.
Qed.
Lemma pool_view_works op S0 k pw u : sound S0 k pw -> S0 <> 0 -> exists x, pool_view op (SS.w_pool pw) u = Ok x.
Proof.
  intros (W & K & B) Z. destruct op; cbn [pool_view]; eexists;
    first [apply (SH.staked_view_intro _ _ _ _ W K B Z) | apply (SH.unstaked_view_intro _ _ _ _ W K B Z)
          |apply (SH.total_view_intro _ _ _ _ W K B Z)].
Qed.

(** How one event of the system looks in the lockup's world. *)
Definition looks (g : genesis) (S0 : N) (w : world) (ev : sevent) (w' : world) (l : list obs) (e : event) : Prop :=
  step_obs g w e = (w', l) /\
  (other_event ev (keeps_apart w) -> keeps_apart w e) /\
  (S0 <> 0 -> other_event ev (fun e => view_fails w e = false) -> view_fails w e = false) /\
  (other_event ev (reveals_covered g w) -> reveals_covered g w e).

Lemma serve_step g pid sys n locked op cb S0 k k' :
  tied g pid sys -> sound S0 k (sy_pool sys) -> request pid (sy_lockup sys) n = Some (op, cb) ->
  let ev := SServe n locked in
  sound S0 k' (sy_pool (sstep g pid sys ev)) ->
  let sys' := sstep g pid sys ev in
  tied g pid sys' /\
  exists o, looks g S0 (sy_lockup sys) ev (sy_lockup sys') (snd (sstep_obs g pid sys ev)) (EDeliver n o) /\
    execute (sy_lockup sys) (RPool pid op) cb o <> None /\
    forall m, pool_call op = Some m -> o = OFail ->
      snd (SS.step pid (sy_pool sys) (SS.EvCall (g_self g) (attached_to (RPool pid op)) locked [] m)) = None.
Proof.
  intros T W HR ev W' sys'. subst ev sys'. unfold sstep in *. cbn [sstep_obs pool_event] in *. rewrite HR in *.
  apply request_some in HR. destruct (pool_call op) as [m|] eqn:Hm; cbn [option_map] in *.
  - destruct (SS.step pid (sy_pool sys) _) as [pw' [ps|]] eqn:HS; cbn [fst snd sy_lockup sy_pool] in *.
    + destruct (pool_accepts _ _ _ _ _ _ _ _ _ _ _ W W' Hm HS) as (HK & HT).
      split; [unfold tied; cbn; apply set_pool_same|].
      exists (OPool (fst (worth (SS.w_pool pw') (g_self g))) (snd (worth (SS.w_pool pw') (g_self g)))).
      unfold looks. cbn [step_obs keeps_apart view_fails reveals_covered]. rewrite HR. cbn [execute].
      unfold tied in T. rewrite T, <- surjective_pairing, HK. split; [split; [|repeat split; auto]|split; [discriminate|]].
      * unfold served. rewrite HT. reflexivity.
      * intros _. destruct op; auto. cbn in Hm. injection Hm as <-.
        destruct W as (W & _). apply (SC.unstake_moves _ _ _ _ _ _ _ _ _ _ _ W HS).
      * discriminate.
    + split.
      { unfold tied in *. cbn. rewrite T. apply SH.step_call_none in HS. now subst. }
      exists OFail. unfold looks.
      cbn [step_obs keeps_apart view_fails reveals_covered]. rewrite HR. cbn [execute].
      split; [split; [reflexivity|]|split; [discriminate|]].
      * repeat split; auto. intros _ _. destruct op; cbn in Hm |- *; congruence.
      * intros m' [= <-] _. now rewrite HS.
  - apply pool_call_view in Hm.
    destruct (pool_view op (SS.w_pool (sy_pool sys)) (g_self g)) as [x|msg] eqn:HV; cbn [fst snd sy_lockup sy_pool] in *.
    + split; [exact T|]. exists OView. unfold looks.
      cbn [step_obs keeps_apart view_fails reveals_covered]. rewrite HR. cbn [execute]. rewrite Hm.
      apply pool_view_answers in HV; [|exact Hm]. unfold tied in T. rewrite T, <- HV.
      split; [split; [reflexivity|]|split; discriminate]. repeat split; auto.
    + split; [exact T|]. exists OFail. unfold looks.
      cbn [step_obs keeps_apart view_fails reveals_covered]. rewrite HR. cbn [execute].
      replace (attached_to (RPool pid op)) with 0 by (destruct op; cbn in Hm |- *; congruence).
      split; [split; [reflexivity|]|split; discriminate]. repeat split; auto. intros Z _.
      destruct (pool_view_works op _ _ _ (g_self g) W Z) as [x Hx]. congruence.
Qed.

Lemma refine_step g pid sys ev S0 k k' :
  tied g pid sys -> sound S0 k (sy_pool sys) -> sound S0 k' (sy_pool (sstep g pid sys ev)) ->
  let sys' := sstep g pid sys ev in
  let l := snd (sstep_obs g pid sys ev) in
  tied g pid sys' /\
  (sy_lockup sys' = sy_lockup sys /\ l = [] \/
   exists e, looks g S0 (sy_lockup sys) ev (sy_lockup sys') l e).
Proof.
  intros T W W' sys' l. subst sys' l. unfold sstep in *. destruct ev as [e|pe|n lk].
  - cbn [sstep_obs] in *. destruct (involves pid (sy_lockup sys) e) eqn:HI; cbn [fst snd sy_lockup sy_pool] in *.
    + auto.
    + split; [unfold tied; cbn; now rewrite untouched|]. right. exists e.
      split; [|repeat split; cbn; auto]. unfold step. now destruct (step_obs g (sy_lockup sys) e).
  - cbn [sstep_obs] in *. destruct (pool_event g pid sys (SPool pe)) as [pe'|] eqn:HE; cbn [fst snd sy_lockup sy_pool] in *;
      [|auto].
    assert (HC : SH.event_caller pe' <> Some (g_self g)).
    { destruct pe as [who a li rs m|a|n0]; cbn in HE; try (injection HE as <-; discriminate).
      destruct (String.eqb_spec who (g_self g)); [discriminate|]. injection HE as <-. cbn. congruence. }
    destruct (SS.step pid (sy_pool sys) pe') as [pw' o] eqn:HS. cbn [fst] in *.
    destruct W as (W & K & B). destruct W' as (W' & K' & B').
    destruct (SC.others_keep _ _ _ _ _ _ _ (g_self g) W HS HC) as (V1 & V2).
    pose proof (SC.value_fits _ _ _ (g_self g) W' K' B') as F. rewrite <- worth_value in F.
    rewrite <- !worth_staked in V1. rewrite <- !worth_unstaked in V2.
    split; [unfold tied; cbn; apply set_pool_same|]. right.
    exists (EGrowth pid (fst (worth (SS.w_pool pw') (g_self g))) (snd (worth (SS.w_pool pw') (g_self g)))).
    unfold looks. cbn [step_obs keeps_apart view_fails reveals_covered]. unfold tied in T. rewrite !T.
    rewrite <- surjective_pairing. split.
    + match goal with |- context[if ?b then _ else _] => replace b with true; [reflexivity|symmetry] end.
      rewrite andb_true_iff, N.leb_le, N.ltb_lt. lia.
    + repeat split; auto; lia.
  - destruct (request pid (sy_lockup sys) n) as [[op cb]|] eqn:HR.
    + destruct (serve_step g pid sys n lk op cb S0 k k' T W HR W') as (T' & o & Hl & _). unfold sstep in T'.
      split; [exact T'|]. right. exists (EDeliver n o). exact Hl.
    + cbn [sstep_obs] in *. rewrite HR in *. cbn [fst snd]. auto.
Qed.

(** * Histories *)
Lemma sfinal_app g pid sys a b : sfinal g pid sys (a ++ b) = sfinal g pid (sfinal g pid sys a) b.
Proof. revert sys. induction a; cbn; auto. Qed.
Lemma slog_app g pid sys a b :
  slog g pid sys (a ++ b) = (slog g pid sys a ++ slog g pid (sfinal g pid sys a) b)%list.
Proof. revert sys. induction a as [|e a IH]; intros sys; cbn; [reflexivity|]. now rewrite IH, app_assoc. Qed.
Lemma pool_history_app g pid sys a b :
  pool_history g pid sys (a ++ b) = (pool_history g pid sys a ++ pool_history g pid (sfinal g pid sys a) b)%list.
Proof.
  revert sys. induction a as [|e a IH]; intros sys; cbn; [reflexivity|].
  destruct (pool_event g pid sys e); cbn; now rewrite IH.
Qed.

(** The pool sees the history of the pool. *)
Lemma sstep_pool g pid sys ev :
  sy_pool (sstep g pid sys ev) =
  match pool_event g pid sys ev with Some e => fst (SS.step pid (sy_pool sys) e) | None => sy_pool sys end.
Proof.
  unfold sstep. destruct ev as [e|pe|n lk].
  - cbn [sstep_obs pool_event]. now destruct (involves pid (sy_lockup sys) e).
  - unfold sstep_obs. now destruct (pool_event g pid sys (SPool pe)).
  - cbn [sstep_obs pool_event]. destruct (request pid (sy_lockup sys) n) as [[op cb]|]; [|reflexivity].
    destruct (pool_call op) as [m|]; cbn [option_map].
    + destruct (SS.step pid (sy_pool sys) _) as [pw' [ps|]]; reflexivity.
    + now destruct (pool_view op _ _).
Qed.
Lemma pool_sees g pid sys evs :
  sy_pool (sfinal g pid sys evs) = SS.final pid (sy_pool sys) (pool_history g pid sys evs).
Proof.
  revert sys. induction evs as [|e evs IH]; intros sys; [reflexivity|]. cbn [sfinal pool_history].
  rewrite IH, sstep_pool. now destruct (pool_event g pid sys e).
Qed.

Lemma limits_prefix g pid sys a b : pool_within_limits g pid sys (a ++ b) -> pool_within_limits g pid sys a.
Proof.
  intros H n. specialize (H (min n (List.length a))). rewrite firstn_app in H.
  replace (min n (List.length a) - List.length a)%nat with O in H by lia. cbn [firstn] in H.
  rewrite app_nil_r in H.
  destruct (PeanoNat.Nat.le_gt_cases n (List.length a)) as [L|L].
  - now rewrite PeanoNat.Nat.min_l in H by lia.
  - rewrite PeanoNat.Nat.min_r in H by lia. rewrite firstn_all in H. rewrite firstn_all2 by lia. exact H.
Qed.
Lemma limits_now g pid sys evs : pool_within_limits g pid sys evs ->
  SS.within_limits pid (sy_pool sys) (pool_history g pid sys evs).
Proof. intros H. specialize (H (List.length evs)). now rewrite firstn_all in H. Qed.

Lemma sound_at g pid sys evs :
  SS.initial pid (sy_pool sys) -> pool_within_limits g pid sys evs ->
  exists k, sound (SM.total_stake_shares (SS.w_pool (sy_pool sys))) k (sy_pool (sfinal g pid sys evs)).
Proof.
  intros H L. apply limits_now in L. rewrite pool_sees.
  destruct (SF.within_winv _ _ _ H L) as (W & K & B). eexists. split; [exact W|]. auto.
Qed.

Lemma all_other_app P g pid sys a b :
  all_other P g pid sys (a ++ b) <-> all_other P g pid sys a /\ all_other P g pid (sfinal g pid sys a) b.
Proof. revert sys. induction a as [|e a IH]; intros sys; cbn; [tauto|]. rewrite IH. tauto. Qed.

Fixpoint all_events (P : world -> event -> Prop) (g : genesis) (w : world) (evs : list event) : Prop :=
  match evs with
  | [] => True
  | ev :: r => P w ev /\ all_events P g (step g w ev) r
  end.
Lemma all_events_app P g w a b :
  all_events P g w (a ++ b) <-> all_events P g w a /\ all_events P g (final g w a) b.
Proof. revert w. induction a as [|e a IH]; intros w; cbn; [tauto|]. rewrite IH. tauto. Qed.

Lemma tied_start g pid sys : sstarts g pid sys -> tied g pid sys.
Proof.
  intros (_ & HP & H0). unfold tied. rewrite H0. destruct (SH.initial_inv _ _ HP) as (_ & HA & _).
  unfold worth, SS.record_of. rewrite HA. cbn [mget SM.stake_shares SM.unstaked]. rewrite N.mul_0_r.
  now destruct (SM.total_stake_shares _).
Qed.

Lemma refine g pid sys evs :
  sstarts g pid sys -> pool_within_limits g pid sys evs ->
  tied g pid (sfinal g pid sys evs) /\
  exists levs,
    sy_lockup (sfinal g pid sys evs) = final g (sy_lockup sys) levs /\
    slog g pid sys evs = log g (sy_lockup sys) levs /\
    (all_other keeps_apart g pid sys evs -> all_events keeps_apart g (sy_lockup sys) levs) /\
    (SM.total_stake_shares (SS.w_pool (sy_pool sys)) <> 0 ->
     all_other view_ok g pid sys evs -> all_events view_ok g (sy_lockup sys) levs) /\
    (all_other (reveals_covered g) g pid sys evs -> all_events (reveals_covered g) g (sy_lockup sys) levs).
Proof.
  intros H0. induction evs as [|ev evs IH] using rev_ind; intros L.
  - split; [now apply tied_start|]. exists []. cbn. repeat split; auto.
  - destruct (IH (limits_prefix _ _ _ _ _ L)) as (T & levs & E1 & E2 & E3 & E4 & E5).
    destruct (sound_at g pid sys evs (proj1 (proj2 H0)) (limits_prefix _ _ _ _ _ L)) as (k & W).
    destruct (sound_at g pid sys (evs ++ [ev]) (proj1 (proj2 H0)) L) as (k' & W').
    rewrite sfinal_app in W' |- *. cbn [sfinal] in *.
    destruct (refine_step g pid _ ev _ _ _ T W W') as (T' & R). split; [exact T'|].
    rewrite slog_app. cbn [slog]. rewrite app_nil_r.
    destruct R as [(R1 & R2)|(e & R1 & R2 & R3 & R4)].
    + exists levs. rewrite R1, R2, app_nil_r. rewrite !all_other_app. tauto.
    + exists (levs ++ [e])%list. rewrite final_app, log_app, !all_other_app, !all_events_app, <- E1, E2.
      cbn [final log all_other all_events]. rewrite app_nil_r. unfold step. rewrite R1. cbn [fst snd].
      unfold view_ok in *. tauto.
Qed.

Lemma all_keep_apart_events g w evs : all_keep_apart g w evs <-> all_events keeps_apart g w evs.
Proof. revert w. induction evs as [|e r IH]; intros w; cbn; [tauto|]. now rewrite IH. Qed.
Lemma views_answer_events g w evs : views_answer g w evs <-> all_events view_ok g w evs.
Proof. revert w. induction evs as [|e r IH]; intros w; cbn; [tauto|]. now rewrite IH. Qed.
Lemma reveals_events g w evs : all_reveals_covered g w evs <-> all_events (reveals_covered g) g w evs.
Proof. revert w. induction evs as [|e r IH]; intros w; cbn; [tauto|]. now rewrite IH. Qed.

(** * The theorems *)
Lemma guarantees g pid sys evs :
  sstarts g pid sys -> pool_within_limits g pid sys evs ->
  exists levs,
    sy_lockup (sfinal g pid sys evs) = final g (sy_lockup sys) levs /\
    slog g pid sys evs = log g (sy_lockup sys) levs /\
    (all_other keeps_apart g pid sys evs -> all_keep_apart g (sy_lockup sys) levs) /\
    (SM.total_stake_shares (SS.w_pool (sy_pool sys)) <> 0 ->
     all_other view_ok g pid sys evs -> views_answer g (sy_lockup sys) levs) /\
    (all_other (reveals_covered g) g pid sys evs -> all_reveals_covered g (sy_lockup sys) levs).
Proof.
  intros H L. destruct (refine _ _ _ _ H L) as (_ & levs & E).
  exists levs. now rewrite all_keep_apart_events, views_answer_events, reveals_events.
Qed.

Lemma system_inv g pid sys evs :
  sstarts g pid sys -> pool_within_limits g pid sys evs -> inv (sy_lockup (sfinal g pid sys evs)).
Proof.
  intros H L. destruct (guarantees _ _ _ _ H L) as (levs & -> & _).
  apply inv_final. exact (inv_start g _ (proj1 H)).
Qed.

Lemma pool_total_worth g pid sys evs :
  sstarts g pid sys -> pool_within_limits g pid sys evs ->
  get_staking_pool_account_id (w_lockup (sy_lockup (sfinal g pid sys evs))) = Some pid ->
  pool_total (w_pools (sy_lockup (sfinal g pid sys evs))) (w_lockup (sy_lockup (sfinal g pid sys evs))) =
  SP.value (SS.w_pool (sy_pool (sfinal g pid sys evs))) (g_self g).
Proof.
  intros H L HP. destruct (refine _ _ _ _ H L) as (T & _). unfold pool_total. rewrite HP.
  unfold tied in T. rewrite T. apply worth_value.
Qed.

Lemma recorded_always g pid sys evs b :
  sstarts g pid sys -> pool_within_limits g pid sys evs ->
  let sys' := sfinal g pid sys evs in
  let w := sy_lockup sys' in
  get_staking_pool_account_id (w_lockup w) = Some pid ->
  SM.get_account_total_balance (SS.w_pool (sy_pool sys')) (g_self g) = Ok b ->
  get_known_deposited_balance (w_lockup w) <= b + total paid_not_recorded (w_msgs w).
Proof.
  intros H L sys' w HP HB. pose proof (i_pool _ (system_inv _ _ _ _ H L)) as HI.
  fold sys' w in HI. unfold w, sys' in HI. rewrite (pool_total_worth _ _ _ _ H L HP) in HI.
  apply SC.total_view_ok in HB. subst b. change paid_not_recorded with minus.
  unfold w, sys'. lia.
Qed.

Lemma idle_quiet w : inv w -> busy (w_lockup w) = false -> total minus (w_msgs w) = 0.
Proof.
  intros HI HB. apply total_zero. pose proof (i_msgs _ HI) as HM. rewrite Forall_forall in *.
  intros m Hm. specialize (HM m Hm). destruct m as [r cb|cb r|a]; try reflexivity.
  cbn [msg_ok] in HM. destruct (staking_callback cb) eqn:E.
  - destruct HM as (p & d & Hst & _). unfold busy in HB. rewrite Hst in HB. discriminate.
  - destruct cb; try discriminate; reflexivity.
Qed.

Lemma recorded_when_idle g pid sys evs b :
  sstarts g pid sys -> pool_within_limits g pid sys evs ->
  let sys' := sfinal g pid sys evs in
  let w := sy_lockup sys' in
  get_staking_pool_account_id (w_lockup w) = Some pid -> busy (w_lockup w) = false ->
  SM.get_account_total_balance (SS.w_pool (sy_pool sys')) (g_self g) = Ok b ->
  get_known_deposited_balance (w_lockup w) <= b.
Proof.
  intros H L sys' w HP HB Hb. pose proof (recorded_always _ _ _ _ _ H L HP Hb) as X. fold sys' w in X.
  change paid_not_recorded with minus in X. rewrite idle_quiet in X; [lia| |exact HB].
  now apply system_inv.
Qed.

Lemma views_work g pid sys evs :
  sstarts g pid sys -> pool_within_limits g pid sys evs ->
  0 < SM.total_stake_shares (SS.w_pool (sy_pool sys)) ->
  exists b, SM.get_account_total_balance (SS.w_pool (sy_pool (sfinal g pid sys evs))) (g_self g) = Ok b.
Proof.
  intros (_ & H & _) L Z. apply limits_now in L. rewrite pool_sees.
  destruct (SF.views_never_fail _ _ _ (g_self g) 0 H L Z) as (_ & X & _). exact X.
Qed.

Lemma system_locked g pid sys evs b :
  sstarts g pid sys -> pool_within_limits g pid sys evs ->
  public_schedule_sane (w_lockup (sy_lockup sys)) -> all_other (reveals_covered g) g pid sys evs ->
  let sys' := sfinal g pid sys evs in
  let w := sy_lockup sys' in
  get_staking_pool_account_id (w_lockup w) = Some pid ->
  SM.get_account_total_balance (SS.w_pool (sy_pool sys')) (g_self g) = Ok b ->
  exists a, get_locked_amount (w_lockup w) (w_time w) = Ok a /\
    a <= w_balance w + total in_flight (w_msgs w) + b + total to_foundation_pending (w_msgs w).
Proof.
  intros H L Hs Hr sys' w HP Hb. destruct (guarantees _ _ _ _ H L) as (levs & E1 & _ & _ & _ & E5).
  destruct (never_below_locked g _ levs (proj1 H) Hs (E5 Hr)) as (a & Ha & Hle).
  rewrite <- E1 in Ha, Hle. fold sys' w in Ha, Hle. exists a. split; [exact Ha|].
  unfold controlled, at_pool in Hle.
  pose proof (pool_total_worth _ _ _ _ H L HP) as X. fold sys' w in X. unfold pool_total in X. rewrite X in Hle.
  apply SC.total_view_ok in Hb. subst b. lia.
Qed.

Lemma system_busy g pid sys evs :
  sstarts g pid sys -> pool_within_limits g pid sys evs ->
  0 < SM.total_stake_shares (SS.w_pool (sy_pool sys)) -> all_other view_ok g pid sys evs ->
  let w := sy_lockup (sfinal g pid sys evs) in
  (busy (w_lockup w) = true <-> outstanding w = 1%nat) /\ (outstanding w <= 1)%nat.
Proof.
  intros H L Z Hv w. destruct (guarantees _ _ _ _ H L) as (levs & E1 & _ & _ & E4 & _).
  unfold w. rewrite E1. split; [|apply one_operation, H].
  apply busy_while_outstanding; [apply H|]. apply E4; [lia|exact Hv].
Qed.
