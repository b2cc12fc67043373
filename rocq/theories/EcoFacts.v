(** Consequences of EcoProofs: the lockup relies on what the other contracts really do. *)
From Coq Require Import NArith List Bool String Lia.
From Verif Require Import Prelude PreludeFacts MapFacts LockupModel LockupWorld LockupSpec LockupEffects LockupInv
  LockupMoves LockupLocked LockupBusy LockupTerm LockupHist LockupFacts LockupPoolSpec LockupPool EcoSpec EcoProofs.
From Verif Require VotingFacts VotingProofs StakingPoolHistory StakingPoolFacts StakingPoolCustomer.
Import ListNotations.
Open Scope N_scope.

Lemma in_elog d e evs o : In o (elog d e evs) ->
  exists a ev b, evs = (a ++ ev :: b)%list /\ In o (snd (estep_obs d (efinal d e a) ev)).
Proof.
  revert e. induction evs as [|ev evs IH]; intros e H; [contradiction|]. cbn [elog] in H. apply in_app_or in H.
  destruct H as [H|H].
  - exists [], ev, evs. auto.
  - destruct (IH _ H) as (a & x & b & -> & E). exists (ev :: a), x, b. auto.
Qed.

Lemma prefix_ok d e a b : Forall typed (a ++ b) -> all_within_limits d e (a ++ b) -> Forall typed a /\ all_within_limits d e a.
Proof. intros T L. apply Forall_app in T. split; [apply T|eapply all_limits_prefix; exact L]. Qed.

Lemma seen_obs d e evs ev o : estarts d e -> Forall typed evs -> all_within_limits d e evs ->
  let e1 := efinal d e evs in In o (snd (estep_obs d e1 ev)) ->
  exists le, lockup_moves d e1 ev le /\ In o (snd (step_obs (d_lockup d) (ec_lockup e1) le)).
Proof.
  intros ST TY L e1 I. destruct (pools_of_factory d e evs ST TY L) as (_ & _ & PF). fold e1 in PF.
  destruct (always_seen d e1 ev (fun p l H => proj2 (PF p l H))) as [S1 S2 S3|le S|p sev l S1 S2 S3 _].
  - rewrite S2 in I. contradiction.
  - exists le. split; [exact S|]. rewrite (lm_step _ _ _ _ S) in I. exact I.
  - exfalso. rewrite S3 in I. unfold pool_step in I. rewrite S1 in I. cbv zeta in I.
    assert (N : snd (sstep_obs (d_lockup d) p (mkSystem (ec_lockup e1) (now p l)) sev) = []).
    { destruct (string_dec (p ++ "x")%string p) as [H|H].
      - exfalso. clear - H. induction p as [|c p IH]; cbn in H; [discriminate|]. apply IH. congruence.
      - eapply pool_step_others; eassumption. }
    destruct (sstep_obs _ _ _ _) as [s o']. cbn in I, N. now rewrite N in I.
Qed.

(** * Which pools *)
Lemma step_answers_or_sends g w le r a r' :
  In (BAnswered r a) (snd (step_obs g w le)) -> In (BSent r') (snd (step_obs g w le)) -> False.
Proof.
  intros H H'. apply answered_obs in H. destruct H as (n & cb & o & -> & N & _). revert H'. cbn [step_obs]. rewrite N.
  destruct (execute w r cb o) as [[[ps new] l]|] eqn:E; [|contradiction]. cbn [snd].
  destruct r, o; cbn in E; try discriminate; try (injection E as _ _ <-);
    try (intros H; repeat (destruct H as [H|H]; try discriminate H); contradiction);
    try (destruct (is_view op); [injection E as _ _ <-|discriminate]; intros []);
    try (destruct (pool_keeps _ _ _); [injection E as _ _ <-|discriminate]; intros []).
Qed.

Lemma pools_were_listed d e evs ev p op :
  estarts d e -> Forall typed (evs ++ [ev]) -> all_within_limits d e (evs ++ [ev]) ->
  In (BSent (RPool p op)) (snd (estep_obs d (efinal d e evs) ev)) ->
  was_listed d e evs p.
Proof.
  intros ST TY L I. destruct (prefix_ok _ _ _ _ TY L) as (TY0 & L0).
  destruct (erefine d e evs ST TY0 L0) as (_ & A & _).
  destruct (erefine d e (evs ++ [ev]) ST TY L) as (_ & _ & levs & _ & E2 & _).
  destruct (seen_obs d e evs ev _ ST TY0 L0 I) as (le & M & I').
  apply in_split in I. destruct I as (l1 & l2 & E). rewrite elog_app in E2. cbn [elog] in E2. rewrite app_nil_r, E in E2.
  rewrite app_assoc in E2. symmetry in E2.
  destruct (only_whitelisted _ _ _ _ _ _ _ (es_lockup _ _ ST) E2) as (_ & W). rewrite (es_wl _ _ ST) in W.
  apply in_app_or in W. destruct W as [W|W]; [now apply A|]. exfalso.
  eapply step_answers_or_sends; [|exact I'].
  assert (X : snd (estep_obs d (efinal d e evs) ev) = snd (step_obs (d_lockup d) (ec_lockup (efinal d e evs)) le))
    by (rewrite (lm_step _ _ _ _ M); reflexivity).
  rewrite <- X, E. apply in_or_app. left. exact W.
Qed.

Lemma created_app_l d e a b p : In p (created d e a) -> In p (created d e (a ++ b)).
Proof.
  intros H. induction b as [|ev b IH] using rev_ind; [now rewrite app_nil_r|]. rewrite app_assoc. now apply created_mono.
Qed.

Lemma listed_created d e evs p : estarts d e -> policy d e evs -> was_listed d e evs p -> In p (created d e evs).
Proof.
  intros ST PO (a & b & -> & H). apply created_app_l. apply whitelisted_created; auto.
  apply Forall_app in PO. apply PO.
Qed.

Lemma pools_were_created d e evs ev p op :
  estarts d e -> Forall typed (evs ++ [ev]) -> all_within_limits d e (evs ++ [ev]) -> policy d e evs ->
  In (BSent (RPool p op)) (snd (estep_obs d (efinal d e evs) ev)) ->
  In p (created d e evs).
Proof. intros ST TY L PO I. apply listed_created; auto. eapply pools_were_listed; eassumption. Qed.

(** * No pool is left to assumptions *)
Lemma asked_pools_exist d e evs p op cb :
  estarts d e -> Forall typed evs -> all_within_limits d e evs -> policy d e evs ->
  In (MCall (RPool p op) cb) (w_msgs (ec_lockup (efinal d e evs))) -> ec_pools (efinal d e evs) p <> None.
Proof.
  intros ST TY L PO H. destruct (erefine d e evs ST TY L) as (_ & A & levs & E1 & E2 & _). rewrite E1 in H.
  pose proof (only_created_called _ _ _ _ _ _ (es_lockup _ _ ST) H) as X. rewrite (es_wl _ _ ST), <- E2 in X.
  destruct (pools_of_factory d e evs ST TY L) as (_ & PF & _). apply PF. apply listed_created; auto.
Qed.

Lemma policy_suffices d e evs :
  estarts d e -> Forall typed evs -> all_within_limits d e evs -> policy d e evs ->
  all_lockup keeps_apart d e evs /\ all_lockup view_ok d e evs.
Proof.
  intros ST. induction evs as [|ev evs IH] using rev_ind; intros TY L PO; [cbn; auto|].
  destruct (prefix_ok _ _ _ _ TY L) as (TY0 & L0). apply Forall_app in PO. destruct PO as [PO _].
  destruct (IH TY0 L0 PO) as (A & B). rewrite !all_lockup_app. cbn [all_lockup].
  assert (X : match ev with
              | ELockup le => decided_here d (efinal d e evs) le = false ->
                  keeps_apart (ec_lockup (efinal d e evs)) le /\ view_ok (ec_lockup (efinal d e evs)) le
              | _ => True
              end); [|destruct ev; try tauto; intuition].
  destruct ev as [le| | | | | | | |]; auto. intros D.
  assert (N : forall n o p op cb, le = EDeliver n o -> nth_error (w_msgs (ec_lockup (efinal d e evs))) n = Some (MCall (RPool p op) cb) -> False).
  { intros n o p op cb -> N. pose proof (asked_pools_exist d e evs p op cb ST TY0 L0 PO (nth_error_In _ _ N)) as E.
    cbn in D. unfold asked in D. rewrite N in D. destruct (ec_pools _ p); [discriminate D|now apply E]. }
  destruct le as [t|x|q s u|who att m|n o|n]; try (split; [exact I|reflexivity]).
  - discriminate D.
  - unfold view_ok. cbn [keeps_apart view_fails].
    destruct (nth_error (w_msgs (ec_lockup (efinal d e evs))) n) as [[[wl p|v|p op|rc a|k] cb|cb r|a]|] eqn:M;
      try (destruct o; split; (exact I || reflexivity)).
    destruct (N _ _ _ _ _ eq_refl M).
Qed.

Lemma eguarantees d e evs :
  estarts d e -> Forall typed evs -> all_within_limits d e evs -> policy d e evs ->
  exists levs,
    ec_lockup (efinal d e evs) = final (d_lockup d) (ec_lockup e) levs /\
    elog d e evs = log (d_lockup d) (ec_lockup e) levs /\
    all_keep_apart (d_lockup d) (ec_lockup e) levs /\ views_answer (d_lockup d) (ec_lockup e) levs /\
    (all_lockup (reveals_covered (d_lockup d)) d e evs -> all_reveals_covered (d_lockup d) (ec_lockup e) levs).
Proof.
  intros ST TY L PO. destruct (policy_suffices d e evs ST TY L PO) as (P1 & P2).
  destruct (erefine d e evs ST TY L) as (_ & _ & levs & E1 & E2 & E3 & E4 & E5).
  exists levs. rewrite all_keep_apart_events, views_answer_events, reveals_events. auto 12.
Qed.

(** * What the selected pool reports *)
Lemma selected_exists d e evs p :
  estarts d e -> Forall typed evs -> all_within_limits d e evs -> policy d e evs ->
  get_staking_pool_account_id (w_lockup (ec_lockup (efinal d e evs))) = Some p ->
  exists l, ec_pools (efinal d e evs) p = Some l.
Proof.
  intros ST TY L PO H. destruct (erefine d e evs ST TY L) as (_ & A & levs & E1 & E2 & _).
  pose proof (inv_start _ _ (es_lockup _ _ ST)) as I0.
  pose proof (hist_ind _ _ (pools_step _ (d_lockup d)) _ levs [] I0 (pools_start _ _ (es_lockup _ _ ST))) as HQ. cbn [app] in HQ.
  pose proof (q_in _ _ _ HQ p) as X. rewrite <- (q_pool _ _ _ HQ), <- E1, <- E2, (es_wl _ _ ST) in X.
  destruct (pools_of_factory d e evs ST TY L) as (_ & PF & _).
  assert (Y : ec_pools (efinal d e evs) p <> None) by (apply PF, listed_created; auto).
  destruct (ec_pools _ p); [eauto|congruence].
Qed.

Lemma created_reports d e evs p l :
  estarts d e -> Forall typed evs -> all_within_limits d e evs -> ec_pools (efinal d e evs) p = Some l ->
  let b := fst (w_pools (ec_lockup (efinal d e evs)) p) + snd (w_pools (ec_lockup (efinal d e evs)) p) in
  SM.get_account_total_balance (SS.w_pool (now p l)) (g_self (d_lockup d)) = Ok b.
Proof.
  intros ST TY L E. cbv zeta. destruct (erefine d e evs ST TY L) as ((T & _) & _).
  destruct (pools_of_factory d e evs ST TY L) as (_ & _ & PF). destruct (PF _ _ E) as ((W1 & W2 & _) & _).
  pose proof (all_limits_now _ _ _ _ _ L E) as LI.
  destruct (SF.views_never_fail _ _ _ (g_self (d_lockup d)) 0 W1 LI W2) as (_ & (b & X) & _). fold (now p l) in X.
  rewrite X. apply SC.total_view_ok in X. subst b. rewrite (T _ _ E). f_equal. symmetry. apply worth_value.
Qed.

Lemma reports d e evs :
  estarts d e -> Forall typed evs -> all_within_limits d e evs -> policy d e evs ->
  let w := ec_lockup (efinal d e evs) in
  reported d (efinal d e evs) (pool_total (w_pools w) (w_lockup w)).
Proof.
  intros ST TY L PO w. unfold reported, pool_total. fold w.
  destruct (get_staking_pool_account_id (w_lockup w)) as [p|] eqn:S; [|reflexivity].
  destruct (selected_exists d e evs p ST TY L PO S) as (l & E). exists l. split; [exact E|].
  rewrite (created_reports d e evs p l ST TY L E). fold w. now destruct (w_pools w p).
Qed.
Lemma reported_unique d e b b' : reported d e b -> reported d e b' -> b = b'.
Proof.
  unfold reported. destruct (get_staking_pool_account_id _) as [p|]; [|congruence].
  intros (l & E & B) (l' & E' & B'). assert (l = l') by congruence. subst l'. congruence.
Qed.

Lemma eco_locked d e evs :
  estarts d e -> Forall typed evs -> all_within_limits d e evs -> policy d e evs ->
  public_schedule_sane (w_lockup (ec_lockup e)) -> all_lockup (reveals_covered (d_lockup d)) d e evs ->
  let w := ec_lockup (efinal d e evs) in
  exists a b, get_locked_amount (w_lockup w) (w_time w) = Ok a /\ reported d (efinal d e evs) b /\
    a <= w_balance w + total in_flight (w_msgs w) + b + total to_foundation_pending (w_msgs w).
Proof.
  intros ST TY L PO SA RV w. destruct (eguarantees d e evs ST TY L PO) as (levs & E1 & _ & _ & _ & E5).
  destruct (never_below_locked _ _ levs (es_lockup _ _ ST) SA (E5 RV)) as (a & H1 & H2). rewrite <- E1 in H1, H2.
  fold w in H1, H2. exists a, (pool_total (w_pools w) (w_lockup w)). split; [exact H1|].
  split; [now apply reports|]. unfold controlled, at_pool in H2. unfold pool_total.
  destruct (get_staking_pool_account_id (w_lockup w)) as [p|]; [destruct (w_pools w p)|]; cbn in *; lia.
Qed.

Lemma eco_busy d e evs :
  estarts d e -> Forall typed evs -> all_within_limits d e evs -> policy d e evs ->
  let w := ec_lockup (efinal d e evs) in
  (busy (w_lockup w) = true <-> outstanding w = 1%nat) /\ (outstanding w <= 1)%nat.
Proof.
  intros ST TY L PO w. destruct (eguarantees d e evs ST TY L PO) as (levs & E1 & _ & _ & E4 & _).
  unfold w. rewrite E1. split; [|apply one_operation, ST].
  apply busy_while_outstanding; [apply ST|exact E4].
Qed.

Lemma eco_recorded d e evs b :
  estarts d e -> Forall typed evs -> all_within_limits d e evs -> policy d e evs ->
  let w := ec_lockup (efinal d e evs) in
  reported d (efinal d e evs) b ->
  get_known_deposited_balance (w_lockup w) <= b + total paid_not_recorded (w_msgs w) /\
  (busy (w_lockup w) = false -> get_known_deposited_balance (w_lockup w) <= b).
Proof.
  intros ST TY L PO w B. destruct (eguarantees d e evs ST TY L PO) as (levs & E1 & _).
  pose proof (inv_final (d_lockup d) _ levs (inv_start _ _ (es_lockup _ _ ST))) as I. rewrite <- E1 in I. fold w in I.
  assert (b = pool_total (w_pools w) (w_lockup w)) by (eapply reported_unique; [exact B|now apply reports]). subst b.
  pose proof (i_pool _ I) as X. change paid_not_recorded with minus. split; [lia|].
  intros Q. rewrite (idle_quiet _ I Q) in X. lia.
Qed.

(** * Who enables transfers *)
Lemma answered_by_vote d e evs x :
  estarts d e -> Forall typed evs -> all_within_limits d e evs ->
  In (BAnswered (RGetResult (d_voting d)) (APollResult x)) (elog d e evs) ->
  exists a b, evs = (a ++ b)%list /\ VM.get_result (VS.w_contract (ec_voting (efinal d e a))) = x.
Proof.
  intros ST TY L I. apply in_elog in I. destruct I as (a & ev & b & -> & I).
  destruct (prefix_ok _ _ _ _ TY L) as (TY0 & L0). destruct (seen_obs d e a ev _ ST TY0 L0 I) as (le & M & I').
  apply answered_obs in I'. destruct I' as (n & cb & o & -> & N & ->). exists a, (ev :: b). split; [reflexivity|].
  symmetry. eapply (lm_vote _ _ _ _ M); eauto.
Qed.

Lemma typed_voting evs : Forall typed evs -> Forall VS.event_ok (voting_history evs).
Proof.
  induction 1 as [|ev evs T _ IH]; [constructor|]. destruct ev; try exact IH. cbn. constructor; [exact T|exact IH].
Qed.
Lemma voting_history_app a b : voting_history (a ++ b) = (voting_history a ++ voting_history b)%list.
Proof. apply flat_map_app. Qed.

Lemma result_stays d e a b t :
  VM.get_result (VS.w_contract (ec_voting (efinal d e a))) = Some t ->
  VM.get_result (VS.w_contract (ec_voting (efinal d e (a ++ b)))) = Some t.
Proof.
  rewrite !voting_sees, voting_history_app. intros H.
  destruct (VotingFacts.result_final _ _ (voting_history b) _ H) as (-> & _). exact H.
Qed.

Lemma vote_decided d e evs t :
  estarts d e -> Forall typed evs -> VM.get_result (VS.w_contract (ec_voting (efinal d e evs))) = Some t ->
  exists a who att m b, let ev := VS.EvCall who att t m in
    let v := ec_voting (efinal d e a) in
    evs = (a ++ EVoting ev :: b)%list /\ VS.accepted v ev = true /\
    2 * VS.total_stake v < 3 * VS.stake_for v (VS.poll (ec_voting e) (voting_history a ++ [ev]) VS.nobody).
Proof.
  intros ST. induction evs as [|ev evs IH] using rev_ind; intros TY R.
  - cbn in R. destruct (es_voting _ _ ST) as (V & _). cbn in V. injection V as V. rewrite <- V in R. discriminate R.
  - pose proof TY as TY'. apply Forall_app in TY'. destruct TY' as [TY0 _].
    destruct (VM.get_result (VS.w_contract (ec_voting (efinal d e evs)))) as [t'|] eqn:R0.
    + pose proof (result_stays d e evs [ev] t' R0) as X. rewrite X in R. injection R as ->.
      destruct (IH TY0 eq_refl) as (a & who & att & m & b & -> & H). exists a, who, att, m, (b ++ [ev])%list.
      cbv zeta in *. rewrite <- app_assoc. auto.
    + rewrite efinal_app in R. cbn [efinal] in R. rewrite estep_voting in R.
      destruct ev as [ | | | | | | |ve| ]; try congruence.
      destruct ve as [who att ts m|sk vs]; [|cbn in R; congruence].
      set (v := ec_voting (efinal d e evs)) in *.
      assert (A : VS.accepted v (VS.EvCall who att ts m) = true).
      { cbn [VS.accepted]. cbn [VS.step] in R. destruct (VM.exec _ _ m); [reflexivity|congruence]. }
      pose proof (VotingFacts.result_iff (ec_voting e) (voting_history evs) who att ts m (es_voting _ _ ST) (typed_voting _ TY0)) as X.
      cbv zeta in X. rewrite <- voting_sees with (d := d) in X. fold v in X. destruct (X A) as (_ & X').
      rewrite X' in R. destruct (N.ltb_spec (2 * VS.total_stake v)
        (3 * VS.stake_for v (VS.poll (ec_voting e) (voting_history evs ++ [VS.EvCall who att ts m]) VS.nobody))); [|discriminate].
      injection R as ->. exists evs, who, att, m, []. auto.
Qed.

Lemma transfers_by_vote d e evs t :
  estarts d e -> Forall typed evs -> all_within_limits d e evs ->
  transfers_information (lockup_information (w_lockup (ec_lockup e))) = TransfersDisabled (d_voting d) ->
  transfers_information (lockup_information (w_lockup (ec_lockup (efinal d e evs)))) = TransfersEnabled t ->
  VM.get_result (VS.w_contract (ec_voting (efinal d e evs))) = Some t /\
  exists a who att m b, let ev := VS.EvCall who att t m in
    let v := ec_voting (efinal d e a) in
    evs = (a ++ EVoting ev :: b)%list /\ VS.accepted v ev = true /\
    2 * VS.total_stake v < 3 * VS.stake_for v (VS.poll (ec_voting e) (voting_history a ++ [ev]) VS.nobody).
Proof.
  intros ST TY L D E. destruct (erefine d e evs ST TY L) as (_ & _ & levs & E1 & E2 & _). rewrite E1 in E.
  pose proof (enabled_by_poll _ _ _ _ _ (es_lockup _ _ ST) D E) as X. rewrite <- E2 in X.
  destruct (answered_by_vote d e evs _ ST TY L X) as (a & b & -> & R).
  apply (result_stays d e a b) in R. split; [exact R|]. now apply vote_decided.
Qed.

Lemma called_obs g w le who m : In (BCalled who m true) (snd (step_obs g w le)) ->
  exists c s p, exec c (w_lockup w) m = Ok (s, p).
Proof.
  destruct le as [t|x|p s u|who' att m'|n o|n]; cbn [step_obs].
  - destruct (_ && _); intros [].
  - intros [].
  - destruct (_ && _); intros [].
  - destruct (String.eqb who' (g_self g)); [intros []|]. unfold run.
    destruct (exec _ _ m') as [[s [p|]]|] eqn:E; [destruct (_ <=? _)| |]; cbn;
      intros H; repeat (destruct H as [H|H]; try discriminate H); try contradiction;
      injection H as <- <-; eauto.
  - destruct (nth_error (w_msgs w) n) as [[r' cb|cb r'|x]|] eqn:N; try (intros []).
    destruct o; cbn [execute].
    1-4: destruct r'; cbn; intros H; repeat (destruct H as [H|H]; try discriminate H); contradiction.
    + destruct r'; cbn; try (intros []). destruct (is_view op); intros [].
    + destruct r'; cbn [execute]; try (intros []). destruct (pool_keeps _ _ _); intros [].
  - destruct (nth_error (w_msgs w) n) as [[r' cb|cb r'|x]|] eqn:N; try (intros []). unfold run.
    cbv zeta. cbn [w_lockup w_balance w_time w_pools w_msgs].
    destruct (exec _ _ _) as [[s [p|]]|]; [destruct (_ <=? _)| |]; cbn;
      intros H; repeat (destruct H as [H|H]; try discriminate H); contradiction.
Qed.

(** The calls by which the owner gets at the tokens. *)
Lemma takes_needs_transfers c s m s' p :
  (exists a r, m = Transfer a r) \/ (exists pk, m = AddFullAccessKey pk) ->
  exec c s m = Ok (s', p) -> are_transfers_enabled s = true.
Proof.
  intros [(a & r & ->)|(pk & ->)] E.
  - now apply transfer_ok in E.
  - apply ok_effect in E. destruct E as [_ E].
    inversion E; subst; try assumption; try discriminate; match goal with H : _ \/ _ |- _ => destruct H; discriminate end.
Qed.

Lemma taken_after_vote d e evs ev who m :
  estarts d e -> Forall typed evs -> all_within_limits d e evs ->
  transfers_information (lockup_information (w_lockup (ec_lockup e))) = TransfersDisabled (d_voting d) ->
  (exists a r, m = Transfer a r) \/ (exists pk, m = AddFullAccessKey pk) ->
  In (BCalled who m true) (snd (estep_obs d (efinal d e evs) ev)) ->
  VM.get_result (VS.w_contract (ec_voting (efinal d e evs))) <> None.
Proof.
  intros ST TY L D M I. destruct (seen_obs d e evs ev _ ST TY L I) as (le & _ & I').
  apply called_obs in I'. destruct I' as (c & s & p & E). pose proof (takes_needs_transfers _ _ _ _ _ M E) as T.
  unfold are_transfers_enabled in T.
  destruct (transfers_information (lockup_information (w_lockup (ec_lockup (efinal d e evs))))) as [t|] eqn:Q; [|discriminate].
  destruct (transfers_by_vote d e evs t ST TY L D Q) as (-> & _). discriminate.
Qed.

(** * Only the factory makes pools *)
Lemma births_in l : forall pools q, births l pools q <> None -> pools q <> None \/ In q (FS.created_pools l).
Proof.
  induction l as [|o l IH]; intros pools q H; [now left|]. unfold births in *. cbn [fold_left] in H.
  apply IH in H. destruct H as [H|H].
  - destruct o; auto. unfold set_life in H. destruct (String.eqb_spec q a) as [Q|]; [|auto]. right. cbn. left. now symmetry.
  - right. unfold FS.created_pools in *. cbn [flat_map]. apply in_or_app. auto.
Qed.
Lemma pools_only_created d e evs q : (forall p, ec_pools e p = None) ->
  ec_pools (efinal d e evs) q <> None -> In q (created d e evs).
Proof.
  intros E. induction evs as [|ev evs IH] using rev_ind; [cbn; rewrite E; congruence|].
  rewrite efinal_app. cbn [efinal]. intros H. pose proof (estep_pools d (efinal d e evs) ev q) as S.
  destruct ev as [le|n|n|p n lk|p pe|who x m|n|ve|fe]; try (rewrite S in H; apply created_mono, IH, H).
  1-2: rewrite S, pool_step_pools in H; apply created_mono, IH; now destruct (ec_pools (efinal d e evs) q).
  rewrite S in H. apply births_in in H. destruct H as [H|H]; [apply created_mono, IH, H|].
  unfold created. fold (flog d e (evs ++ [EFactory fe])). rewrite flog_snoc, created_app. apply in_or_app. now right.
Qed.

(** A test for the limits. *)
Definition life_ok (p : account_id) (l : life) : bool :=
  (SS.stake_calls (SS.history p (l_born l) (l_past l)) <=? SM.STAKE_SHARE_PRICE_GUARANTEE_FUND) &&
  (SS.w_total (now p l) <? U128_BOUND).
Definition limits_at (d : deployment) (e : eco) (evs : list eevent) (n : nat) : bool :=
  forallb (fun p => match ec_pools (efinal d e (firstn n evs)) p with Some l => life_ok p l | None => true end)
    (created d e (firstn n evs)).
Lemma limits_check d e evs : (forall p, ec_pools e p = None) ->
  forallb (limits_at d e evs) (seq 0 (S (List.length evs))) = true -> all_within_limits d e evs.
Proof.
  intros E H n p l X. rewrite forallb_forall in H.
  assert (Q : firstn n evs = firstn (min n (List.length evs)) evs).
  { destruct (PeanoNat.Nat.le_ge_cases n (List.length evs)) as [Le|Le].
    - now rewrite PeanoNat.Nat.min_l.
    - rewrite PeanoNat.Nat.min_r by exact Le. rewrite (firstn_all2 evs Le). symmetry. apply firstn_all. }
  rewrite Q in X. assert (Y : limits_at d e evs (min n (List.length evs)) = true) by (apply H, in_seq; lia).
  unfold limits_at in Y. rewrite forallb_forall in Y.
  assert (I : In p (created d e (firstn (min n (List.length evs)) evs))) by (apply pools_only_created; [exact E|congruence]).
  specialize (Y p I). rewrite X in Y. apply andb_prop in Y. destruct Y as [Y1 Y2].
  split; [now apply N.leb_le|now apply N.ltb_lt].
Qed.
