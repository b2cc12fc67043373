(** Who can have the transfers of a lockup enabled, and who can prevent it, among the contracts of EcoSpec. *)
From Coq Require Import NArith List Bool String Lia.
From Verif Require Import Prelude PreludeFacts MapFacts LockupModel LockupWorld LockupSpec LockupEffects LockupInv
  LockupMoves LockupLocked LockupBusy LockupTerm LockupHist LockupFacts LockupPoolSpec LockupPool EcoSpec EcoProofs EcoFacts.
From Verif Require VotingFacts VotingProofs VotingPowerProofs.
Import ListNotations.
Open Scope N_scope.

Definition info (e : eco) : transfers_info := transfers_information (lockup_information (w_lockup (ec_lockup e))).
Definition CB : call := OnGetResultFromTransferPoll.

(** * Messages in flight *)
Lemma in_not_dropped {A} (l : list A) : forall n m, In m l -> nth_error l n = Some m \/ In m (drop_nth n l).
Proof.
  induction l as [|x l IH]; intros n m I; [contradiction|]. destruct n as [|n]; cbn.
  - destruct I as [->|I]; auto.
  - destruct I as [->|I]; [auto|]. destruct (IH n m I); auto.
Qed.
Lemma run_keeps g w who att rs m w' l x : run g w who att rs m = (Some w', l) -> In x (w_msgs w) -> In x (w_msgs w').
Proof.
  unfold run. destruct (exec _ _ _) as [[s [p|]]|]; [destruct (_ <=? _)| |]; intros [= <- _] I; cbn [w_msgs]; auto.
  apply in_or_app. auto.
Qed.
Lemma step_keeps g w le x : In x (w_msgs w) ->
  In x (w_msgs (step g w le)) \/
  exists n, nth_error (w_msgs w) n = Some x /\ (le = ERun n \/ exists o, le = EDeliver n o).
Proof.
  intros I. unfold step. destruct le as [t|a|p s u|who att m|n o|n]; cbn [step_obs].
  - left. destruct (_ && _); exact I.
  - left. exact I.
  - left. destruct (_ && _); exact I.
  - left. destruct (String.eqb who _); [exact I|]. destruct (run g w who att [] m) as [[w'|] l] eqn:R; [|exact I].
    cbn [fst]. eapply run_keeps; eauto.
  - destruct (in_not_dropped _ n _ I) as [H|H]; [right; eauto|]. left.
    destruct (nth_error (w_msgs w) n) as [[r cb|cb r|a]|]; try exact I.
    destruct (execute w r cb o) as [[[pools new] l]|]; [|exact I]. cbn [fst w_msgs]. apply in_or_app. auto.
  - destruct (in_not_dropped _ n _ I) as [H|H]; [right; eauto|]. left.
    destruct (nth_error (w_msgs w) n) as [[r cb|cb r|a]|]; try exact I; [|exact H].
    cbv zeta. destruct (run _ _ _ _ _ _) as [[w'|] l] eqn:R; [|exact H]. cbn [fst]. eapply run_keeps; [exact R|exact H].
Qed.
Lemma pool_keeps_msgs d e p sev x : (forall le, sev <> SLockup le) -> In x (w_msgs (ec_lockup e)) ->
  (forall q op cb, x <> MCall (RPool q op) cb) ->
  In x (w_msgs (ec_lockup (fst (pool_step d e p sev)))) /\
  w_lockup (ec_lockup (fst (pool_step d e p sev))) = w_lockup (ec_lockup e).
Proof.
  intros NL I NP. unfold pool_step. destruct (ec_pools e p) as [l|]; [|auto]. cbv zeta.
  set (sys := mkSystem (ec_lockup e) (now p l)).
  assert (H : In x (w_msgs (sy_lockup (fst (sstep_obs (d_lockup d) p sys sev)))) /\
              w_lockup (sy_lockup (fst (sstep_obs (d_lockup d) p sys sev))) = w_lockup (ec_lockup e)).
  { destruct sev as [le|pe|n lo]; [destruct (NL le eq_refl)| |]; cbn [sstep_obs].
    - destruct (pool_event _ _ _ _); cbn; auto.
    - destruct (request p (sy_lockup sys) n) as [[op cb]|] eqn:R; [|cbn; auto].
      apply request_some in R.
      assert (D : In x (drop_nth n (w_msgs (ec_lockup e)))).
      { destruct (in_not_dropped _ n _ I) as [H|H]; [|exact H]. cbn in R. rewrite H in R. injection R as ->.
        destruct (NP p op cb eq_refl). }
      destruct (pool_event _ _ _ _) as [pe|].
      + destruct (SS.step p (sy_pool sys) pe) as [pw [ps|]]; cbn; split; auto; apply in_or_app; auto.
      + destruct (pool_view op _ _); cbn; split; auto; apply in_or_app; auto. }
  destruct (sstep_obs _ _ _ _) as [s o]. exact H.
Qed.

(** * Once there is a result, the answer to the owner's question enables transfers *)
Definition question (d : deployment) : msg := MCall (RGetResult (d_voting d)) (Some CB).
Definition answer (t : N) : msg := MBack CB (Some (APollResult (Some t))).
Definition coming (d : deployment) (t : N) (e : eco) : Prop :=
  are_transfers_enabled (w_lockup (ec_lockup e)) = true \/
  In (question d) (w_msgs (ec_lockup e)) \/ In (answer t) (w_msgs (ec_lockup e)).

Lemma enabled_info s : are_transfers_enabled s = true <->
  exists t, transfers_information (lockup_information s) = TransfersEnabled t.
Proof.
  unfold are_transfers_enabled. destruct (transfers_information _); split; eauto; try discriminate. intros (t & H). discriminate.
Qed.
Lemma step_enabled g w le : inv w -> are_transfers_enabled (w_lockup w) = true ->
  are_transfers_enabled (w_lockup (step g w le)) = true.
Proof.
  intros I E. destruct (transfers_step g w le I) as [H|(H & _)]; [|congruence].
  unfold are_transfers_enabled in *. now rewrite H.
Qed.
Lemma answer_enables g w n t : nth_error (w_msgs w) n = Some (answer t) ->
  are_transfers_enabled (w_lockup (step g w (ERun n))) = true.
Proof.
  intros H. unfold step. cbn [step_obs]. rewrite H. unfold answer. cbv zeta. unfold run.
  cbn [w_lockup w_balance w_time w_pools w_msgs exec ctx_attached CB]. cbn -[on_get_result_from_transfer_poll are_transfers_enabled].
  unfold on_get_result_from_transfer_poll. cbn -[are_transfers_enabled].
  unfold assert_self, require, assert_transfers_disabled. cbn -[are_transfers_enabled]. rewrite String.eqb_refl. cbn -[are_transfers_enabled].
  unfold require. destruct (are_transfers_enabled (w_lockup w)) eqn:A; cbn -[are_transfers_enabled]; [exact A|reflexivity].
Qed.

Lemma coming_step d e ev t : inv (ec_lockup e) ->
  VM.get_result (VS.w_contract (ec_voting e)) = Some t ->
  coming d t e -> coming d t (estep d e ev).
Proof.
  intros HI R C.
  assert (LK : forall le, inv (ec_lockup e) ->
    (forall n o cb, le = EDeliver n o -> nth_error (w_msgs (ec_lockup e)) n = Some (MCall (RGetResult (d_voting d)) cb) -> o = OPoll (Some t)) ->
    estep_obs d e ev = lockup_step d e le -> coming d t (estep d e ev)).
  { intros le _ V S. unfold estep. rewrite S. unfold coming. cbn [lockup_step fst ec_lockup set_lockup].
    destruct C as [C|[C|C]].
    - left. now apply step_enabled.
    - destruct (step_keeps (d_lockup d) _ le _ C) as [H|(n & N & [->|(o & ->)])]; auto.
      + right. left. unfold step. cbn [step_obs]. rewrite N. exact C.
      + rewrite (V n o _ eq_refl N). right. right. unfold step. cbn [step_obs]. rewrite N. cbn. apply in_or_app. right. left. reflexivity.
    - destruct (step_keeps (d_lockup d) _ le _ C) as [H|(n & N & [->|(o & ->)])]; auto.
      + left. eapply answer_enables; eauto.
      + right. right. unfold step. cbn [step_obs]. rewrite N. exact C. }
  assert (SAME : ec_lockup (estep d e ev) = ec_lockup e -> coming d t (estep d e ev)).
  { intros S. unfold coming. now rewrite S. }
  assert (POOL : forall p sev, (forall le, sev <> SLockup le) -> estep_obs d e ev = pool_step d e p sev -> coming d t (estep d e ev)).
  { intros p sev NL S. unfold estep. rewrite S. unfold coming. destruct C as [C|[C|C]].
    - left. enough (E : w_lockup (ec_lockup (fst (pool_step d e p sev))) = w_lockup (ec_lockup e)) by now rewrite E.
      unfold pool_step. destruct (ec_pools e p) as [l|]; [|reflexivity]. cbv zeta.
      set (sys := mkSystem (ec_lockup e) (now p l)).
      enough (E : w_lockup (sy_lockup (fst (sstep_obs (d_lockup d) p sys sev))) = w_lockup (ec_lockup e))
        by (destruct (sstep_obs _ _ _ _); exact E).
      destruct sev as [le|pe|n lo]; [destruct (NL le eq_refl)| |]; cbn [sstep_obs].
      + destruct (pool_event _ _ _ _); reflexivity.
      + destruct (request p (sy_lockup sys) n) as [[op cb]|]; [|reflexivity].
        destruct (pool_event _ _ _ _) as [pe|].
        * destruct (SS.step p (sy_pool sys) pe) as [pw [ps|]]; reflexivity.
        * destruct (pool_view op _ _); reflexivity.
    - right. left. apply pool_keeps_msgs; auto. discriminate.
    - right. right. apply pool_keeps_msgs; auto. discriminate. }
  assert (ASK : forall n f, estep_obs d e ev = answers_it d e n f -> coming d t (estep d e ev)).
  { intros n f S. unfold answers_it in S. destruct (asked e n) as [r|] eqn:A; [|apply SAME; unfold estep; now rewrite S].
    destruct (f r); [|apply SAME; unfold estep; now rewrite S].
    destruct (answer_of d e r) as [o|] eqn:O; [|apply SAME; unfold estep; now rewrite S].
    apply (LK (EDeliver n o)); auto. intros n' o' cb [= <- <-] N. unfold asked in A. rewrite N in A. injection A as <-.
    cbn in O. rewrite String.eqb_refl in O. congruence. }
  destruct ev as [le|n|n|p n lo|p pe|who x m|n|ve|fe].
  - destruct (decided_here d e le) eqn:D.
    + apply SAME. unfold estep. cbn [estep_obs]. now rewrite D.
    + apply (LK le HI); [|cbn [estep_obs]; now rewrite D]. intros n o cb -> N. exfalso. cbn in D. unfold asked in D. rewrite N in D.
      cbn in D. rewrite String.eqb_refl in D. discriminate.
  - apply (ASK n to_whitelist). reflexivity.
  - apply (ASK n to_voting). reflexivity.
  - apply (POOL p (SServe n lo)); [discriminate|reflexivity].
  - apply (POOL p (SPool pe)); [discriminate|reflexivity].
  - apply SAME. unfold estep. cbn [estep_obs]. destruct (whitelist_event d e _); reflexivity.
  - apply SAME. unfold estep. cbn [estep_obs]. destruct (whitelist_event d e _); reflexivity.
  - apply SAME. reflexivity.
  - apply SAME. unfold estep. cbn [estep_obs]. destruct (FS.step_obs _ _ _). reflexivity.
Qed.

Lemma reach_inv d e evs : estarts d e -> Forall typed evs -> all_within_limits d e evs -> inv (ec_lockup (efinal d e evs)).
Proof.
  intros ST TY L. destruct (erefine d e evs ST TY L) as (_ & _ & levs & E1 & _). rewrite E1.
  apply inv_final. eapply inv_start. apply (es_lockup _ _ ST).
Qed.

Lemma coming_final d e t evs evs2 : estarts d e ->
  Forall typed (evs ++ evs2) -> all_within_limits d e (evs ++ evs2) ->
  VM.get_result (VS.w_contract (ec_voting (efinal d e evs))) = Some t ->
  coming d t (efinal d e evs) -> coming d t (efinal d e (evs ++ evs2)).
Proof.
  intros ST. induction evs2 as [|ev evs2 IH] using rev_ind; intros TY L R C.
  - now rewrite app_nil_r.
  - rewrite app_assoc in *. destruct (prefix_ok _ _ _ _ TY L) as (TY0 & L0).
    rewrite efinal_app. cbn [efinal]. apply coming_step.
    + now apply reach_inv.
    + now apply result_stays.
    + now apply IH.
Qed.

(** The transfers are disabled by this vote, or enabled. *)
Lemma poll_is d e evs : estarts d e -> Forall typed evs -> all_within_limits d e evs ->
  info e = TransfersDisabled (d_voting d) ->
  info (efinal d e evs) = TransfersDisabled (d_voting d) \/ exists t, info (efinal d e evs) = TransfersEnabled t.
Proof.
  intros ST TY L D. destruct (erefine d e evs ST TY L) as (_ & _ & levs & E1 & _).
  assert (H1 : poll_ok (d_voting d) (ec_lockup e) []).
  { split; [unfold info in D; rewrite D; reflexivity|]. rewrite (proj1 (start_idle _ _ (es_lockup _ _ ST))). constructor. }
  pose proof (hist_ind _ _ (poll_step (d_voting d) (d_lockup d)) (ec_lockup e) levs [] (inv_start _ _ (es_lockup _ _ ST)) H1) as [HQ _].
  rewrite <- E1 in HQ. unfold info. destruct (transfers_information _); [eauto|]. left. now subst.
Qed.

Lemma owner_asks d e : info e = TransfersDisabled (d_voting d) ->
  get_termination_status (w_lockup (ec_lockup e)) = None ->
  let owner := owner_account_id (w_lockup (ec_lockup e)) in
  owner <> g_self (d_lockup d) ->
  estep d e (ELockup (ECall owner 0 CheckTransfersVote)) =
  set_lockup e (mkWorld (w_lockup (ec_lockup e)) (w_balance (ec_lockup e)) (w_time (ec_lockup e)) (w_pools (ec_lockup e))
                  (w_msgs (ec_lockup e) ++ [question d])).
Proof.
  intros D T owner NS. unfold estep. cbn [estep_obs decided_here lockup_step fst]. unfold step. cbn [step_obs].
  apply String.eqb_neq in NS. rewrite NS. unfold run. cbn [exec ctx_attached]. cbn -[check_transfers_vote].
  unfold check_transfers_vote, assert_owner, assert_transfers_disabled, require, are_transfers_enabled. cbn [ctx_predecessor].
  unfold info in D. rewrite D. unfold owner. rewrite String.eqb_refl. cbn [negb bind]. unfold assert_no_termination.
  unfold get_termination_status in T. destruct (vesting_information _); try discriminate T; cbn; rewrite N.sub_0_r, (proj2 (N.leb_le 0 _) (N.le_0_l _)); reflexivity.
Qed.

(** The owner can have the result looked at. *)
Lemma nth_last {A} (l : list A) x : nth_error (l ++ [x]) (List.length l) = Some x.
Proof. rewrite nth_error_app2 by lia. now rewrite Nat.sub_diag. Qed.
Lemma drop_last {A} (l : list A) x : drop_nth (List.length l) (l ++ [x]) = l.
Proof. induction l as [|y l IH]; [reflexivity|]. cbn. now rewrite IH. Qed.

Lemma owner_enables d e t :
  info e = TransfersDisabled (d_voting d) -> VM.get_result (VS.w_contract (ec_voting e)) = Some t ->
  get_termination_status (w_lockup (ec_lockup e)) = None ->
  let owner := owner_account_id (w_lockup (ec_lockup e)) in
  owner <> g_self (d_lockup d) ->
  exists n, let e2 := efinal d e [ELockup (ECall owner 0 CheckTransfersVote); EVotingServes n; ELockup (ERun n)] in
    info e2 = TransfersEnabled t /\
    w_balance (ec_lockup e2) = w_balance (ec_lockup e) /\ w_msgs (ec_lockup e2) = w_msgs (ec_lockup e).
Proof.
  intros D R T owner NS. exists (List.length (w_msgs (ec_lockup e))). cbv zeta. cbn [efinal].
  unfold owner. rewrite owner_asks by assumption.
  set (e1 := set_lockup _ _).
  set (n := List.length (w_msgs (ec_lockup e))).
  assert (E2 : estep d e1 (EVotingServes n) =
    set_lockup e (mkWorld (w_lockup (ec_lockup e)) (w_balance (ec_lockup e)) (w_time (ec_lockup e)) (w_pools (ec_lockup e))
                  (w_msgs (ec_lockup e) ++ [answer t]))).
  { unfold estep. cbn [estep_obs]. unfold answers_it, asked, e1. cbn [ec_lockup set_lockup w_msgs]. unfold n. rewrite nth_last.
    cbn [question to_voting answer_of]. rewrite String.eqb_refl. cbn [ec_voting set_lockup]. rewrite R.
    unfold lockup_step, step. cbn [step_obs ec_lockup w_msgs set_lockup fst]. rewrite nth_last. cbn [question execute back fst].
    rewrite drop_last. reflexivity. }
  rewrite E2. clear E2 e1. unfold info. unfold estep. cbn [estep_obs decided_here lockup_step fst ec_lockup set_lockup].
  unfold step. cbn [step_obs w_msgs]. unfold n. rewrite nth_last. unfold answer. cbn [w_lockup w_balance w_time w_pools]. rewrite drop_last.
  unfold run. cbn [w_lockup w_balance w_time w_pools w_msgs]. cbn -[on_get_result_from_transfer_poll].
  unfold on_get_result_from_transfer_poll. cbn -[are_transfers_enabled].
  unfold assert_self, require, assert_transfers_disabled, are_transfers_enabled. unfold info in D. rewrite D. cbn.
  rewrite String.eqb_refl. cbn. auto.
Qed.

(** * Two thirds, and a third *)
Lemma in_voting_history evs x : In x (voting_history evs) <-> In (EVoting x) evs.
Proof.
  unfold voting_history. rewrite in_flat_map. split.
  - intros (ev & I & H). destruct ev; cbn in H; try contradiction. destruct H as [->|[]]. exact I.
  - intros I. exists (EVoting x). cbn. auto.
Qed.
Lemma history_prefix evs : forall a b, voting_history evs = (a ++ b)%list ->
  exists p q, evs = (p ++ q)%list /\ voting_history p = a.
Proof.
  induction evs as [|ev evs IH]; intros a b H.
  - cbn in H. symmetry in H. apply app_eq_nil in H. destruct H as [-> _]. exists [], []. auto.
  - destruct a as [|x a]; [exists [], (ev :: evs); auto|].
    assert (K : (exists y, ev = EVoting y) \/ forall l, voting_history (ev :: l) = voting_history l)
      by (destruct ev; eauto; right; reflexivity).
    destruct K as [(y & ->)|K].
    + cbn in H. injection H as -> H. destruct (IH _ _ H) as (p & q & -> & E). exists (EVoting x :: p), q.
      split; [reflexivity|]. cbn. now rewrite <- E.
    + rewrite K in H. destruct (IH _ _ H) as (p & q & -> & E). exists (ev :: p), q. split; [reflexivity|]. now rewrite K.
Qed.

Definition votes_through (d : deployment) (e1 : eco) (evs1 : list eevent) (s : account_id -> bool) : Prop :=
  (forall n vs, ~ In (EVoting (VS.EvEpoch n vs)) evs1) /\
  2 * VS.total_stake (ec_voting e1) < 3 * VS.stake_for (ec_voting e1) s /\
  (forall a, s a = true -> exists ts, In (EVoting (VS.EvCall a 0 ts (VM.Vote true))) evs1) /\
  (forall a att ts, s a = true -> ~ In (EVoting (VS.EvCall a att ts (VM.Vote false))) evs1).

Lemma two_thirds_result d e evs evs1 s : estarts d e -> Forall typed evs ->
  votes_through d (efinal d e evs) evs1 s ->
  exists t, VM.get_result (VS.w_contract (ec_voting (efinal d e (evs ++ evs1)))) = Some t.
Proof.
  intros ST TY (NE & S & Y & NO). rewrite efinal_app, (voting_sees d (efinal d e evs)). rewrite voting_sees in S |- *.
  apply (VotingPowerProofs.two_thirds_end _ (voting_history evs) (voting_history evs1) s (es_voting _ _ ST) (typed_voting _ TY)).
  - intros n vs I. apply in_voting_history in I. eapply NE; eauto.
  - exact S.
  - intros a A. destruct (Y a A) as (ts & I). exists ts. now apply in_voting_history.
  - intros a att ts A I. apply in_voting_history in I. eapply NO; eauto.
Qed.

Definition about_poll (m : msg) : bool :=
  match m with
  | MCall (RGetResult _) _ | MBack OnGetResultFromTransferPoll _ => true
  | _ => false
  end.

Lemma asked_and_answered d e evs evs2 t : estarts d e ->
  let owner := owner_account_id (w_lockup (ec_lockup (efinal d e evs))) in
  let rest := (ELockup (ECall owner 0 CheckTransfersVote) :: evs2) in
  Forall typed (evs ++ rest) -> all_within_limits d e (evs ++ rest) ->
  info e = TransfersDisabled (d_voting d) ->
  VM.get_result (VS.w_contract (ec_voting (efinal d e evs))) = Some t ->
  owner <> g_self (d_lockup d) -> get_termination_status (w_lockup (ec_lockup (efinal d e evs))) = None ->
  let e3 := efinal d e (evs ++ rest) in
  (forall m, In m (w_msgs (ec_lockup e3)) -> about_poll m = false) ->
  info e3 = TransfersEnabled t.
Proof.
  intros ST owner rest TY L D R NS T e3 Q.
  assert (EQ : (evs ++ rest = (evs ++ [ELockup (ECall owner 0 CheckTransfersVote)]) ++ evs2)%list)
    by (unfold rest; rewrite <- app_assoc; reflexivity).
  assert (RS : VM.get_result (VS.w_contract (ec_voting e3)) = Some t) by (now apply result_stays).
  assert (EN : are_transfers_enabled (w_lockup (ec_lockup e3)) = true).
  { assert (C : coming d t e3).
    { unfold e3. rewrite EQ in TY, L |- *. destruct (prefix_ok _ _ _ _ TY L) as (TY0 & L0).
      destruct (prefix_ok _ _ _ _ TY0 L0) as (TY1 & L1).
      apply coming_final; auto; [now apply result_stays|]. rewrite efinal_app. cbn [efinal].
      destruct (poll_is d e evs ST TY1 L1 D) as [P|(t' & P)].
      - unfold owner. rewrite owner_asks by assumption. right. left. cbn [ec_lockup set_lockup w_msgs]. apply in_or_app. right. now left.
      - apply coming_step; [now apply reach_inv|exact R|]. left. apply enabled_info. exists t'. exact P. }
    destruct C as [C|[C|C]]; [exact C| |]; specialize (Q _ C); discriminate. }
  apply enabled_info in EN. destruct EN as (t' & E). destruct (transfers_by_vote d e _ t' ST TY L D E) as (X & _).
  fold e3 in X. rewrite RS in X. injection X as ->. exact E.
Qed.

Lemma two_thirds_enable d e evs evs1 evs2 s : estarts d e ->
  let e2 := efinal d e (evs ++ evs1) in
  let owner := owner_account_id (w_lockup (ec_lockup e2)) in
  let all := ((evs ++ evs1) ++ ELockup (ECall owner 0 CheckTransfersVote) :: evs2)%list in
  Forall typed all -> all_within_limits d e all ->
  info e = TransfersDisabled (d_voting d) ->
  votes_through d (efinal d e evs) evs1 s ->
  owner <> g_self (d_lockup d) -> get_termination_status (w_lockup (ec_lockup e2)) = None ->
  (forall m, In m (w_msgs (ec_lockup (efinal d e all))) -> about_poll m = false) ->
  exists t, VM.get_result (VS.w_contract (ec_voting e2)) = Some t /\ info (efinal d e all) = TransfersEnabled t.
Proof.
  intros ST e2 owner all TY L D V NS T Q.
  destruct (prefix_ok _ _ _ _ TY L) as (TY0 & L0). apply Forall_app in TY0. destruct TY0 as [TY0 _].
  destruct (two_thirds_result d e evs evs1 s ST TY0 V) as (t & R). exists t. split; [exact R|].
  now apply asked_and_answered.
Qed.

Lemma a_third_prevents d e evs (no : account_id -> bool) :
  estarts d e -> Forall typed evs -> all_within_limits d e evs ->
  info e = TransfersDisabled (d_voting d) ->
  (forall who att ts, In (EVoting (VS.EvCall who att ts (VM.Vote true))) evs -> no who = false) ->
  (forall a b, evs = (a ++ b)%list ->
     VS.total_stake (ec_voting (efinal d e a)) <= 3 * VS.stake_for (ec_voting (efinal d e a)) no) ->
  info (efinal d e evs) = TransfersDisabled (d_voting d).
Proof.
  intros ST TY L D NV H. destruct (poll_is d e evs ST TY L D) as [P|(t & P)]; [exact P|]. exfalso.
  destruct (transfers_by_vote d e evs t ST TY L D P) as (R & _). rewrite voting_sees in R.
  rewrite (VotingPowerProofs.minority_blocks (ec_voting e) (voting_history evs) no (es_voting _ _ ST) (typed_voting _ TY)) in R.
  - discriminate.
  - intros who att ts I. apply in_voting_history in I. eapply NV; eauto.
  - intros a b E. destruct (history_prefix evs a b E) as (p & q & -> & <-). rewrite <- voting_sees with (d := d). now apply (H p q).
Qed.
