(** What the owner and the foundation can achieve among the contracts of EcoSpec. *)
From Coq Require Import NArith List Bool String Lia.
From Verif Require Import Prelude PreludeFacts MapFacts LockupModel LockupWorld LockupSpec LockupEffects LockupInv
  LockupMoves LockupLocked LockupBusy LockupTerm LockupHist LockupFacts LockupPoolSpec LockupPool LockupPoolLive
  EcoSpec EcoProofs EcoFacts.
From Verif Require StakingPoolHistory StakingPoolFacts StakingPoolCustomer LockupLive.
Import ListNotations.
Open Scope N_scope.

(** * A continuation of the lockup with one pool is one of all the contracts *)
Definition with_answers (d : deployment) (e : eco) (answers : world -> remote -> outcome) (w : world) (r : remote) : outcome :=
  match answer_of d e r with Some o => o | None => answers w r end.
Lemma with_possible d e answers : possible answers -> possible (with_answers d e answers).
Proof.
  intros P w r cb. unfold with_answers. destruct (answer_of d e r) as [o|] eqn:A; [|apply P].
  destruct r as [wl p|v| | |]; cbn in A; try discriminate.
  - destruct (String.eqb wl _); [|discriminate]. injection A as <-. now destruct (WM.is_whitelisted _ p).
  - destruct (String.eqb v _); [|discriminate]. injection A as <-. discriminate.
Qed.
Lemma with_transfers d e answers : (forall w to a, answers w (RTransfer to a) = ODone) ->
  forall w to a, with_answers d e answers w (RTransfer to a) = ODone.
Proof. intros H w to a. apply H. Qed.

Lemma answer_same d e e' r : ec_whitelist e' = ec_whitelist e -> ec_voting e' = ec_voting e -> answer_of d e' r = answer_of d e r.
Proof. intros W V. unfold answer_of. now rewrite W, V. Qed.

Lemma pool_step_is d e p l sev : ec_pools e p = Some l ->
  let sys := mkSystem (ec_lockup e) (now p l) in
  let e' := fst (pool_step d e p sev) in
  ec_lockup e' = sy_lockup (sstep (d_lockup d) p sys sev) /\
  snd (pool_step d e p sev) = snd (sstep_obs (d_lockup d) p sys sev) /\
  exists l', ec_pools e' p = Some l' /\ now p l' = sy_pool (sstep (d_lockup d) p sys sev) /\ l_born l' = l_born l.
Proof.
  intros E sys. cbv zeta. unfold pool_step. rewrite E. cbv zeta. fold sys.
  set (l' := mkLife (l_born l) match pool_event (d_lockup d) p sys sev with Some x => l_past l ++ [x] | None => l_past l end%list).
  unfold sstep. destruct (sstep_obs (d_lockup d) p sys sev) as [s o] eqn:S. cbn [fst snd ec_lockup ec_pools].
  split; [reflexivity|]. split; [reflexivity|]. exists l'. split; [apply set_life_same|]. split; [|reflexivity].
  replace s with (sstep (d_lockup d) p sys sev) by (unfold sstep; now rewrite S). rewrite sstep_pool. unfold l'.
  destruct (pool_event (d_lockup d) p sys sev); [|reflexivity]. unfold now at 1. cbn [l_born l_past]. now rewrite now_snoc.
Qed.

Lemma lifts d e0 answers lk p who methods sevs : forall sys e l,
  all_alone (with_answers d e0 answers) lk (d_lockup d) p who methods sys sevs ->
  ec_lockup e = sy_lockup sys -> ec_pools e p = Some l -> now p l = sy_pool sys ->
  ec_whitelist e = ec_whitelist e0 -> ec_voting e = ec_voting e0 ->
  exists evs l', all_ealone answers lk d p who methods e evs /\
    let e' := efinal d e evs in
    ec_lockup e' = sy_lockup (sfinal (d_lockup d) p sys sevs) /\ ec_pools e' p = Some l' /\
    now p l' = sy_pool (sfinal (d_lockup d) p sys sevs) /\
    elog d e evs = slog (d_lockup d) p sys sevs.
Proof.
  induction sevs as [|sev sevs IH]; intros sys e l A EL EP EN EW EV.
  - exists [], l. cbn. auto.
  - cbn [all_alone] in A. destruct A as (A & AS).
    assert (GO : forall ev, ealone answers lk p who methods e ev ->
      ec_lockup (estep d e ev) = sy_lockup (sstep (d_lockup d) p sys sev) ->
      snd (estep_obs d e ev) = snd (sstep_obs (d_lockup d) p sys sev) ->
      (exists l1, ec_pools (estep d e ev) p = Some l1 /\ now p l1 = sy_pool (sstep (d_lockup d) p sys sev)) ->
      ec_whitelist (estep d e ev) = ec_whitelist e -> ec_voting (estep d e ev) = ec_voting e ->
      exists evs l', all_ealone answers lk d p who methods e evs /\
        let e' := efinal d e evs in
        ec_lockup e' = sy_lockup (sfinal (d_lockup d) p sys (sev :: sevs)) /\ ec_pools e' p = Some l' /\
        now p l' = sy_pool (sfinal (d_lockup d) p sys (sev :: sevs)) /\
        elog d e evs = slog (d_lockup d) p sys (sev :: sevs)).
    { intros ev G1 G2 G3 (l1 & G4 & G4') G5 G6. rewrite <- G5 in EW. rewrite <- G6 in EV.
      destruct (IH _ _ _ AS G2 G4 G4' EW EV) as (evs & l' & H1 & H2 & H3 & H4 & H5).
      exists (ev :: evs), l'. cbn [all_ealone efinal elog sfinal slog]. rewrite G3, H5. auto 10. }
    assert (ES : mkSystem (ec_lockup e) (now p l) = sys) by (rewrite EL, EN; now destruct sys).
    assert (OWN : forall ev le, sev = SLockup le -> involves p (sy_lockup sys) le = false ->
      estep_obs d e ev = lockup_step d e le -> ealone answers lk p who methods e ev ->
      exists evs l', all_ealone answers lk d p who methods e evs /\
        let e' := efinal d e evs in
        ec_lockup e' = sy_lockup (sfinal (d_lockup d) p sys (sev :: sevs)) /\ ec_pools e' p = Some l' /\
        now p l' = sy_pool (sfinal (d_lockup d) p sys (sev :: sevs)) /\
        elog d e evs = slog (d_lockup d) p sys (sev :: sevs)).
    { intros ev le -> NI HS HA. apply (GO ev HA); unfold estep; rewrite HS; cbn; unfold sstep; cbn [sstep_obs]; rewrite ?NI; cbn;
        rewrite ?EL; auto. exists l. auto. }
    assert (POOL : forall ev, estep_obs d e ev = pool_step d e p sev -> ealone answers lk p who methods e ev ->
      exists evs l', all_ealone answers lk d p who methods e evs /\
        let e' := efinal d e evs in
        ec_lockup e' = sy_lockup (sfinal (d_lockup d) p sys (sev :: sevs)) /\ ec_pools e' p = Some l' /\
        now p l' = sy_pool (sfinal (d_lockup d) p sys (sev :: sevs)) /\
        elog d e evs = slog (d_lockup d) p sys (sev :: sevs)).
    { intros ev HS HA. destruct (pool_step_is d e p l sev EP) as (P1 & P2 & l1 & P3 & P4 & _). rewrite ES in P1, P2, P4.
      pose proof (pool_step_keeps d e p sev) as (K1 & K2 & _).
      apply (GO ev HA); unfold estep; rewrite HS; eauto. }
    destruct sev as [le|pe|n lo].
    + destruct le as [t|x|q s u|x att m|n o|n]; cbn [alone] in A; try contradiction.
      * apply (OWN (ELockup (ECall x att m)) (ECall x att m)); auto.
      * destruct A as (r & cb & N & -> & NP).
        assert (NI : involves p (sy_lockup sys) (EDeliver n (with_answers d e0 answers (sy_lockup sys) r)) = false).
        { cbn. unfold request. rewrite N. destruct r; auto. destruct (NP pool op eq_refl). }
        assert (AK : asked e n = Some r) by (unfold asked; now rewrite EL, N).
        unfold with_answers in *. rewrite <- (answer_same d e0 e r EW EV) in *. destruct (answer_of d e r) as [o|] eqn:AO.
        -- destruct r as [wl q|v| | |]; try discriminate AO.
           ++ apply (OWN (EWhitelistServes n) (EDeliver n o)); auto; [|exact I].
              cbn [estep_obs]. unfold answers_it. rewrite AK, AO. reflexivity.
           ++ apply (OWN (EVotingServes n) (EDeliver n o)); auto; [|exact I].
              cbn [estep_obs]. unfold answers_it. rewrite AK, AO. reflexivity.
        -- apply (OWN (ELockup (EDeliver n (answers (sy_lockup sys) r))) (EDeliver n (answers (sy_lockup sys) r))); auto.
           ++ cbn [estep_obs decided_here]. rewrite AK. destruct r; rewrite ?AO; auto. destruct (NP pool op eq_refl).
           ++ cbn. exists r. now rewrite EL.
      * apply (OWN (ELockup (ERun n)) (ERun n)); auto.
    + destruct pe as [? ? ? ? ?|?|nx]; try contradiction. apply (POOL (EPool p (SS.EvEpoch nx))); reflexivity.
    + apply (POOL (EPoolServes p n lo)); [reflexivity|]. cbn in *. split; [reflexivity|].
      intros l0 E0. rewrite EP in E0. injection E0 as <-. now rewrite ES.
Qed.

(** * From reachable states *)
Lemma efit d e evs p :
  estarts d e -> Forall typed evs -> all_within_limits d e evs -> policy d e evs ->
  let e' := efinal d e evs in
  get_staking_pool_account_id (w_lockup (ec_lockup e')) = Some p -> ready d e' p ->
  exists l, ec_pools e' p = Some l /\ g_self (d_lockup d) <> p /\
    let S0 := SM.total_stake_shares (SS.w_pool (l_born l)) in
    let sys := mkSystem (ec_lockup e') (now p l) in
    S0 <> 0 /\ fit (d_lockup d) p S0 1 sys /\ epoch sys + 4 < U64_BOUND.
Proof.
  intros ST TY L PO e' Sel R. destruct (selected_exists d e evs p ST TY L PO Sel) as (l & E). fold e' in E.
  destruct (R l E) as (Ow & R1 & R2 & R3).
  destruct (pools_of_factory d e evs ST TY L) as (_ & _ & PF). destruct (PF _ _ E) as ((W1 & W2 & W3) & _).
  pose proof (all_limits_now _ _ _ _ _ L E) as LI.
  destruct (erefine d e evs ST TY L) as ((T & _) & _). fold e' in T.
  destruct (eguarantees d e evs ST TY L PO) as (levs & E1 & _ & _ & E4 & _). fold e' in E1.
  destruct (SF.within_winv _ _ _ W1 LI) as (W & K & B). fold (now p l) in W.
  exists l. split; [exact E|]. split; [exact W3|]. cbv zeta. split; [lia|]. split; [|exact R3].
  pose proof (inv_start _ _ (es_lockup _ _ ST)) as I0.
  assert (I : inv (ec_lockup e')) by (rewrite E1; now apply inv_final).
  split; cbn [sy_lockup sy_pool].
  - exact I.
  - rewrite E1. apply steady_final; [exact I0|exact (steady_start _ _ (es_lockup _ _ ST))|exact E4].
  - unfold tied. cbn. now rewrite (T _ _ E).
  - eexists. split; [exact W|]. pose proof (to_stake_scnt (w_msgs (ec_lockup e'))) as TS. pose proof (i_one _ I) as O.
    change fund with SM.STAKE_SHARE_PRICE_GUARANTEE_FUND. lia.
  - exact R2.
  - unfold ripens, epoch. cbn [sy_pool]. unfold now.
    destruct (SF.avail_history p (l_born l) (l_past l) (g_self (d_lockup d)) W1) as (A1 & [A2|(en & A2 & A3 & A4)]).
    + rewrite A2. lia.
    + rewrite A4. destruct (A1 _ A2 A3) as (A5 & _). change SM.NUM_EPOCHS_TO_UNLOCK with 4. lia.
  - exact Ow.
  - exact Sel.
Qed.

Lemma eowner_leaves d e evs p answers lk :
  estarts d e -> Forall typed evs -> all_within_limits d e evs -> policy d e evs ->
  let e' := efinal d e evs in
  let w := ec_lockup e' in
  let owner := owner_account_id (w_lockup w) in
  get_staking_pool_account_id (w_lockup w) = Some p -> get_termination_status (w_lockup w) = None ->
  owner <> g_self (d_lockup d) -> ready d e' p -> possible answers -> unlocks (d_lockup d) lk ->
  exists evs2, all_ealone answers lk d p owner owner_method e' evs2 /\
    let e2 := efinal d e' evs2 in
    w_msgs (ec_lockup e2) = [] /\ busy (w_lockup (ec_lockup e2)) = false /\ reported d e2 0 /\
    controlled w <= w_balance (ec_lockup e2).
Proof.
  intros ST TY L PO e' w owner Sel HT Ho R P U.
  destruct (efit d e evs p ST TY L PO Sel R) as (l & E & Hs & NZ & F & HE). fold e' w in E, F, HE.
  destruct (leaves_from _ _ _ _ (with_answers d e' answers) lk F HE NZ HT Hs Ho (with_possible _ _ _ P) U)
    as (se & A & M & B & X & C & F2).
  destruct (lifts d e' answers lk p owner owner_method se _ e' l A eq_refl E eq_refl eq_refl eq_refl)
    as (evs2 & l' & G1 & G2 & G3 & G4 & _).
  exists evs2. split; [exact G1|]. cbv zeta. rewrite G2. split; [exact M|]. split; [exact B|]. split; [|exact C].
  unfold reported. rewrite G2, (f_sel _ _ _ _ _ F2). exists l'. split; [exact G3|]. rewrite G4.
  destruct (f_pool _ _ _ _ _ F2) as (k & W & K).
  set (S0 := SM.total_stake_shares (SS.w_pool (l_born l))) in *.
  set (sys2 := sfinal (d_lockup d) p (mkSystem w (now p l)) se) in *. cbn [sy_lockup] in *. fold sys2 in F2, X, W, K |- *.
  assert (SO : sound S0 k (sy_pool sys2)).
  { split; [exact W|]. split; [change fund with SM.STAKE_SHARE_PRICE_GUARANTEE_FUND in K; lia|eapply fit_total; [exact NZ|exact F2]]. }
  destruct (pool_view_works PGetTotal _ _ _ (g_self (d_lockup d)) SO NZ) as (x & V). cbn [pool_view] in V.
  rewrite V. pose proof (SC.total_view_ok _ _ _ V) as Y. rewrite <- worth_value, X in Y. cbn in Y. now subst x.
Qed.

Lemma eowner_cashes_out d e evs p answers lk locked (r : account_id) :
  estarts d e -> Forall typed evs -> all_within_limits d e evs -> policy d e evs ->
  public_schedule_sane (w_lockup (ec_lockup e)) -> all_lockup (reveals_covered (d_lockup d)) d e evs ->
  let e' := efinal d e evs in
  let w := ec_lockup e' in
  let owner := owner_account_id (w_lockup w) in
  get_staking_pool_account_id (w_lockup w) = Some p -> get_termination_status (w_lockup w) = None ->
  owner <> g_self (d_lockup d) -> ready d e' p -> possible answers ->
  (forall w to a, answers w (RTransfer to a) = ODone) -> unlocks (d_lockup d) lk ->
  are_transfers_enabled (w_lockup w) = true -> get_locked_amount (w_lockup w) (w_time w) = Ok locked ->
  N.max locked MIN_BALANCE_FOR_STORAGE < controlled w -> is_valid_account_id r = true ->
  exists evs2 a, all_ealone answers lk d p owner owner_method e' evs2 /\
    In (BPaid r a false) (elog d e' evs2) /\
    controlled w <= a + N.max locked MIN_BALANCE_FOR_STORAGE.
Proof.
  intros ST TY L PO Sn Rv e' w owner Sel HT Ho R P Tr U En Lo Hlt Hr.
  destruct (efit d e evs p ST TY L PO Sel R) as (l & E & Hs & NZ & F & HE). fold e' w in E, F, HE.
  destruct (eguarantees d e evs ST TY L PO) as (levs & E1 & _ & _ & _ & E5). fold e' w in E1.
  assert (Cov : covered w).
  { rewrite E1. apply covered_final; [apply (inv_start _ _ (es_lockup _ _ ST))|apply (covered_start _ _ (es_lockup _ _ ST) Sn)|now apply E5]. }
  destruct (cashes_out_from _ _ _ _ (with_answers d e' answers) lk locked r F HE NZ Cov HT Hs Ho
    (with_possible _ _ _ P) (with_transfers _ _ _ Tr) U En Lo Hlt Hr) as (se & a & A & B & C).
  destruct (lifts d e' answers lk p owner owner_method se _ e' l A eq_refl E eq_refl eq_refl eq_refl)
    as (evs2 & l' & G1 & _ & _ & _ & G5).
  exists evs2, a. rewrite G5. auto.
Qed.

Lemma efoundation_collects d e evs le u evs1 p answers lk (r : account_id) :
  estarts d e -> public_schedule_sane (w_lockup (ec_lockup e)) ->
  let all := (evs ++ ELockup le :: evs1)%list in
  Forall typed all -> all_within_limits d e all -> policy d e all -> all_lockup (reveals_covered (d_lockup d)) d e all ->
  terminates (d_lockup d) (ec_lockup (efinal d e evs)) le u ->
  let e' := efinal d e all in
  get_staking_pool_account_id (w_lockup (ec_lockup e')) = Some p -> ready d e' p ->
  possible answers -> (forall w to a, answers w (RTransfer to a) = ODone) -> unlocks (d_lockup d) lk ->
  is_valid_account_id r = true ->
  exists f evs2, foundation_account_id (w_lockup (ec_lockup (efinal d e evs))) = Some f /\
    all_ealone answers lk d p f foundation_method e' evs2 /\
    u <= received (elog d e (all ++ evs2)) + MIN_BALANCE_FOR_STORAGE.
Proof.
  intros ST Sn all TY L PO Rv Te e' Sel R P Tr U Hr.
  destruct (efit d e all p ST TY L PO Sel R) as (l & E & Hs & NZ & F & HE). fold e' in E, F, HE.
  destruct (policy_suffices d e all ST TY L PO) as (Ka & V).
  set (g := d_lockup d) in *. set (w0 := ec_lockup e) in *.
  assert (ND : decided_here d (efinal d e evs) le = false).
  { destruct Te as (f & o & vs & l0 & -> & _). reflexivity. }
  assert (Ha : all = ((evs ++ [ELockup le]) ++ evs1)%list) by (unfold all; now rewrite <- app_assoc).
  assert (TY0 : Forall typed evs /\ Forall typed (evs ++ [ELockup le])).
  { rewrite Ha in TY. apply Forall_app in TY. destruct TY as [TY _]. split; [|exact TY]. apply Forall_app in TY. apply TY. }
  destruct TY0 as (TY0 & TY1).
  assert (L1 : all_within_limits d e (evs ++ [ELockup le])) by (rewrite Ha in L; eapply all_limits_prefix, L).
  pose proof (all_limits_prefix _ _ _ _ L1) as L0.
  destruct (erefine d e evs ST TY0 L0) as (T & _ & l1 & E1 & G1 & K1 & V1 & R1). cbv zeta in *. fold g w0 in E1, G1, K1, V1, R1.
  destruct (erefine_step d e evs (ELockup le) ST TY1 L1 T) as (_ & _ & ls & E2 & G2 & K2 & V2 & R2 & S2).
  specialize (S2 le eq_refl ND). subst ls. fold g in E2, G2, K2, V2, R2.
  rewrite Ha in TY, L. destruct (erefine_more d e (evs ++ [ELockup le]) evs1 ST TY L) as (l2 & E3 & G3 & K3 & V3 & R3).
  fold g in E3, G3, K3, V3, R3.
  unfold all in Ka, V, Rv. rewrite all_lockup_app in Ka, V, Rv. cbn [all_lockup] in Ka, V, Rv.
  set (m := efinal d e evs) in *.
  assert (Em : efinal d e (evs ++ [ELockup le]) = estep d m (ELockup le)) by (rewrite efinal_app; reflexivity).
  rewrite Em in *. destruct Ka as (Ka1 & Ka2 & Ka3), V as (Va1 & Va2 & Va3), Rv as (Rv1 & Rv2 & Rv3).
  specialize (K1 Ka1). specialize (K2 Ka2). specialize (K3 Ka3). specialize (V1 Va1). specialize (V2 Va2). specialize (V3 Va3).
  specialize (R1 Rv1). specialize (R2 Rv2). specialize (R3 Rv3).
  rewrite E1 in E2, G2, K2, V2, R2, Te. rewrite E2 in E3, G3, K3, V3, R3. cbn [final] in E3, G3, K3, V3, R3.
  assert (Join : forall Q, all_events Q g w0 l1 -> all_events Q g (final g w0 l1) [le] ->
    all_events Q g (step g (final g w0 l1) le) l2 -> all_events Q g w0 (l1 ++ le :: l2)).
  { intros Q Q1 (Q2 & _) Q3. apply all_events_app. split; [exact Q1|]. split; assumption. }
  assert (Ew : ec_lockup e' = final g w0 (l1 ++ le :: l2)).
  { unfold e'. rewrite Ha, efinal_app, Em, E3, final_app. reflexivity. }
  assert (Eg : elog d e all = log g w0 (l1 ++ le :: l2)).
  { unfold all. rewrite elog_app, log_app. cbn [elog log]. fold m. rewrite G1, G2, G3. cbn [log]. now rewrite app_nil_r. }
  destruct (good_history g w0 l1 le u l2 (es_lockup _ _ ST) Sn Te) as (f & Hf & Hfs & Hgood); try (apply Join; assumption).
  rewrite <- Ew in Hgood.
  destruct (collects_from g p _ (mkSystem (ec_lockup e') (now p l)) (with_answers d e' answers) lk w0 l1 le l2 u r (es_lockup _ _ ST) Te Ew F HE NZ Hs
     (with_possible _ _ _ P) (with_transfers _ _ _ Tr) U Hr f Hfs Hgood) as (se & A & B).
  destruct (lifts d e' answers lk p f foundation_method se _ e' l A eq_refl E eq_refl eq_refl eq_refl)
    as (evs2 & l' & H1 & _ & _ & _ & H5).
  exists f, evs2. split; [now rewrite E1|]. split; [exact H1|]. rewrite elog_app. fold e'. now rewrite Eg, H5.
Qed.
