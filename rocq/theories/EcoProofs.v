(** Proofs about the contracts together (EcoSpec). *)
From Coq Require Import NArith List Bool String Lia Permutation.
From Verif Require Import Prelude PreludeFacts MapFacts LockupModel LockupWorld LockupSpec LockupEffects LockupInv
  LockupMoves LockupLocked LockupBusy LockupTerm LockupHist LockupFacts LockupPoolSpec LockupPool EcoSpec.
From Verif Require WhitelistProofs VotingFacts PoolFactoryProofs StakingPoolHistory StakingPoolFacts StakingPoolCustomer.
Import ListNotations.
Open Scope N_scope.

Module WP := WhitelistProofs.
Module FP := PoolFactoryProofs.

Lemma efinal_app d e a b : efinal d e (a ++ b) = efinal d (efinal d e a) b.
Proof. revert e. induction a; cbn; auto. Qed.
Lemma elog_app d e a b : elog d e (a ++ b) = (elog d e a ++ elog d (efinal d e a) b)%list.
Proof. revert e. induction a as [|x a IH]; intros e; cbn; [reflexivity|]. now rewrite IH, app_assoc. Qed.
Lemma whitelist_history_app d e a b :
  whitelist_history d e (a ++ b) = (whitelist_history d e a ++ whitelist_history d (efinal d e a) b)%list.
Proof.
  revert e. induction a as [|x a IH]; intros e; cbn; [reflexivity|].
  destruct (whitelist_event d e x); cbn; now rewrite IH.
Qed.
Lemma all_lockup_app P d e a b :
  all_lockup P d e (a ++ b) <-> all_lockup P d e a /\ all_lockup P d (efinal d e a) b.
Proof. revert e. induction a as [|x a IH]; intros e; cbn; [tauto|]. rewrite IH. tauto. Qed.

(** * What each contract sees *)
Lemma pool_step_keeps d e p ev :
  let e' := fst (pool_step d e p ev) in
  ec_whitelist e' = ec_whitelist e /\ ec_voting e' = ec_voting e /\ ec_factory e' = ec_factory e /\
  ec_adds e' = ec_adds e.
Proof.
  unfold pool_step. destruct (ec_pools e p) as [l|]; [|auto]. cbv zeta.
  destruct (sstep_obs _ _ _ _) as [s o]. cbn. auto.
Qed.
Lemma answers_it_keeps d e n f :
  let e' := fst (answers_it d e n f) in
  ec_whitelist e' = ec_whitelist e /\ ec_voting e' = ec_voting e /\ ec_factory e' = ec_factory e /\
  ec_adds e' = ec_adds e /\ ec_pools e' = ec_pools e.
Proof.
  unfold answers_it. destruct (asked e n) as [r|]; [|auto]. destruct (f r); [|auto].
  now destruct (answer_of d e r).
Qed.

Lemma estep_whitelist d e ev :
  ec_whitelist (estep d e ev) =
  match whitelist_event d e ev with Some x => WS.step (ec_whitelist e) x | None => ec_whitelist e end.
Proof.
  unfold estep. destruct ev; cbn [estep_obs whitelist_event]; try (apply pool_step_keeps); try (apply answers_it_keeps);
    try reflexivity.
  - now destruct (decided_here d e ev).
  - now destruct (String.eqb who (d_factory d)).
  - destruct (nth_error (ec_adds e) n); reflexivity.
  - now destruct (FS.step_obs _ _ _).
Qed.
Lemma estep_voting d e ev :
  ec_voting (estep d e ev) = match ev with EVoting x => VS.step (ec_voting e) x | _ => ec_voting e end.
Proof.
  unfold estep. destruct ev; cbn [estep_obs]; try (apply pool_step_keeps); try (apply answers_it_keeps); try reflexivity.
  - now destruct (decided_here d e ev).
  - now destruct (whitelist_event d e _).
  - now destruct (whitelist_event d e _).
  - now destruct (FS.step_obs _ _ _).
Qed.
Lemma estep_factory d e ev :
  ec_factory (estep d e ev) = match ev with EFactory x => FS.step (d_factory d) (ec_factory e) x | _ => ec_factory e end.
Proof.
  unfold estep. destruct ev; cbn [estep_obs]; try (apply pool_step_keeps); try (apply answers_it_keeps); try reflexivity.
  - now destruct (decided_here d e ev).
  - now destruct (whitelist_event d e _).
  - now destruct (whitelist_event d e _).
  - unfold FS.step. now destruct (FS.step_obs _ _ _).
Qed.
Lemma estep_adds d e ev :
  ec_adds (estep d e ev) =
  match ev with
  | EFactory x => ec_adds e ++ adds_of (d_whitelist d) (snd (FS.step_obs (d_factory d) (ec_factory e) x))
  | EAdd n => drop_nth n (ec_adds e)
  | _ => ec_adds e
  end%list.
Proof.
  unfold estep. destruct ev; cbn [estep_obs]; try (apply pool_step_keeps); try (apply answers_it_keeps); try reflexivity.
  - now destruct (decided_here d e ev).
  - now destruct (whitelist_event d e _).
  - cbn [whitelist_event]. destruct (nth_error (ec_adds e) n) eqn:E; [reflexivity|]. cbn.
    symmetry. clear - E. revert n E. induction (ec_adds e) as [|a r IH]; intros [|n] E; cbn in *; try reflexivity; [discriminate|].
    now rewrite IH.
  - now destruct (FS.step_obs _ _ _).
Qed.

Lemma voting_sees d e evs : ec_voting (efinal d e evs) = VS.final (ec_voting e) (voting_history evs).
Proof.
  revert e. induction evs as [|ev evs IH]; intros e; [reflexivity|]. cbn [efinal]. rewrite IH, estep_voting.
  unfold voting_history. cbn [flat_map]. destruct ev; reflexivity.
Qed.
Lemma factory_sees d e evs :
  ec_factory (efinal d e evs) = FS.final (d_factory d) (ec_factory e) (factory_history evs).
Proof.
  revert e. induction evs as [|ev evs IH]; intros e; [reflexivity|]. cbn [efinal]. rewrite IH, estep_factory.
  unfold factory_history. cbn [flat_map]. destruct ev; reflexivity.
Qed.
Lemma whitelist_sees d e evs :
  ec_whitelist (efinal d e evs) = WS.final (ec_whitelist e) (whitelist_history d e evs).
Proof.
  revert e. induction evs as [|ev evs IH]; intros e; [reflexivity|]. cbn [efinal whitelist_history]. rewrite IH, estep_whitelist.
  destruct (whitelist_event d e ev); reflexivity.
Qed.

Lemma factory_history_snoc evs ev :
  factory_history (evs ++ [ev]) = (factory_history evs ++ match ev with EFactory x => [x] | _ => [] end)%list.
Proof. unfold factory_history. rewrite flat_map_app. cbn [flat_map]. now rewrite app_nil_r. Qed.
Lemma voting_history_snoc evs ev :
  voting_history (evs ++ [ev]) = (voting_history evs ++ match ev with EVoting x => [x] | _ => [] end)%list.
Proof. unfold voting_history. rewrite flat_map_app. cbn [flat_map]. now rewrite app_nil_r. Qed.

(** * Whitelisted pools *)
Definition flog d e evs := FS.log (d_factory d) (ec_factory e) (factory_history evs).
Lemma flog_snoc d e evs ev :
  flog d e (evs ++ [ev]) =
  (flog d e evs ++ match ev with
                   | EFactory x => snd (FS.step_obs (d_factory d) (ec_factory (efinal d e evs)) x)
                   | _ => [] end)%list.
Proof.
  unfold flog. rewrite factory_history_snoc, FP.log_app, factory_sees. f_equal.
  destruct ev; try reflexivity. cbn. now rewrite app_nil_r.
Qed.

Lemma adds_whitelisted wl l a : In a (adds_of wl l) -> In (wl, a) (FS.whitelisted l).
Proof.
  unfold adds_of, FS.whitelisted. rewrite !in_flat_map. intros (o & I & J). exists o. split; [exact I|].
  destruct o as [| | | |w b|]; cbn in J |- *; try contradiction. destruct (String.eqb_spec w wl); [|contradiction].
  destruct J as [->|[]]. subst. auto.
Qed.
Lemma whitelisted_app l l' : FS.whitelisted (l ++ l') = (FS.whitelisted l ++ FS.whitelisted l')%list.
Proof. apply flat_map_app. Qed.

Lemma in_drop {A} n (l : list A) x : In x (drop_nth n l) -> In x l.
Proof. revert n. induction l as [|y l IH]; intros [|n]; cbn; auto. intros [->|H]; eauto. Qed.

Lemma adds_were_sent d e evs : estarts d e ->
  (forall a, In a (ec_adds (efinal d e evs)) -> In (d_whitelist d, a) (FS.whitelisted (flog d e evs))) /\
  (forall ev, In ev (whitelist_history d e evs) -> WS.e_who ev = d_factory d ->
     exists a, WS.e_call ev = WM.AddStakingPool a /\ In (d_whitelist d, a) (FS.whitelisted (flog d e evs))).
Proof.
  intros ST. induction evs as [|ev evs [IH1 IH2]] using rev_ind.
  - cbn. rewrite (es_adds _ _ ST). split; [intros a []|intros ev []].
  - rewrite efinal_app, flog_snoc, whitelist_history_app, whitelisted_app. cbn [efinal whitelist_history].
    assert (M : forall a, In (d_whitelist d, a) (FS.whitelisted (flog d e evs)) ->
      In (d_whitelist d, a) (FS.whitelisted (flog d e evs) ++
        FS.whitelisted match ev with EFactory x => snd (FS.step_obs (d_factory d) (ec_factory (efinal d e evs)) x) | _ => [] end)).
    { intros a H. apply in_or_app. auto. }
    split.
    + intros a. rewrite estep_adds. destruct ev; auto.
      * intros H. apply in_drop in H. auto.
      * intros H. apply in_app_or in H. destruct H as [H|H]; [auto|]. apply in_or_app. right. now apply adds_whitelisted.
    + intros x H HW. apply in_app_or in H. destruct H as [H|H].
      * destruct (IH2 _ H HW) as (a & A & B). eauto.
      * destruct (whitelist_event d (efinal d e evs) ev) as [y|] eqn:E; [|destruct H].
        destruct H as [<-|[]]. destruct ev; cbn [whitelist_event] in E; try discriminate.
        -- destruct (String.eqb_spec who (d_factory d)); [discriminate|]. injection E as <-. cbn in HW. congruence.
        -- destruct (nth_error (ec_adds (efinal d e evs)) n) as [a|] eqn:N; [|discriminate]. injection E as <-.
           exists a. split; [reflexivity|]. apply M, IH1. eapply nth_error_In; eassumption.
Qed.

(** A call by anybody else comes from the history. *)
Lemma others_calls d e evs x : In x (whitelist_history d e evs) -> WS.e_who x <> d_factory d ->
  In (EWhitelist (WS.e_who x) (WS.e_attached x) (WS.e_call x)) evs.
Proof.
  revert e. induction evs as [|ev evs IH]; intros e; cbn [whitelist_history]; [intros []|]. intros H HW.
  destruct (whitelist_event d e ev) as [y|] eqn:E.
  - destruct H as [->|H]; [|right; eauto]. left. destruct ev; cbn [whitelist_event] in E; try discriminate.
    + destruct (String.eqb who (d_factory d)); [discriminate|]. now injection E as <-.
    + destruct (nth_error (ec_adds e) n); [|discriminate]. injection E as <-. cbn in HW. congruence.
  - right. eauto.
Qed.

Lemma listed_factory_added fnd past f : WS.factory_listed fnd past f = true ->
  exists ev, In ev past /\ WS.e_who ev = fnd /\ WS.e_call ev = WM.AddFactory f.
Proof.
  induction past as [|ev past IH]; cbn [WS.factory_listed]; [discriminate|]. cbv zeta.
  assert (K : WS.factory_listed fnd past f = true ->
              exists ev0, In ev0 (ev :: past) /\ WS.e_who ev0 = fnd /\ WS.e_call ev0 = WM.AddFactory f).
  { intros L. destruct (IH L) as (x & I & C). exists x. split; [now right|exact C]. }
  destruct (WS.in_order ev && String.eqb (WS.e_who ev) fnd) eqn:B; auto.
  apply andb_true_iff in B. destruct B as [_ B]. apply String.eqb_eq in B.
  destruct (WS.e_call ev) as [q|q|q|q] eqn:C; auto.
  - destruct (String.eqb_spec q f); auto. subst. intros _. exists ev. split; [now left|auto].
  - destruct (String.eqb q f); auto. discriminate.
Qed.
Lemma listed_by fnd past p : WS.pool_listed fnd past p = true ->
  exists ev, In ev past /\ WS.e_call ev = WM.AddStakingPool p /\
    (WS.e_who ev = fnd \/
     exists ev', In ev' past /\ WS.e_who ev' = fnd /\ WS.e_call ev' = WM.AddFactory (WS.e_who ev)).
Proof.
  induction past as [|ev past IH]; cbn [WS.pool_listed]; [discriminate|]. cbv zeta.
  assert (K : WS.pool_listed fnd past p = true ->
    exists ev0, In ev0 (ev :: past) /\ WS.e_call ev0 = WM.AddStakingPool p /\
      (WS.e_who ev0 = fnd \/
       exists ev', In ev' (ev :: past) /\ WS.e_who ev' = fnd /\ WS.e_call ev' = WM.AddFactory (WS.e_who ev0))).
  { intros L. destruct (IH L) as (x & I & C & D). exists x. split; [now right|]. split; [exact C|].
    destruct D as [D|(y & Y & D)]; [auto|]. right. exists y. split; [now right|exact D]. }
  destruct (WS.in_order ev); auto. destruct (WS.e_call ev) as [q|q|q|q] eqn:C; auto.
  - destruct (_ && _) eqn:B; auto. intros _. apply andb_true_iff in B. destruct B as [B B'].
    apply String.eqb_eq in B. subst. exists ev. split; [now left|]. split; [exact C|].
    apply orb_true_iff in B'. destruct B' as [B'|B']; [left; now apply String.eqb_eq|right].
    destruct (listed_factory_added _ _ _ B') as (y & Y & D). exists y. split; [now right|exact D].
  - destruct (_ && _); auto. discriminate.
Qed.

Lemma whitelisted_created d e evs p : estarts d e -> policy d e evs ->
  WM.is_whitelisted (ec_whitelist (efinal d e evs)) p = Ok true -> In p (created d e evs).
Proof.
  intros ST PO L. destruct (es_whitelist _ _ ST) as (fnd & N0). rewrite whitelist_sees in L.
  destruct (adds_were_sent d e evs ST) as (_ & FC).
  assert (V : is_valid_account_id p = true) by (unfold WM.is_whitelisted in L; inv_res; auto).
  destruct (WP.answers_follow_history fnd _ (whitelist_history d e evs) N0) as [A _].
  rewrite (A p V) in L. injection L as L.
  assert (EF : WM.foundation_account_id (ec_whitelist e) = fnd).
  { unfold WM.new in N0. inv_res. match goal with H : _ = ec_whitelist e |- _ => now rewrite <- H end. }
  unfold policy in PO. rewrite EF, Forall_forall in PO.
  apply listed_by in L. destruct L as (ev & I & C & D). apply in_rev in I.
  assert (X : forall y, In y (whitelist_history d e evs) -> WS.e_call y = WM.AddStakingPool p ->
    WS.e_who y = d_factory d -> In p (created d e evs)).
  { intros y Y1 Y2 Y3. destruct (FC _ Y1 Y3) as (a & C' & W). rewrite Y2 in C'. injection C' as <-.
    assert (Y : In (d_whitelist d, p) (map (pair (d_whitelist d)) (created d e evs))).
    { eapply Permutation_in; [symmetry; eapply FP.whitelist_only_created; apply (es_factory _ _ ST)|]. apply in_or_app. auto. }
    apply in_map_iff in Y. destruct Y as (q & E & Y). congruence. }
  destruct (string_dec (WS.e_who ev) (d_factory d)) as [W|W]; [eauto|]. exfalso. apply W.
  destruct D as [D|(y & Y1 & Y2 & Y3)].
  - pose proof (others_calls _ _ _ _ I W) as O. specialize (PO _ O). cbn in PO. rewrite C in PO. destruct (PO D).
  - apply in_rev in Y1. destruct (string_dec (WS.e_who y) (d_factory d)) as [U|U].
    + destruct (FC _ Y1 U) as (a & C' & _). rewrite Y3 in C'. discriminate.
    + pose proof (others_calls _ _ _ _ Y1 U) as O. specialize (PO _ O). cbn in PO. rewrite Y3 in PO. auto.
Qed.

(** * The pools of the factory *)
Lemma smem_insert_mono a b (s : uset account_id) : smem a s = true -> smem a (sinsert b s) = true.
Proof. rewrite !smem_in. unfold sinsert. destruct (smem b s); [auto|]. intros H. apply in_or_app. auto. Qed.
Lemma smem_insert_self a (s : uset account_id) : smem a (sinsert a s) = true.
Proof.
  unfold sinsert. destruct (smem a s) eqn:E; [exact E|]. apply smem_in, in_or_app. right. left. reflexivity.
Qed.

Definition no_birth (l : list FS.obs) : Prop := forall who a x p, ~ In (FS.BCreated who a x p) l.
Lemma obs_of_no_birth who ps : no_birth (FS.obs_of who ps).
Proof.
  intros w a x p H. apply in_map_iff in H. destruct H as (q & E & _). destruct q; discriminate.
Qed.

Lemma factory_step_births self w ev :
  let w' := FS.step self w ev in
  let l := snd (FS.step_obs self w ev) in
  (forall a, smem a (FS.w_accounts w) = true -> smem a (FS.w_accounts w') = true) /\
  (no_birth l \/
   exists who a x p, l = [FS.BCreated who a x p] /\ smem a (FS.w_accounts w) = false /\
                     smem a (FS.w_accounts w') = true).
Proof.
  cbv zeta. unfold FS.step. destruct ev as [who att m|n gas ep|n|x|a]; cbn [FS.step_obs].
  - unfold FS.run. destruct (FM.exec _ _ _) as [[s ps]|]; [destruct (_ <=? _)|]; cbn [fst snd FS.w_accounts].
    + split; [auto|left; apply obs_of_no_birth].
    + split; [auto|left]. intros w1 a x p [H|[]]; discriminate.
    + split; [auto|left]. intros w1 a x p [H|[]]; discriminate.
  - destruct (nth_error (FS.w_msgs w) n) as [[a x args cb|cb ok]|]; try (split; [auto|left; intros ? ? ? ? []]).
    destruct (FS.create_pool self w a x args gas ep) as [p|] eqn:E; cbn [fst snd FS.w_accounts].
    + split; [intros; now apply smem_insert_mono|right]. exists (FS.payer cb), a, x, p. split; [reflexivity|].
      split; [|apply smem_insert_self]. unfold FS.create_pool in E. now destruct (smem a (FS.w_accounts w)).
    + split; [auto|left; intros ? ? ? ? []].
  - destruct (nth_error (FS.w_msgs w) n) as [[a x args cb|cb ok]|]; try (split; [auto|left; intros ? ? ? ? []]).
    unfold FS.run. destruct (FM.exec _ _ _) as [[s ps]|]; [destruct (_ <=? _)|]; cbn [fst snd FS.w_accounts].
    + split; [auto|left; apply obs_of_no_birth].
    + split; [auto|left]. intros w1 a x p [H|[]]; discriminate.
    + split; [auto|left]. intros w1 a x p [H|[]]; discriminate.
  - split; [auto|left; intros ? ? ? ? []].
  - cbn. split; [intros; now apply smem_insert_mono|left; intros ? ? ? ? []].
Qed.

Lemma births_none l pools : no_birth l -> births l pools = pools.
Proof.
  revert pools. induction l as [|o l IH]; intros pools H; [reflexivity|]. unfold births. cbn [fold_left].
  fold (births l). destruct o; try (apply IH; intros w a0 x0 p0 K; apply (H w a0 x0 p0); now right).
  exfalso. eapply H. left. reflexivity.
Qed.
Lemma set_life_same f p l : set_life f p l p = Some l.
Proof. unfold set_life. now rewrite String.eqb_refl. Qed.
Lemma set_life_other f p l q : q <> p -> set_life f p l q = f q.
Proof. unfold set_life. intros H. now destruct (String.eqb_spec q p). Qed.

(** How the pools change. *)
Lemma pool_step_pools d e p ev q :
  ec_pools (fst (pool_step d e p ev)) q =
  match ec_pools e q with
  | Some l => Some (if String.eqb q p then
                      mkLife (l_born l) match pool_event (d_lockup d) p (mkSystem (ec_lockup e) (now p l)) ev with
                                        | Some x => l_past l ++ [x] | None => l_past l end%list
                    else l)
  | None => None
  end.
Proof.
  unfold pool_step. destruct (ec_pools e p) as [l|] eqn:E.
  - destruct (sstep_obs _ _ _ _) as [s o]. cbn [fst ec_pools]. unfold set_life.
    destruct (String.eqb_spec q p) as [->|N]; [now rewrite E|]. now destruct (ec_pools e q).
  - cbn. destruct (ec_pools e q) as [l|] eqn:E'; [|reflexivity]. destruct (String.eqb_spec q p) as [->|]; congruence.
Qed.

Lemma estep_pools d e ev q :
  match ev with
  | EFactory x => ec_pools (estep d e ev) q = births (snd (FS.step_obs (d_factory d) (ec_factory e) x)) (ec_pools e) q
  | EPoolServes p n lk => ec_pools (estep d e ev) q = ec_pools (fst (pool_step d e p (SServe n lk))) q
  | EPool p pe => ec_pools (estep d e ev) q = ec_pools (fst (pool_step d e p (SPool pe))) q
  | _ => ec_pools (estep d e ev) q = ec_pools e q
  end.
Proof.
  unfold estep. destruct ev; cbn [estep_obs]; try reflexivity.
  - now destruct (decided_here d e ev).
  - now rewrite (proj2 (proj2 (proj2 (proj2 (answers_it_keeps d e n to_whitelist))))).
  - now rewrite (proj2 (proj2 (proj2 (proj2 (answers_it_keeps d e n to_voting))))).
  - now destruct (whitelist_event d e _).
  - now destruct (whitelist_event d e _).
  - now destruct (FS.step_obs _ _ _).
Qed.

Lemma created_app l l' : FS.created_pools (l ++ l') = (FS.created_pools l ++ FS.created_pools l')%list.
Proof. apply flat_map_app. Qed.
Lemma no_birth_created l : no_birth l -> FS.created_pools l = [].
Proof.
  induction l as [|o l IH]; intros H; [reflexivity|]. unfold FS.created_pools. cbn [flat_map]. fold (FS.created_pools l).
  rewrite IH; [|intros w a x p K; apply (H w a x p); now right].
  destruct o; try reflexivity. exfalso. eapply H. left. reflexivity.
Qed.

(** A pool was born as its factory made it. *)
Definition well_born (d : deployment) (p : account_id) (b : SS.world) : Prop :=
  SS.initial p b /\ 0 < SM.total_stake_shares (SS.w_pool b) /\ g_self (d_lockup d) <> p.

Lemma all_limits_prefix d e a b : all_within_limits d e (a ++ b) -> all_within_limits d e a.
Proof.
  intros H n p l E. apply (H (min n (List.length a))). rewrite firstn_app.
  replace (min n (List.length a) - List.length a)%nat with O by lia. cbn [firstn]. rewrite app_nil_r.
  destruct (PeanoNat.Nat.le_gt_cases n (List.length a)) as [L|L].
  - now rewrite PeanoNat.Nat.min_l by lia.
  - rewrite PeanoNat.Nat.min_r by lia. rewrite firstn_all. now rewrite firstn_all2 in E by lia.
Qed.
Lemma all_limits_now d e evs p l : all_within_limits d e evs -> ec_pools (efinal d e evs) p = Some l ->
  SS.within_limits p (l_born l) (l_past l).
Proof. intros H E. apply (H (List.length evs)). now rewrite firstn_all. Qed.

Lemma born_initial d e evs who a x p :
  estarts d e -> Forall typed evs -> In (FS.BCreated who a x p) (flog d e evs) -> x < U128_BOUND ->
  SS.initial a (SS.mkWorld p x (SM.last_epoch_height p)) /\ 0 < SM.total_stake_shares p.
Proof.
  intros ST TY I B. destruct (FP.created_as_asked _ _ _ _ _ _ _ _ (es_factory _ _ ST) I)
    as (name & owner & key & fee & epoch & A & _ & MIN & OW & (F1 & F2) & ->).
  assert (T : SM.numerator fee < U32_BOUND /\ SM.denominator fee < U32_BOUND).
  { unfold factory_history in A. apply in_flat_map in A. destruct A as (ev & A & A').
    rewrite Forall_forall in TY. specialize (TY _ A). destruct ev as [| | | | | | | |fe]; try destruct A'.
    - subst fe. exact TY.
    - contradiction. }
  assert (Z : SM.STAKE_SHARE_PRICE_GUARANTEE_FUND < x).
  { unfold FM.MIN_ATTACHED_BALANCE, SM.STAKE_SHARE_PRICE_GUARANTEE_FUND in *. lia. }
  split; [|cbn; unfold SM.STAKE_SHARE_PRICE_GUARANTEE_FUND in *; lia].
  exists (SM.mkCtx a (d_factory d) 0 x 0 epoch []), owner, key, fee.
  eexists. cbn [SM.ctx_current SM.ctx_attached SM.ctx_balance SM.ctx_epoch SS.w_pool SS.w_total SS.w_epoch SM.last_epoch_height].
  split; [reflexivity|]. split; [reflexivity|]. split; [exact B|]. split; [apply T|]. split; [apply T|].
  split; [|auto]. unfold SM.new. cbn [SM.ctx_balance SM.ctx_locked SM.ctx_epoch negb require bind].
  unfold SM.fraction_assert_valid. rewrite OW.
  rewrite sub_chk_intro by lia.
  replace (SM.denominator fee =? 0) with false by lia.
  replace (SM.numerator fee <=? SM.denominator fee) with true by lia.
  cbn. reflexivity.
Qed.

Lemma pools_of_factory d e evs : estarts d e -> Forall typed evs -> all_within_limits d e evs ->
  let e' := efinal d e evs in
  smem (g_self (d_lockup d)) (FS.w_accounts (ec_factory e')) = true /\
  (forall p, ec_pools e' p <> None <-> In p (created d e evs)) /\
  (forall p l, ec_pools e' p = Some l ->
     well_born d p (l_born l) /\ smem p (FS.w_accounts (ec_factory e')) = true).
Proof.
  intros ST. induction evs as [|ev evs IH] using rev_ind; intros TY L.
  - cbn. split; [apply (es_exists _ _ ST)|]. split.
    + intros p. rewrite (es_pools _ _ ST). split; [congruence|intros []].
    + intros p l. rewrite (es_pools _ _ ST). discriminate.
  - pose proof TY as TYA. apply Forall_app in TY. destruct TY as [TY TY1].
    destruct (IH TY (all_limits_prefix _ _ _ _ L)) as (I0 & I1 & I2). clear IH.
    set (e1 := efinal d e evs) in *. cbv zeta.
    assert (EF : efinal d e (evs ++ [ev]) = estep d e1 ev) by (rewrite efinal_app; reflexivity).
    rewrite EF. unfold created in *. fold (flog d e evs) in I1. fold (flog d e (evs ++ [ev])).
    rewrite flog_snoc, created_app. fold e1.
    assert (KEEP : (forall q, ec_pools (estep d e1 ev) q = None <-> ec_pools e1 q = None) ->
      (forall q l, ec_pools (estep d e1 ev) q = Some l -> exists l0, ec_pools e1 q = Some l0 /\ l_born l = l_born l0) ->
      (forall a, smem a (FS.w_accounts (ec_factory e1)) = true -> smem a (FS.w_accounts (ec_factory (estep d e1 ev))) = true) ->
      FS.created_pools match ev with EFactory x => snd (FS.step_obs (d_factory d) (ec_factory e1) x) | _ => [] end = [] ->
      smem (g_self (d_lockup d)) (FS.w_accounts (ec_factory (estep d e1 ev))) = true /\
      (forall p, ec_pools (estep d e1 ev) p <> None <->
         In p (FS.created_pools (flog d e evs) ++
               FS.created_pools match ev with EFactory x => snd (FS.step_obs (d_factory d) (ec_factory e1) x) | _ => [] end)) /\
      (forall p l, ec_pools (estep d e1 ev) p = Some l ->
         well_born d p (l_born l) /\ smem p (FS.w_accounts (ec_factory (estep d e1 ev))) = true)).
    { intros K1 K2 K3 K4. rewrite K4, app_nil_r. split; [auto|]. split.
      - intros p. rewrite K1. apply I1.
      - intros p l E. destruct (K2 _ _ E) as (l0 & E0 & ->). destruct (I2 _ _ E0). auto. }
    assert (SAME : (forall q, ec_pools (estep d e1 ev) q = ec_pools e1 q) -> ec_factory (estep d e1 ev) = ec_factory e1 ->
       FS.created_pools match ev with EFactory x => snd (FS.step_obs (d_factory d) (ec_factory e1) x) | _ => [] end = [] ->
       smem (g_self (d_lockup d)) (FS.w_accounts (ec_factory (estep d e1 ev))) = true /\
      (forall p, ec_pools (estep d e1 ev) p <> None <->
         In p (FS.created_pools (flog d e evs) ++
               FS.created_pools match ev with EFactory x => snd (FS.step_obs (d_factory d) (ec_factory e1) x) | _ => [] end)) /\
      (forall p l, ec_pools (estep d e1 ev) p = Some l ->
         well_born d p (l_born l) /\ smem p (FS.w_accounts (ec_factory (estep d e1 ev))) = true)).
    { intros S1 S2 S3. apply KEEP; auto.
      - intros q. now rewrite S1.
      - intros q l. rewrite S1. eauto.
      - now rewrite S2. }
    pose proof (estep_pools d e1 ev) as EP. pose proof (estep_factory d e1 ev) as EFa.
    destruct ev as [le|n|n|p n lk|p pe|who x m|n|ve|fe]; try (apply SAME; [exact EP|exact EFa|reflexivity]).
    + apply KEEP; auto.
      * intros q. rewrite EP, pool_step_pools. destruct (ec_pools e1 q); split; congruence.
      * intros q l. rewrite EP, pool_step_pools. destruct (ec_pools e1 q) as [l0|]; [|discriminate]. intros [= <-].
        exists l0. split; [reflexivity|]. now destruct (String.eqb q p).
      * now rewrite EFa.
    + apply KEEP; auto.
      * intros q. rewrite EP, pool_step_pools. destruct (ec_pools e1 q); split; congruence.
      * intros q l. rewrite EP, pool_step_pools. destruct (ec_pools e1 q) as [l0|]; [|discriminate]. intros [= <-].
        exists l0. split; [reflexivity|]. now destruct (String.eqb q p).
      * now rewrite EFa.
    + destruct (factory_step_births (d_factory d) (ec_factory e1) fe) as (B1 & B2). rewrite <- EFa in B1, B2.
      destruct B2 as [B2|(who & a & x & p & B2 & B3 & B4)].
      * apply KEEP; auto.
        -- intros q. rewrite EP, births_none by exact B2. tauto.
        -- intros q l. rewrite EP, births_none by exact B2. eauto.
        -- now apply no_birth_created.
      * split; [auto|]. rewrite B2 in *. cbn [births fold_left] in EP.
        split.
        -- intros q. rewrite EP, in_app_iff, <- I1. cbn. unfold set_life. destruct (String.eqb_spec q a) as [->|N].
           ++ split; [auto|discriminate].
           ++ split; [auto|]. intros [H|[H|[]]]; congruence.
        -- intros q l. rewrite EP. unfold set_life. destruct (String.eqb_spec q a) as [->|N].
           ++ intros [= <-]. split; [|exact B4]. cbn [l_born].
              assert (X : x < U128_BOUND).
              { destruct (all_limits_now d e (evs ++ [EFactory fe]) a (mkLife (SS.mkWorld p x (SM.last_epoch_height p)) []) L) as [_ X].
                - rewrite EF, EP. apply set_life_same.
                - exact X. }
              assert (IN : In (FS.BCreated who a x p) (flog d e (evs ++ [EFactory fe]))).
              { rewrite flog_snoc. fold e1. rewrite B2. apply in_or_app. right. left. reflexivity. }
              destruct (born_initial _ _ _ _ _ _ _ ST TYA IN X) as (W1 & W2).
              split; [exact W1|]. split; [exact W2|]. intros <-. congruence.
           ++ intros E. destruct (I2 _ _ E). auto.
Qed.

(** * What one event is for the lockup *)
Lemma answered_obs g w le r a : In (BAnswered r a) (snd (step_obs g w le)) ->
  exists n cb o, le = EDeliver n o /\ nth_error (w_msgs w) n = Some (MCall r cb) /\
    match r, a with
    | RIsWhitelisted _ _, ABool b => o = OBool b
    | RGetResult _, APollResult x => o = OPoll x
    | _, _ => False
    end.
Proof.
  destruct le as [t|x|p s u|who att m|n o|n]; cbn [step_obs].
  - destruct (_ && _); intros [].
  - intros [].
  - destruct (_ && _); intros [].
  - destruct (String.eqb who (g_self g)); [intros []|]. unfold run.
    destruct (exec _ _ _) as [[s [p|]]|]; [destruct (_ <=? _)| |]; cbn;
      intros H; repeat (destruct H as [H|H]; try discriminate H); contradiction.
  - destruct (nth_error (w_msgs w) n) as [[r' cb|cb r'|x]|] eqn:N; try (intros []).
    destruct o; cbn [execute].
    + destruct r'; intros [].
    + destruct r'; cbn; intros H; repeat (destruct H as [H|H]; try discriminate H); contradiction.
    + destruct r'; cbn; intros H; try contradiction. destruct H as [H|[]]. injection H as <- <-.
      exists n, cb. eauto.
    + destruct r'; cbn; intros H; try contradiction. destruct H as [H|[]]. injection H as <- <-.
      exists n, cb. eauto.
    + destruct r'; cbn; try (intros []). destruct (is_view op); intros [].
    + destruct r'; cbn [execute]; try (intros []). destruct (pool_keeps _ _ _); intros [].
  - destruct (nth_error (w_msgs w) n) as [[r' cb|cb r'|x]|] eqn:N; try (intros []). unfold run.
    cbv zeta. cbn [w_lockup w_balance w_time w_pools w_msgs].
    destruct (exec _ _ _) as [[s [p|]]|]; [destruct (_ <=? _)| |]; cbn;
      intros H; repeat (destruct H as [H|H]; try discriminate H); contradiction.
Qed.

(** The lockup does nothing; or something that the pools do not decide; or something with a pool. *)
Record lockup_moves (d : deployment) (e : eco) (ev : eevent) (le : event) : Prop := mkMoves {
  lm_step : estep_obs d e ev = lockup_step d e le;
  lm_growth : forall p s u, le <> EGrowth p s u;
  lm_pool : forall n o p op cb, le = EDeliver n o -> nth_error (w_msgs (ec_lockup e)) n = Some (MCall (RPool p op) cb) ->
            ec_pools e p = None /\ (smem p (FS.w_accounts (ec_factory e)) = true \/ o = OFail);
  lm_white : forall n p cb o, le = EDeliver n o ->
             nth_error (w_msgs (ec_lockup e)) n = Some (MCall (RIsWhitelisted (d_whitelist d) p) cb) ->
             o = OBool true -> WM.is_whitelisted (ec_whitelist e) p = Ok true;
  lm_vote : forall n cb o x, le = EDeliver n o ->
            nth_error (w_msgs (ec_lockup e)) n = Some (MCall (RGetResult (d_voting d)) cb) ->
            o = OPoll x -> x = VM.get_result (VS.w_contract (ec_voting e));
  lm_other : ev = ELockup le /\ decided_here d e le = false \/
             exists n o r cb, le = EDeliver n o /\ nth_error (w_msgs (ec_lockup e)) n = Some (MCall r cb) /\
                           forall p op, r <> RPool p op;
  lm_same : forall le', ev = ELockup le' -> le = le'
}.
Inductive seen (d : deployment) (e : eco) (ev : eevent) : Prop :=
| seen_idle : ec_lockup (estep d e ev) = ec_lockup e -> snd (estep_obs d e ev) = [] ->
    (forall q, ec_pools (estep d e ev) q = ec_pools e q \/
               ec_pools e q = None /\ (forall l, ec_pools (estep d e ev) q = Some l -> l_past l = []) /\
               smem q (FS.w_accounts (ec_factory e)) = false) -> seen d e ev
| seen_lockup le : lockup_moves d e ev le -> seen d e ev
| seen_pool p sev l : ec_pools e p = Some l -> (forall le, sev <> SLockup le) ->
    estep_obs d e ev = pool_step d e p sev -> (forall le, ev <> ELockup le) -> seen d e ev.

Lemma answers_seen d e ev n f : (ev = EWhitelistServes n /\ f = to_whitelist) \/ (ev = EVotingServes n /\ f = to_voting) ->
  seen d e ev.
Proof.
  intros HE. assert (HS : estep_obs d e ev = answers_it d e n f).
  { destruct HE as [[-> ->]|[-> ->]]; reflexivity. }
  assert (IDLE : answers_it d e n f = (e, []) -> seen d e ev).
  { intros H. apply seen_idle; unfold estep; rewrite HS, H; cbn; auto. }
  unfold answers_it in *. destruct (asked e n) as [r|] eqn:A; [|auto].
  destruct (f r) eqn:F; [|auto]. destruct (answer_of d e r) as [o|] eqn:O; [|auto].
  apply (seen_lockup d e ev (EDeliver n o)).
  unfold asked in A. destruct (nth_error (w_msgs (ec_lockup e)) n) as [[r' cb'|? ?|?]|] eqn:N; try discriminate.
  injection A as ->. split; auto.
  - discriminate.
  - intros n' o' p op cb [= <- <-] H. rewrite N in H. injection H as -> _. discriminate O.
  - intros n' p cb o' [= <- <-] H ->. rewrite N in H. injection H as -> _. cbn in O.
    rewrite String.eqb_refl in O. destruct (WM.is_whitelisted _ p) as [[|]|]; congruence.
  - intros n' cb o' x [= <- <-] H ->. rewrite N in H. injection H as -> _. cbn in O.
    rewrite String.eqb_refl in O. congruence.
  - right. exists n, o, r, cb'. split; [reflexivity|]. split; [exact N|]. intros p op ->. discriminate O.
  - intros le' ->. destruct HE as [[HE _]|[HE _]]; discriminate HE.
Qed.
Lemma pool_seen d e ev p sev : estep_obs d e ev = pool_step d e p sev -> (forall le, sev <> SLockup le) ->
  (forall le, ev <> ELockup le) -> seen d e ev.
Proof.
  intros HS N N'. destruct (ec_pools e p) as [l|] eqn:E.
  - eapply seen_pool; eauto.
  - unfold pool_step in HS. rewrite E in HS. apply seen_idle; unfold estep; rewrite HS; cbn; auto.
Qed.
Lemma always_seen d e ev :
  (forall p l, ec_pools e p = Some l -> smem p (FS.w_accounts (ec_factory e)) = true) -> seen d e ev.
Proof.
  intros HA.
  destruct ev as [le|n|n|p n lk|p pe|who x m|n|ve|fe].
  - destruct (decided_here d e le) eqn:D.
    + apply seen_idle; unfold estep; cbn; rewrite D; cbn; auto.
    + apply (seen_lockup d e (ELockup le) le). split; auto.
      * cbn. now rewrite D.
      * intros p s u ->. discriminate D.
      * intros n o p op cb -> H. cbn in D. unfold asked in D. rewrite H in D.
        destruct (ec_pools e p); [discriminate|]. split; [reflexivity|].
        destruct o; auto; left; now apply negb_false_iff.
      * intros n p cb o -> H _. cbn in D. unfold asked in D. rewrite H in D. cbn in D. rewrite String.eqb_refl in D. discriminate.
      * intros n cb o x -> H _. cbn in D. unfold asked in D. rewrite H in D. cbn in D. rewrite String.eqb_refl in D. discriminate.
      * intros le' [= <-]. reflexivity.
  - eapply answers_seen. left. auto.
  - eapply answers_seen. right. auto.
  - eapply pool_seen; [reflexivity|discriminate|discriminate].
  - eapply pool_seen; [reflexivity|discriminate|discriminate].
  - apply seen_idle; unfold estep; cbn [estep_obs]; destruct (whitelist_event d e _); cbn; auto.
  - apply seen_idle; unfold estep; cbn [estep_obs]; destruct (whitelist_event d e _); cbn; auto.
  - apply seen_idle; cbn; auto.
  - destruct (factory_step_births (d_factory d) (ec_factory e) fe) as (_ & B).
    apply seen_idle; unfold estep; cbn [estep_obs];
      destruct (FS.step_obs (d_factory d) (ec_factory e) fe) as [fw l] eqn:E; cbn [fst snd ec_lockup ec_pools]; auto.
    intros q. cbn [snd] in B. destruct B as [B|(who & a & x & p & B & B' & _)]; [left; now rewrite births_none|].
    subst l. cbn. unfold set_life. destruct (String.eqb_spec q a); [subst q|now left].
    destruct (ec_pools e a) eqn:Q; [specialize (HA _ _ Q); congruence|]. right. split; [reflexivity|].
    split; [intros l [= <-]; reflexivity|exact B'].
Qed.

(** * The lockup among the contracts behaves like the lockup in the abstract world *)
Lemma worth_born d p b : well_born d p b -> worth (SS.w_pool b) (g_self (d_lockup d)) = (0, 0).
Proof.
  intros (H & _). destruct (SH.initial_inv _ _ H) as (_ & HA & _).
  unfold worth, SS.record_of. rewrite HA. cbn [mget SM.stake_shares SM.unstaked]. rewrite N.mul_0_r.
  now destruct (SM.total_stake_shares _).
Qed.
Lemma now_snoc p l x : SS.final p (l_born l) (l_past l ++ [x]) = fst (SS.step p (now p l) x).
Proof. unfold now. rewrite SH.final_app. reflexivity. Qed.

Lemma life_sound d p l : well_born d p (l_born l) -> SS.within_limits p (l_born l) (l_past l) ->
  exists k, sound (SM.total_stake_shares (SS.w_pool (l_born l))) k (now p l).
Proof.
  intros (H & _) L. destruct (SF.within_winv _ _ _ H L) as (W & K & B). eexists. split; [exact W|]. auto.
Qed.

(** What the lockup owns at a pool of the factory is what the pool says; it owns nothing where there is no account. *)
Definition tied_all (d : deployment) (e : eco) : Prop :=
  (forall p l, ec_pools e p = Some l ->
     w_pools (ec_lockup e) p = worth (SS.w_pool (now p l)) (g_self (d_lockup d))) /\
  (forall p, smem p (FS.w_accounts (ec_factory e)) = false -> w_pools (ec_lockup e) p = (0, 0)).

Lemma only_created_called g w0 levs p op cb :
  starts g w0 -> In (MCall (RPool p op) cb) (w_msgs (final g w0 levs)) ->
  In (BAnswered (RIsWhitelisted (staking_pool_whitelist_account_id (w_lockup w0)) p) (ABool true)) (log g w0 levs).
Proof.
  intros H0 HM. pose proof (inv_start g w0 H0) as I0.
  pose proof (hist_ind _ g (pools_step _ g) w0 levs [] I0 (pools_start g w0 H0)) as HQ. cbn [app] in HQ.
  apply (q_in _ _ _ HQ). rewrite <- (q_pool _ _ _ HQ).
  pose proof (i_msgs _ (inv_final g w0 levs I0)) as IM. rewrite Forall_forall in IM. specialize (IM _ HM).
  cbn [msg_ok] in IM. destruct IM as (dd & cb' & E & _). unfold get_staking_pool_account_id. now rewrite E.
Qed.

Lemma created_mono d e evs ev p : In p (created d e evs) -> In p (created d e (evs ++ [ev])).
Proof.
  unfold created. fold (flog d e evs). fold (flog d e (evs ++ [ev])). rewrite flog_snoc, created_app.
  intros H. apply in_or_app. auto.
Qed.

Definition was_listed (d : deployment) (e : eco) (evs : list eevent) (p : account_id) : Prop :=
  exists a b, evs = (a ++ b)%list /\ WM.is_whitelisted (ec_whitelist (efinal d e a)) p = Ok true.
Lemma was_listed_more d e evs ev p : was_listed d e evs p -> was_listed d e (evs ++ [ev]) p.
Proof. intros (a & b & -> & H). exists a, (b ++ [ev])%list. split; [now rewrite app_assoc|exact H]. Qed.

Lemma fails_keeps g w n cb r : nth_error (w_msgs w) n = Some (MCall r cb) -> w_pools (step g w (EDeliver n OFail)) = w_pools w.
Proof. intros N. unfold step. cbn [step_obs]. rewrite N. destruct r; reflexivity. Qed.

Lemma pool_step_others g p sys sev q : (forall le, sev <> SLockup le) -> q <> p ->
  w_pools (sy_lockup (sstep g p sys sev)) q = w_pools (sy_lockup sys) q /\ snd (sstep_obs g p sys sev) = [].
Proof.
  intros S2 Q. unfold sstep. destruct sev as [le|pe|n lk]; cbn [sstep_obs].
  - destruct (S2 le eq_refl).
  - destruct (pool_event g p sys (SPool pe)); cbn; [|auto]. split; [now apply set_pool_other|reflexivity].
  - destruct (request p (sy_lockup sys) n) as [[op cb]|]; [|auto].
    destruct (pool_event g p sys (SServe n lk)) as [e0|].
    + destruct (SS.step p (sy_pool sys) e0) as [pw [ps|]]; cbn; [|auto]. split; [now apply set_pool_other|reflexivity].
    + destruct (pool_view _ _ _); auto.
Qed.

(** A condition on one event of the lockup that the contracts here do not decide. *)
Definition undecided (P : world -> event -> Prop) (d : deployment) (e : eco) (ev : eevent) : Prop :=
  match ev with ELockup le => decided_here d e le = false -> P (ec_lockup e) le | _ => True end.

Lemma erefine_step d e evs ev :
  estarts d e -> Forall typed (evs ++ [ev]) -> all_within_limits d e (evs ++ [ev]) ->
  let e1 := efinal d e evs in
  let e' := estep d e1 ev in
  let g := d_lockup d in
  tied_all d e1 ->
  tied_all d e' /\
  (forall p, In (BAnswered (RIsWhitelisted (d_whitelist d) p) (ABool true)) (snd (estep_obs d e1 ev)) ->
             WM.is_whitelisted (ec_whitelist e1) p = Ok true) /\
  exists ls,
    ec_lockup e' = final g (ec_lockup e1) ls /\ snd (estep_obs d e1 ev) = log g (ec_lockup e1) ls /\
    (undecided keeps_apart d e1 ev -> all_events keeps_apart g (ec_lockup e1) ls) /\
    (undecided view_ok d e1 ev -> all_events view_ok g (ec_lockup e1) ls) /\
    (undecided (reveals_covered g) d e1 ev -> all_events (reveals_covered g) g (ec_lockup e1) ls) /\
    (forall le, ev = ELockup le -> decided_here d e1 le = false -> ls = [le]).
Proof.
  intros ST TY L e1 e' g (T & T0).
  pose proof (pools_of_factory d e (evs ++ [ev]) ST TY L) as (_ & _ & PF').
  pose proof (fun p l => all_limits_now d e (evs ++ [ev]) p l L) as LN.
  pose proof L as LA. apply all_limits_prefix in L.
  apply Forall_app in TY. destruct TY as [TY TY1].
  pose proof (pools_of_factory d e evs ST TY L) as (_ & _ & PF2).
  pose proof (fun p l => all_limits_now d e evs p l L) as LN0.
  fold e1 in PF2, LN0. cbv zeta in *.
  assert (EF : efinal d e (evs ++ [ev]) = e') by (rewrite efinal_app; reflexivity).
  rewrite EF in PF', LN. unfold undecided.
  assert (ACC : forall a, smem a (FS.w_accounts (ec_factory e')) = false -> smem a (FS.w_accounts (ec_factory e1)) = false).
  { intros a H. unfold e' in H. rewrite estep_factory in H. destruct ev; auto.
    destruct (smem a (FS.w_accounts (ec_factory e1))) eqn:S; [|reflexivity].
    destruct (factory_step_births (d_factory d) (ec_factory e1) ev) as (B & _). now rewrite (B _ S) in H. }
  destruct (always_seen d e1 ev (fun p l H => proj2 (PF2 p l H))) as [S1 S2 S3|le [S1 S2 S3 S4 S5 S6 S7]|p sev l S1 S2 S3 S4].
  - (* nothing for the lockup *)
    fold e' in S1, S3. split; [|split].
    + split.
      * intros p l E. rewrite S1. destruct (S3 p) as [S|(N & P0 & NA)].
        -- rewrite S in E. now apply T.
        -- rewrite (T0 p NA). unfold now. rewrite (P0 l E). cbn [SS.final]. symmetry.
           apply worth_born with (p := p). apply (PF' p l E).
      * intros p H. rewrite S1. auto.
    + rewrite S2. intros p [].
    + destruct ev as [le|n|n|p n lk|p pe|who x m|n|ve|fe];
        try (exists []; rewrite S1, S2; cbn; repeat (split; [auto|]); discriminate).
      destruct (decided_here d e1 le) eqn:D.
      * exists []. rewrite S1, S2. cbn. repeat (split; [auto|]). intros le' [= <-]. congruence.
      * exists [le]. cbn [final log all_events]. rewrite app_nil_r. unfold e', estep. cbn [estep_obs]. rewrite D. cbn.
        repeat (split; [auto|]). congruence.
  - (* the lockup alone *)
    assert (LS : ec_lockup e' = step g (ec_lockup e1) le /\
                 snd (estep_obs d e1 ev) = snd (step_obs g (ec_lockup e1) le) /\
                 ec_pools e' = ec_pools e1).
    { unfold e', estep. rewrite S1. cbn. auto. }
    destruct LS as (LS1 & LS2 & LS3).
    assert (NI : forall p, ec_pools e1 p <> None \/ smem p (FS.w_accounts (ec_factory e1)) = false ->
                 w_pools (step g (ec_lockup e1) le) p = w_pools (ec_lockup e1) p).
    { intros p HP. destruct (involves p (ec_lockup e1) le) eqn:I; [|now apply untouched].
      destruct le as [t|x|q s u|who att m|n o|n]; cbn in I; try discriminate.
      - exfalso. eapply S2. reflexivity.
      - destruct (request p (ec_lockup e1) n) as [[op cb]|] eqn:R; [|discriminate].
        apply request_some in R. destruct (S3 _ _ _ _ _ eq_refl R) as (X & Y).
        destruct HP as [HP|HP]; [congruence|]. destruct Y as [Y| ->]; [congruence|].
        erewrite fails_keeps by exact R. reflexivity. }
    split; [|split].
    + split.
      * intros p l E. rewrite LS3 in E. rewrite LS1, NI; [now apply T|left; congruence].
      * intros p H. apply ACC in H. rewrite LS1, NI; auto.
    + intros p H. rewrite LS2 in H. apply answered_obs in H. destruct H as (n & cb & o & -> & N & ->). eapply S4; eauto.
    + exists [le]. rewrite LS1, LS2. cbn [final log all_events]. rewrite app_nil_r.
      split; [reflexivity|]. split; [reflexivity|].
      destruct S6 as [(-> & S6)|(n & o & r & cb & -> & N & NP)].
      * repeat (split; [auto|]). intros le' H _. now rewrite (S7 _ H).
      * split; [|split; [|split]].
        -- intros _. split; [|exact I]. cbn. destruct o; auto. rewrite N. destruct r; auto. destruct (NP pool op eq_refl).
        -- intros _. split; [|exact I]. unfold view_ok. cbn. destruct o; auto. rewrite N. destruct r; auto. destruct (NP pool op eq_refl).
        -- intros _. split; exact I.
        -- intros le' H _. now rewrite (S7 _ H).
  - (* with a pool *)
    set (sys := mkSystem (ec_lockup e1) (now p l)).
    destruct (PF2 p l S1) as (WB & EX). destruct (life_sound d p l WB (LN0 p l S1)) as (k & SND).
    assert (TI : tied g p sys). { unfold tied. cbn. now rewrite (T p l S1). }
    set (l' := mkLife (l_born l) match pool_event g p sys sev with Some x => l_past l ++ [x] | None => l_past l end%list).
    assert (LS : ec_lockup e' = sy_lockup (sstep g p sys sev) /\
                 snd (estep_obs d e1 ev) = snd (sstep_obs g p sys sev) /\
                 ec_pools e' = set_life (ec_pools e1) p l').
    { unfold e', estep. rewrite S3. unfold pool_step, sstep. rewrite S1. cbv zeta. fold g sys.
      destruct (sstep_obs g p sys sev) as [s o]. cbn. auto. }
    destruct LS as (LS1 & LS2 & LS3).
    assert (EN : now p l' = sy_pool (sstep g p sys sev)).
    { rewrite sstep_pool. unfold l'. destruct (pool_event g p sys sev); [|reflexivity].
      unfold now at 1. cbn [l_born l_past]. now rewrite now_snoc. }
    assert (SND' : exists k', sound (SM.total_stake_shares (SS.w_pool (l_born l))) k' (sy_pool (sstep g p sys sev))).
    { rewrite <- EN. apply (life_sound d p l' WB). apply LN. rewrite LS3. apply set_life_same. }
    destruct SND' as (k' & SND'). destruct (refine_step g p sys sev _ _ _ TI SND SND') as (T' & R).
    assert (NOBS : snd (sstep_obs g p sys sev) = []).
    { destruct (string_dec (p ++ "x")%string p) as [H|H].
      - exfalso. clear - H. induction p as [|c p IH]; cbn in H; [discriminate|]. apply IH. congruence.
      - eapply pool_step_others; eassumption. }
    split; [|split].
    + split.
      * intros q m. rewrite LS1, LS3. unfold set_life. destruct (String.eqb_spec q p) as [->|Q].
        -- intros [= <-]. rewrite EN. exact T'.
        -- intros E. rewrite (proj1 (pool_step_others g p sys sev q S2 Q)). now apply T.
      * intros q H. apply ACC in H. rewrite LS1. assert (Q : q <> p) by (intros ->; congruence).
        rewrite (proj1 (pool_step_others g p sys sev q S2 Q)). now apply T0.
    + rewrite LS2, NOBS. intros q [].
    + assert (OE : forall P : event -> Prop, other_event sev P).
      { intros P. destruct sev; [destruct (S2 ev0 eq_refl)|exact I|exact I]. }
      assert (NL : forall le, ev = ELockup le -> decided_here d e1 le = false -> False) by (intros le E _; destruct (S4 le E)).
      destruct R as [(R1 & R2)|(le & R1 & R2 & R3 & R4)].
      * exists []. rewrite LS1, LS2, R1, R2. cbn. repeat (split; [auto|]). intros le E D. destruct (NL le E D).
      * exists [le]. rewrite LS1, LS2.
        cbn [final log all_events]. rewrite app_nil_r. cbn [sy_lockup sys] in *. unfold step. rewrite R1. cbn [fst snd].
        assert (Z : SM.total_stake_shares (SS.w_pool (l_born l)) <> 0) by (destruct WB as (_ & Z & _); lia).
        split; [reflexivity|]. split; [reflexivity|].
        split; [auto|]. split; [intros _; split; [exact (R3 Z (OE _))|exact I]|]. split; [auto|].
        intros le' E D. destruct (NL le' E D).
Qed.

Lemma erefine d e evs :
  estarts d e -> Forall typed evs -> all_within_limits d e evs ->
  let e' := efinal d e evs in
  let g := d_lockup d in
  tied_all d e' /\
  (forall p, In (BAnswered (RIsWhitelisted (d_whitelist d) p) (ABool true)) (elog d e evs) -> was_listed d e evs p) /\
  exists levs,
    ec_lockup e' = final g (ec_lockup e) levs /\ elog d e evs = log g (ec_lockup e) levs /\
    (all_lockup keeps_apart d e evs -> all_events keeps_apart g (ec_lockup e) levs) /\
    (all_lockup view_ok d e evs -> all_events view_ok g (ec_lockup e) levs) /\
    (all_lockup (reveals_covered g) d e evs -> all_events (reveals_covered g) g (ec_lockup e) levs).
Proof.
  intros ST. induction evs as [|ev evs IH] using rev_ind; intros TY L.
  - cbn. split; [|split].
    + split; [intros p l; rewrite (es_pools _ _ ST); discriminate|]. intros p _. apply (es_nothing _ _ ST).
    + intros p [].
    + exists []. cbn. auto.
  - pose proof TY as TY0. apply Forall_app in TY0. destruct TY0 as [TY0 _].
    destruct (IH TY0 (all_limits_prefix _ _ _ _ L)) as (T & A & levs & E1 & E2 & E3 & E4 & E5). clear IH.
    destruct (erefine_step d e evs ev ST TY L T) as (T' & A' & ls & F1 & F2 & F3 & F4 & F5 & _).
    rewrite efinal_app, elog_app. cbn [efinal elog]. rewrite app_nil_r.
    set (e1 := efinal d e evs) in *. set (g := d_lockup d) in *. split; [exact T'|]. split.
    + intros p H. apply in_app_or in H. destruct H as [H|H]; [apply was_listed_more; auto|].
      exists evs, [ev]. split; [reflexivity|]. now apply A'.
    + exists (levs ++ ls)%list. rewrite final_app, log_app, <- E1, E2, F1, F2, !all_events_app, !all_lockup_app, <- E1.
      fold e1. cbn [all_lockup]. unfold undecided in *. tauto.
Qed.

(** The same from any point of the history on. *)
Lemma erefine_more d e a b :
  estarts d e -> Forall typed (a ++ b) -> all_within_limits d e (a ++ b) ->
  let m := efinal d e a in
  let g := d_lockup d in
  exists levs,
    ec_lockup (efinal d m b) = final g (ec_lockup m) levs /\ elog d m b = log g (ec_lockup m) levs /\
    (all_lockup keeps_apart d m b -> all_events keeps_apart g (ec_lockup m) levs) /\
    (all_lockup view_ok d m b -> all_events view_ok g (ec_lockup m) levs) /\
    (all_lockup (reveals_covered g) d m b -> all_events (reveals_covered g) g (ec_lockup m) levs).
Proof.
  intros ST TY L m g. revert TY L. induction b as [|ev b IH] using rev_ind; intros TY L.
  - exists []. cbn. auto.
  - rewrite app_assoc in TY, L. pose proof TY as TY0. apply Forall_app in TY0. destruct TY0 as [TY0 _].
    pose proof (all_limits_prefix _ _ _ _ L) as L0.
    destruct (IH TY0 L0) as (levs & E1 & E2 & E3 & E4 & E5).
    destruct (erefine d e (a ++ b) ST TY0 L0) as (T & _).
    destruct (erefine_step d e (a ++ b) ev ST TY L T) as (_ & _ & ls & F1 & F2 & F3 & F4 & F5 & _).
    rewrite efinal_app in F1, F2, F3, F4, F5. fold m g in F1, F2, F3, F4, F5.
    rewrite efinal_app, elog_app. cbn [efinal elog]. rewrite app_nil_r.
    exists (levs ++ ls)%list. rewrite final_app, log_app, <- E1, E2, F1, F2, !all_events_app, !all_lockup_app, <- E1.
    cbn [all_lockup]. unfold undecided in *. tauto.
Qed.
