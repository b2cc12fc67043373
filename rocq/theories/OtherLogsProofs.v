(** Proofs about the logs of the factories and of the wrapped token. *)
From Coq Require Import NArith List Bool String Ascii Permutation.
From Verif Require Import Prelude PreludeFacts MapFacts Messages OtherLogsModel OtherLogsSpec.
From Verif Require JsonModel PoolLogProofs LockupLogProofs PoolFactoryProofs LockupFactoryProofs WNearProofs WNearHist WNearCalls.
Import ListNotations.
Open Scope string_scope.
Open Scope N_scope.
Module PP := PoolFactoryProofs.
Module LP := LockupFactoryProofs.
Module WP := WNearProofs.
Module WC := WNearCalls.

(** * The same calls *)
Lemma same_pools c s m :
  PF.exec c s m = match pool_factory_l c s m with Ok (s', ps, _) => Ok (s', ps) | Panic e => Panic e end.
Proof.
  destruct m; cbn [PF.exec pool_factory_l].
  - destruct (PF.create_staking_pool _ _ _ _ _ _) as [[s' ps]|]; reflexivity.
  - unfold PF.on_staking_pool_create, on_staking_pool_create_l, require.
    destruct (_ =? 0); cbn [bind]; auto. destruct (String.eqb _ _); cbn [bind]; auto.
    destruct (PF.is_promise_success c) as [[]|]; reflexivity.
Qed.
Lemma same_lockups c s m :
  LF.exec c s m = match lockup_factory_l c s m with Ok (s', ps, _) => Ok (s', ps) | Panic e => Panic e end.
Proof.
  destruct m; cbn [LF.exec lockup_factory_l].
  - destruct (LF.create _ _ _ _ _ _ _ _) as [[s' ps]|]; reflexivity.
  - unfold LF.on_lockup_create, on_lockup_create_l, require.
    destruct (_ =? 0); cbn [bind]; auto. destruct (String.eqb _ _); cbn [bind]; auto.
    destruct (LF.is_promise_success c) as [[]|]; reflexivity.
Qed.
Lemma same_wrapped c t cl :
  WN.exec c t cl = match wrapped_l c t cl with Ok (r, _) => Ok r | Panic e => Panic e end.
Proof.
  destruct cl; cbn [wrapped_l]; try (destruct (WN.exec _ _ _) as [[[t' ps] v]|]; reflexivity).
  - unfold WN.exec. cbn [WN.arguments_ok require bind]. unfold WN.near_deposit, near_deposit_l.
    destruct (require _ _); cbn [bind]; auto. destruct (negb _).
    + destruct (WN.storage_min t); cbn [bind]; auto. destruct (require _ _); cbn [bind]; auto.
      destruct (WN.internal_register_account _ _) as [t1|]; cbn [bind]; auto.
      destruct (WN.storage_min t1); cbn [bind]; auto.
      destruct (sub_chk _ _); cbn [bind]; auto. destruct (WN.internal_deposit _ _ _); reflexivity.
    + cbn [bind]. destruct (WN.internal_deposit _ _ _); reflexivity.
  - unfold WN.exec. destruct (require _ _); cbn [bind]; auto. unfold WN.near_withdraw, near_withdraw_l.
    destruct (WN.assert_one_yocto c); cbn [bind]; auto. destruct (WN.internal_withdraw _ _ _); cbn [bind]; auto.
    destruct (add128 amount 1); reflexivity.
Qed.

(** * The lines can be read in one way only *)
Ltac read E :=
  cbn [append] in E; try discriminate E;
  try (injection E as E;
       repeat first
         [ discriminate E
         | apply LockupLogProofs.dec_split in E; [|reflexivity|reflexivity]; destruct E as [? E]; subst
         | apply LockupLogProofs.word_split in E; [|assumption|assumption]; destruct E as [? E]; subst
         | injection E as E
         | subst; reflexivity ]);
  try reflexivity.
(** "The lockup contract creation was ..." and "The lockup contract creation has failed ..." *)
Lemma two_words a b r r' : has_space a = false -> has_space b = false ->
  "contract " ++ a ++ String " " ("was " ++ r) = b ++ String " " ("creation has " ++ r') -> False.
Proof.
  intros A B E. change ("contract " ++ a ++ String " " ("was " ++ r)) with ("contract" ++ String " " (a ++ String " " ("was " ++ r))) in E.
  apply LockupLogProofs.word_split in E; [|reflexivity|exact B]. destruct E as [_ E].
  change ("creation has " ++ r') with ("creation" ++ String " " ("has " ++ r')) in E.
  apply LockupLogProofs.word_split in E; [|exact A|reflexivity]. destruct E as [_ E]. discriminate.
Qed.
Lemma says_inj' s f s' f' : says s f -> says s' f' -> s = s' -> f = f'.
Proof.
  intros S S'. destruct S; destruct S'; intros E; try solve [read E].
  - exfalso. cbn [append] in E. injection E as E. refine (two_words a a0 "successfully created." ("failed. Returning attached deposit of " ++ dec x ++ " to " ++ who) _ _ E); assumption.
  - exfalso. cbn [append] in E. injection E as E. symmetry in E. refine (two_words a0 a "successfully created." ("failed. Returning attached deposit of " ++ dec x ++ " to " ++ who) _ _ E); assumption.
Qed.
Lemma says_inj s f f' : says s f -> says s f' -> f = f'.
Proof. intros S S'. now apply (says_inj' s f s f'). Qed.

(** * The staking pool factory *)
Definition triple_dec : forall x y : string * string * N, {x = y} + {x <> y}.
Proof. decide equality; [apply N.eq_dec | apply PP.names_dec]. Defined.
Ltac pc dec := unfold account_id in *; perm_count dec.

Definition pool_named (m : PS.msg) : Prop :=
  match m with
  | PS.MCreate a x _ cb => (exists u, cb = PF.OnStakingPoolCreate a x u) /\ has_space a = false
  | PS.MBack cb _ => exists a x u, cb = PF.OnStakingPoolCreate a x u /\ has_space a = false
  end.
Lemma pool_log_app self w evs evs' :
  pool_factory_log self w (evs ++ evs') =
  (pool_factory_log self w evs ++ pool_factory_log self (PS.final self w evs) evs')%list.
Proof. revert w. induction evs as [|e evs IH]; intros w; cbn; auto. now rewrite IH, app_assoc. Qed.

Record pool_told (self wl : account_id) (l : list PS.obs) (lines : list string) (w : PS.world) (fs : list fact) : Prop :=
  mkPoolTold {
  p_says : Forall2 says lines fs;
  p_named : Forall pool_named (PS.w_msgs w);
  p_white : PS.whitelisted l = map (pair wl) (said_created fs);
  p_back : PS.refunded l = said_returned fs;
  p_asked : Permutation (pools_asked l) (pools_made l ++ said_failed fs ++ PS.pending_creations w);
  p_made : Permutation (PS.created_pools l) (said_created fs ++ PS.to_whitelist w)
}.
Ltac plogs :=
  unfold PS.whitelisted, PS.refunded, PS.created_pools, pools_asked, pools_made, said_created, said_returned,
    said_failed in *;
  rewrite ?flat_map_app, ?map_app in *; cbn [flat_map map app] in *; rewrite ?app_nil_r in *.
Ltac pflight := rewrite ?PP.pending_creations_eq, ?PP.to_whitelist_eq in *; cbn [PS.w_msgs] in *;
  rewrite ?flat_map_app in *; cbn [flat_map PP.pend1 PP.white1 app] in *; rewrite ?app_nil_r in *.
Ltac same fs := exists fs; split; cbn [fst snd]; rewrite ?app_nil_r; auto; plogs; auto; pflight; auto.

Lemma pool_step_told self wl l lines w fs ev :
  PF.staking_pool_whitelist_account_id (PS.w_factory w) = wl -> PS.to_refund w <= PS.w_balance w ->
  pool_told self wl l lines w fs ->
  exists fs', pool_told self wl (l ++ snd (PS.step_obs self w ev)) (lines ++ pool_step_log self w ev)
    (PS.step self w ev) fs'.
Proof.
  intros W B [S N P R A M]. unfold PS.step. destruct ev as [who attached m|n gas epoch|n|x|a]; cbn [PS.step_obs pool_step_log].
  - unfold pool_run_log, PS.run. destruct m as [name owner key fee|a x u].
    + pose proof (same_pools (PF.mkCtx self who attached []) (PS.w_factory w) (PF.CreateStakingPool name owner key fee)) as Q.
      destruct (PF.exec _ _ _) as [[s ps]|e] eqn:E; [|same fs].
      pose proof E as E'. cbn [PF.exec] in E'. cbn [pool_factory_l]. rewrite E'. cbn [bind].
      apply PP.exec_create_ok in E. destruct E as (E & -> & ->).
      apply PP.may_create_sub in E. destruct E as ((_ & _ & _ & V) & _).
      cbn [PS.total_tokens fold_right PS.tokens_of]. replace (attached + 0 <=? _) with true by lia.
      exists fs. cbn [fst snd PS.obs_of map PS.msgs_of flat_map app]. rewrite !app_nil_r.
      split; cbn [PS.w_msgs]; auto.
      * apply Forall_app. split; auto. constructor; auto. split; eauto. now apply PoolLogProofs.valid_no_space.
      * plogs. auto.
      * plogs. auto.
      * plogs. pflight. pc triple_dec.
      * plogs. pflight. auto.
    + destruct (PF.exec _ _ _) as [r|e] eqn:E; [exfalso; eapply PP.exec_callback_stranger; eauto|]. same fs.
  - destruct (nth_error (PS.w_msgs w) n) as [[a x args cb|cb ok]|] eqn:E; [|same fs|same fs].
    pose proof (drop_nth_perm _ _ _ E) as D. rewrite D in N. apply Forall_cons_iff in N. destruct N as [((u & ->) & V) N'].
    assert (T1 : Permutation (PS.pending_creations w) ((u, a, x) :: flat_map PP.pend1 (drop_nth n (PS.w_msgs w)))).
    { rewrite PP.pending_creations_eq. apply (Permutation_flat_map PP.pend1) in D. exact D. }
    assert (T2 : Permutation (PS.to_whitelist w) (flat_map PP.white1 (drop_nth n (PS.w_msgs w)))).
    { rewrite PP.to_whitelist_eq. apply (Permutation_flat_map PP.white1) in D. exact D. }
    assert (F : forall ok, Forall pool_named (drop_nth n (PS.w_msgs w) ++ [PS.MBack (PF.OnStakingPoolCreate a x u) ok])).
    { intros ok. apply Forall_app. split; auto. constructor; auto. cbn. eauto 6. }
    destruct (PS.create_pool self w a x args gas epoch) as [p|]; exists fs; cbn [fst snd PS.payer]; rewrite !app_nil_r;
      split; cbn [PS.w_msgs]; auto; plogs; auto; pflight; pc triple_dec || pc string_dec.
  - destruct (nth_error (PS.w_msgs w) n) as [[a x args cb|cb ok]|] eqn:E; [same fs| |same fs].
    destruct (PP.take _ _ _ E) as (_ & _ & _ & T4).
    pose proof (drop_nth_perm _ _ _ E) as D. rewrite D in N. apply Forall_cons_iff in N. destruct N as [(a & x & u & -> & V) N'].
    unfold pool_run_log, PS.run. cbn [PS.w_factory PS.w_balance PS.w_accounts PS.w_msgs]. rewrite PP.exec_callback.
    cbn [pool_factory_l PF.ctx_attached]. unfold on_staking_pool_create_l. cbn [PF.ctx_predecessor PF.ctx_current].
    rewrite String.eqb_refl. cbn [N.eqb require bind PF.is_promise_success PF.ctx_results].
    assert (T1 : Permutation (PS.pending_creations w)
      (PP.pend1 (PS.MBack (PF.OnStakingPoolCreate a x u) ok) ++ flat_map PP.pend1 (drop_nth n (PS.w_msgs w)))).
    { rewrite PP.pending_creations_eq. apply (Permutation_flat_map PP.pend1) in D. exact D. }
    assert (T2 : Permutation (PS.to_whitelist w)
      (PP.white1 (PS.MBack (PF.OnStakingPoolCreate a x u) ok) ++ flat_map PP.white1 (drop_nth n (PS.w_msgs w)))).
    { rewrite PP.to_whitelist_eq. apply (Permutation_flat_map PP.white1) in D. exact D. }
    destruct ok; cbn [PS.total_tokens fold_right PS.tokens_of fst snd PS.msgs_of flat_map PS.obs_of map app PP.ref1] in *.
    + replace (0 + 0 <=? _) with true by lia. exists (fs ++ [FPoolCreated a])%list. cbn [fst snd].
      split; cbn [PS.w_msgs]; rewrite ?app_nil_r; auto.
      * apply Forall2_app; auto. constructor; [|constructor]. now constructor.
      * plogs. rewrite P, W; reflexivity.
      * plogs. auto.
      * plogs. pflight. pc triple_dec.
      * plogs. pflight. pc string_dec.
    + replace (x + 0 <=? _) with true by lia. exists (fs ++ [FPoolFailed a x u])%list. cbn [fst snd].
      split; cbn [PS.w_msgs]; rewrite ?app_nil_r; auto.
      * apply Forall2_app; auto. constructor; [|constructor]. unfold num. now constructor.
      * plogs. auto.
      * plogs. now rewrite R.
      * plogs. pflight. pc triple_dec.
      * plogs. pflight. pc string_dec.
  - same fs.
  - same fs.
Qed.
Lemma pool_log_told self wl w evs : PS.starts wl w ->
  exists fs, pool_told self wl (PS.log self w evs) (pool_factory_log self w evs) (PS.final self w evs) fs.
Proof.
  intros ST. induction evs as [|ev evs IH] using rev_ind.
  - exists []. destruct ST as [_ E]. cbn. split; cbn; auto; rewrite ?PP.pending_creations_eq, ?PP.to_whitelist_eq, E; auto.
  - destruct IH as (fs & IH). rewrite PP.final_app, PP.log_app, pool_log_app. cbn [PS.final PS.log pool_factory_log].
    rewrite !app_nil_r. destruct (PP.inv_history self wl w evs ST) as [_ W B _ _ _ _ _].
    eapply pool_step_told; eauto. lia.
Qed.

(** * The lockup factory *)
Definition lockup_named (m : LS.msg) : Prop :=
  match m with
  | LS.MCreate a x _ cb => (exists u, cb = LF.OnLockupCreate a x u) /\ has_space a = false
  | LS.MBack cb _ => exists a x u, cb = LF.OnLockupCreate a x u /\ has_space a = false
  end.
Lemma lockup_log_app g w evs evs' :
  lockup_factory_log g w (evs ++ evs') =
  (lockup_factory_log g w evs ++ lockup_factory_log g (LS.final g w evs) evs')%list.
Proof. revert w. induction evs as [|e evs IH]; intros w; cbn; auto. now rewrite IH, app_assoc. Qed.
Definition pend2 (m : LS.msg) : list (account_id * account_id * N) :=
  match m with
  | LS.MCreate a x _ (LF.OnLockupCreate _ _ who) => [(who, a, x)]
  | LS.MBack (LF.OnLockupCreate a x who) false => [(who, a, x)]
  | _ => []
  end.
Definition done2 (m : LS.msg) : list account_id := match m with LS.MBack (LF.OnLockupCreate a _ _) true => [a] | _ => [] end.
Lemma lockups_pending_eq w : lockups_pending w = flat_map pend2 (LS.w_msgs w).
Proof. reflexivity. Qed.
Lemma lockups_to_report_eq w : lockups_to_report w = flat_map done2 (LS.w_msgs w).
Proof. reflexivity. Qed.

Record lockup_told (l : list LS.obs) (lines : list string) (w : LS.world) (fs : list fact) : Prop :=
  mkLockupTold {
  q_says : Forall2 says lines fs;
  q_named : Forall lockup_named (LS.w_msgs w);
  q_back : LS.refunded l = said_returned fs;
  q_asked : Permutation (lockups_asked l) (lockups_made l ++ said_failed fs ++ lockups_pending w);
  q_made : Permutation (LS.created_lockups l) (said_created fs ++ lockups_to_report w)
}.
Ltac llogs :=
  unfold LS.refunded, LS.created_lockups, lockups_asked, lockups_made, said_created, said_returned, said_failed in *;
  rewrite ?flat_map_app, ?map_app in *; cbn [flat_map map app] in *; rewrite ?app_nil_r in *.
Ltac lflight := rewrite ?lockups_pending_eq, ?lockups_to_report_eq in *; cbn [LS.w_msgs] in *;
  rewrite ?flat_map_app in *; cbn [flat_map pend2 done2 app] in *; rewrite ?app_nil_r in *.
Ltac lsame fs := exists fs; split; cbn [fst snd]; rewrite ?app_nil_r; auto; llogs; auto; lflight; auto.

Lemma to_refund_has w n a x u : nth_error (LS.w_msgs w) n = Some (LS.MBack (LF.OnLockupCreate a x u) false) ->
  x <= LS.to_refund w.
Proof.
  unfold LS.to_refund. generalize (LS.w_msgs w). intros l. revert n. induction l as [|m l IH]; intros [|n] E; try discriminate.
  - injection E as ->. cbn. lia.
  - cbn in E. apply IH in E. cbn [fold_right]. destruct m as [|[] []]; lia.
Qed.
Lemma lockup_step_told g l lines w fs ev :
  (forall owner, has_space (LS.lockup_name g owner) = false) -> LS.to_refund w <= LS.w_balance w ->
  lockup_told l lines w fs ->
  exists fs', lockup_told (l ++ snd (LS.step_obs g w ev)) (lines ++ lockup_step_log g w ev) (LS.step g w ev) fs'.
Proof.
  intros W B [S N R A M]. unfold LS.step. destruct ev as [who attached m|n gas time|n|x|a]; cbn [LS.step_obs lockup_step_log].
  - unfold lockup_run_log, LS.run. destruct m as [owner duration timestamp vesting release whitelist|a x u].
    + destruct (LF.exec _ _ _) as [[s ps]|e] eqn:E; [|lsame fs].
      pose proof E as E'. cbn [LF.exec] in E'. cbn [lockup_factory_l]. rewrite E'. cbn [bind].
      apply LP.exec_create_ok in E. destruct E as (_ & -> & ->).
      cbn [LS.total_tokens fold_right LS.tokens_of]. replace (attached + 0 <=? _) with true by lia.
      exists fs. cbn [fst snd LS.obs_of map LS.msgs_of flat_map app]. rewrite !app_nil_r.
      split; cbn [LS.w_msgs]; auto.
      * apply Forall_app. split; auto. constructor; auto. split; eauto.
      * llogs. auto.
      * llogs. lflight. pc triple_dec.
      * llogs. lflight. auto.
    + destruct (LF.exec _ _ _) as [r|e] eqn:E; [exfalso; eapply LP.exec_callback_stranger; eauto|]. lsame fs.
  - destruct (nth_error (LS.w_msgs w) n) as [[a x args cb|cb ok]|] eqn:E; [|lsame fs|lsame fs].
    pose proof (drop_nth_perm _ _ _ E) as D. rewrite D in N. apply Forall_cons_iff in N. destruct N as [((u & ->) & V) N'].
    assert (T1 : Permutation (lockups_pending w) ((u, a, x) :: flat_map pend2 (drop_nth n (LS.w_msgs w)))).
    { rewrite lockups_pending_eq. apply (Permutation_flat_map pend2) in D. exact D. }
    assert (T2 : Permutation (lockups_to_report w) (flat_map done2 (drop_nth n (LS.w_msgs w)))).
    { rewrite lockups_to_report_eq. apply (Permutation_flat_map done2) in D. exact D. }
    assert (F : forall ok, Forall lockup_named (drop_nth n (LS.w_msgs w) ++ [LS.MBack (LF.OnLockupCreate a x u) ok])).
    { intros ok. apply Forall_app. split; auto. constructor; auto. cbn. eauto 6. }
    destruct (LS.create_lockup g w a x args gas time) as [p|]; exists fs; cbn [fst snd LS.payer]; rewrite !app_nil_r;
      split; cbn [LS.w_msgs]; auto; llogs; auto; lflight; pc triple_dec || pc string_dec.
  - destruct (nth_error (LS.w_msgs w) n) as [[a x args cb|cb ok]|] eqn:E; [lsame fs| |lsame fs].
    pose proof (drop_nth_perm _ _ _ E) as D. rewrite D in N. apply Forall_cons_iff in N. destruct N as [(a & x & u & -> & V) N'].
    unfold lockup_run_log, LS.run. cbn [LS.w_factory LS.w_balance LS.w_accounts LS.w_msgs]. rewrite LP.exec_callback.
    cbn [lockup_factory_l LF.ctx_attached]. unfold on_lockup_create_l. cbn [LF.ctx_predecessor LF.ctx_current].
    rewrite String.eqb_refl. cbn [N.eqb require bind LF.is_promise_success LF.ctx_results].
    assert (T1 : Permutation (lockups_pending w)
      (pend2 (LS.MBack (LF.OnLockupCreate a x u) ok) ++ flat_map pend2 (drop_nth n (LS.w_msgs w)))).
    { rewrite lockups_pending_eq. apply (Permutation_flat_map pend2) in D. exact D. }
    assert (T2 : Permutation (lockups_to_report w)
      (done2 (LS.MBack (LF.OnLockupCreate a x u) ok) ++ flat_map done2 (drop_nth n (LS.w_msgs w)))).
    { rewrite lockups_to_report_eq. apply (Permutation_flat_map done2) in D. exact D. }
    destruct ok; cbn [LS.total_tokens fold_right LS.tokens_of fst snd LS.msgs_of flat_map LS.obs_of map app] in *.
    + replace (0 <=? _) with true by lia. exists (fs ++ [FLockupCreated a])%list. cbn [fst snd].
      split; cbn [LS.w_msgs]; rewrite ?app_nil_r; auto.
      * apply Forall2_app; auto. constructor; [|constructor]. now constructor.
      * llogs. auto.
      * llogs. lflight. pc triple_dec.
      * llogs. lflight. pc string_dec.
    + apply to_refund_has in E. replace (x + 0 <=? _) with true by lia.
      exists (fs ++ [FLockupFailed a x u])%list. cbn [fst snd].
      split; cbn [LS.w_msgs]; rewrite ?app_nil_r; auto.
      * apply Forall2_app; auto. constructor; [|constructor]. unfold num. now constructor.
      * llogs. now rewrite R.
      * llogs. lflight. pc triple_dec.
      * llogs. lflight. pc string_dec.
  - lsame fs.
  - lsame fs.
Qed.
Lemma lockup_log_told g wl fnd w evs : LS.starts g wl fnd w ->
  exists fs, lockup_told (LS.log g w evs) (lockup_factory_log g w evs) (LS.final g w evs) fs.
Proof.
  intros ST. induction evs as [|ev evs IH] using rev_ind.
  - exists []. pose proof (LS.st_msgs _ _ _ _ ST) as E. cbn.
    split; cbn; auto; rewrite ?lockups_pending_eq, ?lockups_to_report_eq, E; auto.
  - destruct IH as (fs & IH). rewrite LP.final_app, LP.log_app, lockup_log_app. cbn [LS.final LS.log lockup_factory_log].
    rewrite !app_nil_r. pose proof (LP.inv_history g wl fnd w evs ST) as I. pose proof (LP.i_balance _ _ _ _ _ _ I) as B.
    eapply lockup_step_told; eauto; [|lia].
    intros owner. destruct (LP.lockup_name_ok _ _ _ _ owner ST) as (_ & _ & _ & _ & V). now apply PoolLogProofs.valid_no_space.
Qed.

(** * The wrapped token *)
Lemma wrapped_log_app self w evs evs' :
  wrapped_log self w (evs ++ evs') = (wrapped_log self w evs ++ wrapped_log self (WS.final self w evs) evs')%list.
Proof. revert w. induction evs as [|e evs IH]; intros w; cbn; auto. now rewrite IH, app_assoc. Qed.
Lemma burnt_in_app self w evs evs' : burnt_in self w (evs ++ evs') = burnt_in self w evs + burnt_in self (WS.final self w evs) evs'.
Proof. revert w. induction evs as [|e evs IH]; intros w; cbn; auto. rewrite IH. lia. Qed.
Lemma said_wrapped_app l l' : said_wrapped (l ++ l') = said_wrapped l + said_wrapped l'.
Proof. induction l as [|[] l IH]; cbn; auto. fold (said_wrapped (l ++ l')) (said_wrapped l). lia. Qed.
Lemma said_unwrapped_app l l' : said_unwrapped (l ++ l') = said_unwrapped l + said_unwrapped l'.
Proof. induction l as [|[] l IH]; cbn; auto. fold (said_unwrapped (l ++ l')) (said_unwrapped l). lia. Qed.

Lemma other_calls c t cl r l : wrapped_l c t cl = Ok (r, l) ->
  match cl with WN.NearDeposit | WN.NearWithdraw _ => True | _ => l = [] end.
Proof.
  destruct cl; cbn [wrapped_l]; auto; intros H; apply bind_ok in H; destruct H as (? & _ & H); now injection H.
Qed.

Lemma deposit_line self w who attached gas : WC.good w -> WS.accepts self w who attached gas WN.NearDeposit ->
  let ev := WS.ECall who attached gas WN.NearDeposit in
  let w' := WS.step self w ev in
  exists line x, wrapped_step_log self w ev = [line] /\ says line (FWrapped x who) /\
    (WS.registered w who /\ x = attached \/ ~ WS.registered w who /\ x + WS.DEPOSIT = attached) /\
    WS.bal w' who = WS.bal w who + x /\ WS.supply w' = WS.supply w + x /\
    (forall a, a <> who -> WS.bal w' a = WS.bal w a).
Proof.
  intros G A ev w'. destruct (WC.deposit_effect _ _ _ _ _ G A) as (x & RX & B & SU & O & _).
  exists ("Deposit " ++ num x ++ " NEAR to " ++ who), x. split; [|split; [unfold num; constructor|auto]].
  destruct A as (v & A). unfold wrapped_step_log, ev. rewrite A.
  pose proof (WC.accepted_inv _ _ _ _ _ _ _ G A) as (_ & _ & _ & t & ps & _ & ST & _).
  pose proof (same_wrapped (WN.mkCtx self who attached gas None) (WS.w_token w) WN.NearDeposit) as Q.
  unfold WS.step in ST. cbn [WS.step_obs] in A, ST. destruct (_ || _); [discriminate|].
  destruct (WN.exec _ _ _) as [[[t1 ps1] v1]|e] eqn:E; [|discriminate].
  destruct (wrapped_l _ _ _) as [[r l]|] eqn:L; [|discriminate].
  cbn [wrapped_l] in L. unfold near_deposit_l in L. cbn [WN.ctx_attached WN.ctx_predecessor] in L.
  apply bind_ok in L. destruct L as (_ & _ & L). apply bind_ok in L. destruct L as ([t2 amount] & L2 & L).
  apply bind_ok in L. destruct L as (t3 & _ & L). injection L as <- <-. f_equal.
  assert (amount = x) as ->; [|reflexivity].
  destruct G as (WF & _). rewrite !WNearHist.registered_mem in RX by auto.
  destruct (mmem who (WN.accounts (WS.w_token w))) eqn:M; cbn [negb] in L2.
  - injection L2 as <- <-. destruct RX as [[_ ->]|[X _]]; [auto|]. now destruct X.
  - rewrite (WP.storage_min_ok _ WF) in L2. cbn [bind] in L2. apply bind_ok in L2. destruct L2 as (? & _ & L2).
    apply bind_ok in L2. destruct L2 as (t4 & T4 & L2).
    assert (WF4 : WN.account_storage_usage t4 = WN.account_storage_usage (WS.w_token w)).
    { unfold WN.internal_register_account in T4. apply bind_ok in T4. destruct T4 as (_ & _ & T4). now injection T4 as <-. }
    unfold WN.storage_min in L2. rewrite WF4 in L2. fold (WN.storage_min (WS.w_token w)) in L2.
    rewrite (WP.storage_min_ok _ WF) in L2. cbn [bind] in L2. apply bind_ok in L2. destruct L2 as (y & Y & L2).
    injection L2 as <- <-. apply sub_chk_ok in Y. destruct Y as [Y1 Y2].
    destruct RX as [[X _]|[_ X]]; [discriminate|]. lia.
Qed.

Lemma withdraw_line self w who attached gas x : WC.good w -> WS.accepts self w who attached gas (WN.NearWithdraw x) ->
  let ev := WS.ECall who attached gas (WN.NearWithdraw x) in
  let w' := WS.step self w ev in
  exists line, wrapped_step_log self w ev = [line] /\ says line (FUnwrapped x who) /\
    WS.bal w' who + x = WS.bal w who /\ WS.supply w' + x = WS.supply w /\
    (forall a, a <> who -> WS.bal w' a = WS.bal w a).
Proof.
  intros G A ev w'. destruct (WC.withdraw_effect _ _ _ _ _ _ G A) as (B & SU & O & _).
  exists ("Withdraw " ++ num x ++ " yoctoNEAR from " ++ who). split; [|split; [unfold num; constructor|auto]].
  destruct A as (v & A). unfold wrapped_step_log, ev. rewrite A.
  pose proof (same_wrapped (WN.mkCtx self who attached gas None) (WS.w_token w) (WN.NearWithdraw x)) as Q.
  cbn [WS.step_obs] in A. destruct (_ || _); [discriminate|].
  destruct (WN.exec _ _ _) as [[[t1 ps1] v1]|e] eqn:E; [|discriminate].
  destruct (wrapped_l _ _ _) as [[r l]|] eqn:L; [|discriminate].
  cbn [wrapped_l] in L. apply bind_ok in L. destruct L as (_ & _ & L). unfold near_withdraw_l in L.
  cbn [WN.ctx_predecessor] in L. apply bind_ok in L. destruct L as (_ & _ & L).
  apply bind_ok in L. destruct L as (t3 & _ & L). cbv zeta in L. apply bind_ok in L. destruct L as (y & _ & L).
  injection L as <- <-. reflexivity.
Qed.
Lemma other_lines self w ev :
  (forall who attached gas, ev = WS.ECall who attached gas WN.NearDeposit -> ~ WS.accepts self w who attached gas WN.NearDeposit) ->
  (forall who attached gas x, ev = WS.ECall who attached gas (WN.NearWithdraw x) ->
     ~ WS.accepts self w who attached gas (WN.NearWithdraw x)) ->
  wrapped_step_log self w ev = [].
Proof.
  intros D W. destruct ev as [who attached gas cl| | | |]; try reflexivity. unfold wrapped_step_log.
  destruct (snd (WS.step_obs _ _ _)) as [|o os] eqn:E; auto. destruct o, os; auto.
  assert (A : WS.accepts self w who attached gas cl).
  { exists v. cbn [WS.step_obs] in *. destruct (_ || _); [discriminate|].
    destruct (WN.exec _ _ _) as [[[t1 ps1] v1]|e]; [|discriminate]. destruct (_ <=? _); [|discriminate].
    cbn [snd] in *. now injection E as <- <- <- <-. }
  destruct (wrapped_l _ _ _) as [[r l]|] eqn:L; auto. apply other_calls in L.
  destruct cl; auto; exfalso; [eapply D|eapply W]; eauto.
Qed.

Lemma effect_supply c t cl t' ps v : WP.effect c t cl t' ps v ->
  match cl with
  | WN.NearDeposit => True
  | WN.NearWithdraw _ | WN.StorageUnregister (Some true) | WN.FtResolveTransfer _ _ _ =>
      WN.total_supply t' <= WN.total_supply t
  | _ => WN.total_supply t' = WN.total_supply t
  end.
Proof.
  destruct 1; cbn [WN.total_supply WP.set_balance WP.moved]; auto; try lia.
  - destruct H1 as [->| ->]; [|lia]. destruct f as [[]|]; lia.
  - destruct f as [[]|]; lia.
Qed.
Ltac idle := cbn [fst]; unfold WS.supply; cbn [WS.w_token]; split; [apply N.le_refl|]; let X := fresh in intros X; apply N.lt_irrefl in X; contradiction.
Lemma burnt_when self w ev : WC.good w ->
  match ev with WS.ECall _ _ _ WN.NearDeposit | WS.ECall _ _ _ (WN.NearWithdraw _) => True | _ =>
    WS.supply (WS.step self w ev) <= WS.supply w /\
    (WS.supply (WS.step self w ev) < WS.supply w ->
       (exists who attached gas, ev = WS.ECall who attached gas (WN.StorageUnregister (Some true))) \/
       (exists n, ev = WS.EResolve n true)) end.
Proof.
  intros G. destruct ev as [who attached gas cl|n ok|n r|n ok|x].
  - unfold WS.step, WS.supply, WN.ft_total_supply. cbn [WS.step_obs].
    assert (K : WN.total_supply (WS.w_token w) <= WN.total_supply (WS.w_token w) /\
      (WN.total_supply (WS.w_token w) < WN.total_supply (WS.w_token w) ->
       (exists who0 attached0 gas0, WS.ECall who attached gas cl = WS.ECall who0 attached0 gas0 (WN.StorageUnregister (Some true))) \/
       (exists n, WS.ECall who attached gas cl = WS.EResolve n true))) by (split; [lia|]; intros X; lia).
    destruct (_ || _); cbn [fst]; [destruct cl; auto|].
    destruct (WN.exec _ _ _) as [[[t ps] v]|e] eqn:E; cbn [fst]; [|destruct cl; auto].
    destruct (_ <=? _); cbn [fst]; [|destruct cl; auto]. cbn [WS.w_token].
    apply WP.exec_effect in E; [|apply G]. pose proof E as F. apply effect_supply in E.
    destruct cl as [| | | | |s d x|o ro|o|f]; auto; try (rewrite E; exact K).
    + inversion F; subst; cbn in *; discriminate.
    + destruct f as [[]|]; [|rewrite E; split; [lia|]; intros X; lia..]. split; [exact E|]. intros _. left. eauto.
  - unfold WS.step. cbn [WS.step_obs]. destruct (nth_error _ _) as [[]|]; [destruct ok| | |]; idle.
  - unfold WS.step. cbn [WS.step_obs]. destruct (nth_error _ _) as [[]|]; idle.
  - unfold WS.step. cbn [WS.step_obs]. destruct (nth_error _ _) as [[|?|s d x r]|]; try idle.
    destruct (WN.exec _ _ _) as [[[t ps] v]|e] eqn:E; [|idle].
    apply WP.exec_effect in E; [|apply G]. apply effect_supply in E. cbn in E.
    destruct v; try idle.
    destruct ok; [|idle]. cbn [andb]. destruct (_ <=? _); [|idle].
    split; [exact E|]. intros _. right. eauto.
  - unfold WS.step; cbn [WS.step_obs]; idle.
Qed.
Lemma rejected_same self w who attached gas cl : ~ WS.accepts self w who attached gas cl ->
  WS.step self w (WS.ECall who attached gas cl) = w.
Proof.
  intros N. unfold WS.step, WS.accepts in *. cbn [WS.step_obs] in *. destruct (_ || _); auto.
  destruct (WN.exec _ _ _) as [[[t ps] v]|e]; auto. destruct (_ <=? _); auto. exfalso. apply N. eexists. reflexivity.
Qed.
Lemma accepts_dec self w who attached gas cl :
  {WS.accepts self w who attached gas cl} + {~ WS.accepts self w who attached gas cl}.
Proof.
  unfold WS.accepts. cbn [WS.step_obs]. destruct (_ || _); [right; intros (v & E); discriminate|].
  destruct (WN.exec _ _ _) as [[[t ps] v]|e]; [|right; intros (v & E); discriminate].
  destruct (_ <=? _); [left; eexists; reflexivity|right; intros (u & E); discriminate].
Qed.
Lemma wrapped_step_told self w ev : WC.good w ->
  exists fs, Forall2 says (wrapped_step_log self w ev) fs /\
    WS.supply (WS.step self w ev) + said_unwrapped fs + burnt self w ev = WS.supply w + said_wrapped fs.
Proof.
  intros G. pose proof (burnt_when self w ev G) as BW.
  destruct ev as [who attached gas cl| | | |];
    try (exists []; split; [constructor|]; destruct BW as [BW _]; cbn [burnt said_unwrapped said_wrapped fold_right]; lia).
  destruct (accepts_dec self w who attached gas cl) as [A|NA].
  - destruct cl;
      try (exists []; split; [rewrite other_lines; [constructor|congruence|congruence]|];
           destruct BW as [BW _]; cbn [burnt said_unwrapped said_wrapped fold_right]; lia).
    + destruct (deposit_line _ _ _ _ _ G A) as (line & x & E & S & _ & _ & SU & _). exists [FWrapped x who].
      rewrite E. split; [auto|]. rewrite SU. cbn. lia.
    + destruct (withdraw_line _ _ _ _ _ _ G A) as (line & E & S & _ & SU & _). eexists [FUnwrapped _ who].
      rewrite E. split; [eauto|]. rewrite <- SU. cbn. lia.
  - exists []. rewrite other_lines; [|congruence|congruence]. split; [constructor|]. unfold burnt. rewrite (rejected_same _ _ _ _ _ _ NA).
    cbn [said_unwrapped said_wrapped fold_right]. destruct cl; lia.
Qed.
Lemma wrapped_log_told self b evs :
  let w := WS.start b in
  exists fs, Forall2 says (wrapped_log self w evs) fs /\
    WS.supply (WS.final self w evs) + said_unwrapped fs + burnt_in self w evs = said_wrapped fs.
Proof.
  intros w. induction evs as [|ev evs IH] using rev_ind.
  - exists []. split; [constructor|reflexivity].
  - destruct IH as (fs & S & E). destruct (wrapped_step_told self (WS.final self w evs) ev (WC.good_reach self b evs)) as (fs' & S' & E').
    exists (fs ++ fs')%list. rewrite wrapped_log_app, burnt_in_app, WP.final_app, said_wrapped_app, said_unwrapped_app.
    cbn [wrapped_log burnt_in WS.final]. rewrite app_nil_r. split; [now apply Forall2_app|]. lia.
Qed.

(** * In the form of the theorems *)
Lemma all_say_inj ls fs : Forall2 says ls fs -> forall fs', Forall2 says ls fs' -> fs = fs'.
Proof.
  induction 1 as [|s f ls fs S _ IH]; intros fs' H'; inversion H'; subst; auto. f_equal; eauto using says_inj.
Qed.
Lemma pool_factory_told self wl w evs : PS.starts wl w ->
  let l := PS.log self w evs in
  let lines := pool_factory_log self w evs in
  let w' := PS.final self w evs in
  (exists fs, Forall2 says lines fs) /\
  forall fs, Forall2 says lines fs ->
    PS.whitelisted l = map (pair wl) (said_created fs) /\ PS.refunded l = said_returned fs /\
    Permutation (pools_asked l) (pools_made l ++ said_failed fs ++ PS.pending_creations w') /\
    Permutation (PS.created_pools l) (said_created fs ++ PS.to_whitelist w').
Proof.
  intros ST l lines w'. destruct (pool_log_told self wl w evs ST) as (fs & [S _ W R A M]). split; [eauto|].
  intros fs' S'. rewrite <- (all_say_inj _ _ S _ S'). auto.
Qed.
Lemma lockup_factory_told g wl fnd w evs : LS.starts g wl fnd w ->
  let l := LS.log g w evs in
  let lines := lockup_factory_log g w evs in
  let w' := LS.final g w evs in
  (exists fs, Forall2 says lines fs) /\
  forall fs, Forall2 says lines fs ->
    LS.refunded l = said_returned fs /\
    Permutation (lockups_asked l) (lockups_made l ++ said_failed fs ++ lockups_pending w') /\
    Permutation (LS.created_lockups l) (said_created fs ++ lockups_to_report w').
Proof.
  intros ST l lines w'. destruct (lockup_log_told g wl fnd w evs ST) as (fs & [S _ R A M]). split; [eauto|].
  intros fs' S'. rewrite <- (all_say_inj _ _ S _ S'). auto.
Qed.
Lemma wrapped_told self b evs :
  let w := WS.start b in
  let lines := wrapped_log self w evs in
  (exists fs, Forall2 says lines fs) /\
  forall fs, Forall2 says lines fs ->
    WS.supply (WS.final self w evs) + said_unwrapped fs + burnt_in self w evs = said_wrapped fs.
Proof.
  intros w lines. destruct (wrapped_log_told self b evs) as (fs & S & E). split; [eauto|].
  intros fs' S'. rewrite <- (all_say_inj _ _ S _ S'). exact E.
Qed.
Lemma reach_deposit self b evs who attached gas :
  let w := WS.final self (WS.start b) evs in
  let ev := WS.ECall who attached gas WN.NearDeposit in
  let w' := WS.step self w ev in
  WS.accepts self w who attached gas WN.NearDeposit ->
  exists line x, wrapped_step_log self w ev = [line] /\ says line (FWrapped x who) /\
    (WS.registered w who /\ x = attached \/ ~ WS.registered w who /\ x + WS.DEPOSIT = attached) /\
    WS.bal w' who = WS.bal w who + x /\ WS.supply w' = WS.supply w + x /\
    (forall a, a <> who -> WS.bal w' a = WS.bal w a).
Proof. intros w ev w' A. apply deposit_line; [apply WC.good_reach|exact A]. Qed.
Lemma reach_withdraw self b evs who attached gas x :
  let w := WS.final self (WS.start b) evs in
  let ev := WS.ECall who attached gas (WN.NearWithdraw x) in
  let w' := WS.step self w ev in
  WS.accepts self w who attached gas (WN.NearWithdraw x) ->
  exists line, wrapped_step_log self w ev = [line] /\ says line (FUnwrapped x who) /\
    WS.bal w' who + x = WS.bal w who /\ WS.supply w' + x = WS.supply w /\
    (forall a, a <> who -> WS.bal w' a = WS.bal w a).
Proof. intros w ev w' A. apply withdraw_line; [apply WC.good_reach|exact A]. Qed.
Lemma reach_burnt self b evs ev :
  let w := WS.final self (WS.start b) evs in
  0 < burnt self w ev ->
  (exists who attached gas, ev = WS.ECall who attached gas (WN.StorageUnregister (Some true))) \/
  (exists n, ev = WS.EResolve n true).
Proof.
  intros w H. pose proof (burnt_when self w ev (WC.good_reach self b evs)) as B. unfold burnt in H.
  destruct ev as [? ? ? []| | | |]; try lia; destruct B as [_ B]; apply B; lia.
Qed.
