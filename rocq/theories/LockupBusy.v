(** The pool status is busy exactly while a staking operation is outstanding, as long as pool views answer; and
    stays busy for ever after a view that failed. *)
From Coq Require Import NArith List Bool String Lia.
From Verif Require Import Prelude PreludeFacts MapFacts LockupModel LockupWorld LockupSpec LockupEffects LockupInv
  LockupMoves.
Import ListNotations.
Open Scope N_scope.

Definition answered (m : msg) : Prop := match m with MBack cb r => failed_view cb r = false | _ => True end.

Record steady (w : world) : Prop := mkSteady {
  s_answered : Forall answered (w_msgs w);
  s_one : busy (w_lockup w) = true -> total scnt (w_msgs w) = 1
}.

Lemma tokens_answered a : Forall answered (tokens a).
Proof. unfold tokens. destruct (a =? 0); repeat constructor. Qed.

Lemma view_callback op cb r : cb_matches op cb = true -> is_view op = false -> failed_view cb r = false.
Proof. destruct op, cb; cbn; intros; try discriminate; reflexivity. Qed.

(** Executing a request: the callback of a staking operation replaces the request. *)
Lemma execute_counts w r cb o pools new l :
  msg_ok (w_lockup w) (pool_total (w_pools w) (w_lockup w)) (MCall r cb) ->
  execute w r cb o = Some (pools, new, l) ->
  total scnt new = scnt (MCall r cb) /\
  ((match r, o with RPool _ op, OFail => is_view op | _, _ => false end) = false -> Forall answered new) /\
  total work_of new + scnt (MCall r cb) <= work_of (MCall r cb).
Proof.
  intros Hm Hx. destruct r as [wl p|poll|p op|rc a|pk]; cbn [msg_ok] in Hm.
  - subst cb. destruct o; cbn in Hx; try discriminate; injection Hx as <- <- _; cbn; repeat split; repeat constructor; lia.
  - subst cb. destruct o; cbn in Hx; try discriminate; injection Hx as <- <- _; cbn; repeat split; repeat constructor; lia.
  - destruct Hm as (d & cb' & _ & -> & Hcb & _). pose proof (matches_staking _ _ Hcb) as Hsc.
    assert (Es : forall r, scnt (MBack cb' r) = 1) by (intros r; unfold scnt; cbn; now rewrite Hsc).
    assert (Ew : forall r, work_of (MBack cb' r) + 1 <= work_of (MCall (RPool p op) (Some cb'))).
    { intros r. destruct op, cb'; cbn in Hcb; try discriminate; cbn; lia. }
    change (scnt (MCall (RPool p op) (Some cb'))) with 1.
    destruct o; cbn [execute] in Hx; try discriminate.
    + injection Hx as <- <- _. rewrite !total_app, !total_tokens by reflexivity. cbn [back].
      rewrite !total_one, Es. split; [reflexivity|]. split; [|apply Ew].
      intros Hv. apply Forall_app. split; [apply tokens_answered|]. constructor; [|constructor].
      cbn. eapply view_callback; eauto.
    + destruct (is_view op) eqn:Ev; [|discriminate]. injection Hx as <- <- _.
      cbn [back]. rewrite !total_one, Es. split; [reflexivity|]. split; [|apply Ew].
      intros _. constructor; [|constructor]. cbn. destruct cb'; reflexivity.
    + destruct (pool_keeps op (w_pools w p) (staked, unstaked)) eqn:Ek; [|discriminate].
      assert (E : forall f, (forall x, f (MTokens x) = 0) ->
        total f (match op with PWithdraw a => tokens a | _ => [] end) = 0).
      { intros f Hf. destruct op; try reflexivity. now apply total_tokens. }
      injection Hx as <- <- _. rewrite !total_app, !E by reflexivity. cbn [back]. rewrite !total_one, Es.
      split; [reflexivity|]. split; [|apply Ew]. intros _. apply Forall_app.
      split; [destruct op; try constructor; apply tokens_answered|]. constructor; [|constructor].
      cbn. destruct cb'; reflexivity.
  - destruct o; cbn [execute] in Hx; try discriminate; injection Hx as <- <- _;
    rewrite ?total_app; rewrite ?total_tokens by reflexivity;
    (destruct Hm as [->|[-> Hp]]; cbn [back]; rewrite ?total_one; cbn;
     (split; [reflexivity|]); (split; [|lia])); intros _; try (apply Forall_app; split; [apply tokens_answered|]);
    repeat constructor.
  - subst cb. destruct o; cbn in Hx; try discriminate; injection Hx as <- <- _; cbn; repeat split; repeat constructor; lia.
Qed.

(** Calls. *)
Lemma call_counts g w who m s p :
  who <> g_self g -> effect (call_ctx g w who) (w_lockup w) m s p ->
  busy (w_lockup w) = true /\ busy s = true /\ total scnt (posted p) = 0 /\ total work_of (posted p) = 0 \/
  busy (w_lockup w) = false /\ (busy s = true -> total scnt (posted p) = 1).
Proof.
  intros Hwho He. destruct (busy (w_lockup w)) eqn:Hb; [left|right]; (split; [reflexivity|]);
  inversion He; subst; cbn [call_ctx ctx_predecessor ctx_current] in *; try congruence;
  try (exfalso; match goal with H : staking_information _ = Some (mkStaking _ Idle _) |- _ =>
         unfold busy in Hb; rewrite H in Hb; discriminate end);
  try (split; [exact Hb|split; reflexivity]);
  try (unfold busy in *; wsimpl; congruence);
  try reflexivity.
Qed.

Lemma posted_answered p : Forall answered (posted p).
Proof. destruct p as [p|]; repeat constructor. Qed.

Lemma back_counts g w n cb r s p :
  inv w -> nth_error (w_msgs w) n = Some (MBack cb r) ->
  effect (back_ctx g w r) (w_lockup w) cb s p ->
  (busy s = true -> staking_callback cb = true -> total scnt (posted p) = 1) /\
  (staking_callback cb = false -> (busy s = busy (w_lockup w)) /\ total scnt (posted p) = 0) /\
  total work_of (posted p) + scnt (MBack cb r) <= work_of (MBack cb r) /\
  (busy s = false -> busy (w_lockup w) = true -> staking_callback cb = true).
Proof.
  intros HI Hn He. pose proof (msg_at _ _ _ HI Hn) as Hm. cbn [msg_ok] in Hm.
  destruct (staking_callback cb) eqn:Hsc.
  - destruct Hm as (p0 & d & Hst & Hph & Hans). unfold scnt. cbn [staking_msg]. rewrite Hsc.
    inversion He; subst; try discriminate; try (exfalso; destruct cb; discriminate);
    (split; [intros Hb _; try reflexivity; discriminate Hb|]); (split; [discriminate|]);
    (split; [|auto]); try (cbn; lia).
    + match goal with H : _ \/ _ |- _ => destruct H; subst; cbn; lia end.
    + match goal with H : only_status _ ?r = true |- _ => destruct cb, r as [[]|]; try discriminate; cbn; lia end.
  - destruct cb; try discriminate; try contradiction;
    (split; [discriminate|]);
    (inversion He; subst; cbn [ctx_results back_ctx] in *; try discriminate;
      try match goal with H : owner_op _ = _ |- _ => discriminate end;
      try match goal with H : only_status _ _ = _ |- _ => discriminate end;
      try match goal with H : _ \/ _ |- _ => destruct H; discriminate end).
    + match goal with H : staking_information _ = None |- _ => rename H into Hst end.
      assert (Eb : busy (w_lockup w) = false) by (unfold busy; rewrite Hst; reflexivity). rewrite Eb.
      split; [intros _; split; reflexivity|]. split; [cbn; lia|discriminate].
    + split; [intros _; split; reflexivity|]. split; [cbn; lia|]. intros HA HB.
      change (busy (w_lockup w) = false) in HA. congruence.
    + split; [intros _; split; reflexivity|]. split; [cbn; lia|]. congruence.
    + assert (Eb : busy (if amount <? get_terminated_unvested_balance (w_lockup w)
         then with_term (set_lockup (w_lockup w) (mkLockup (lockup_amount (lockup_information (w_lockup w)))
           (termination_withdrawn_tokens (lockup_information (w_lockup w)) + amount) (lockup_duration (lockup_information (w_lockup w)))
           (release_duration (lockup_information (w_lockup w))) (lockup_timestamp (lockup_information (w_lockup w)))
           (transfers_information (lockup_information (w_lockup w)))))
                (get_terminated_unvested_balance (w_lockup w) - amount) ReadyToWithdraw
         else set_vesting (set_foundation (set_lockup (w_lockup w) (mkLockup (lockup_amount (lockup_information (w_lockup w)))
           (termination_withdrawn_tokens (lockup_information (w_lockup w)) + amount) (lockup_duration (lockup_information (w_lockup w)))
           (release_duration (lockup_information (w_lockup w))) (lockup_timestamp (lockup_information (w_lockup w)))
           (transfers_information (lockup_information (w_lockup w))))) None) VNone) = busy (w_lockup w))
        by (destruct (_ <? _); reflexivity).
      rewrite Eb. split; [intros _; split; reflexivity|]. split; [cbn; lia|]. congruence.
    + split; [intros _; split; reflexivity|]. split; [cbn; lia|].
      intros HA HB. change (busy (w_lockup w) = false) in HA. congruence.
Qed.

Lemma steady_step g w ev : inv w -> steady w -> view_fails w ev = false -> steady (step g w ev).
Proof.
  intros HI HS Hv. generalize (step_move g w ev HI).
  generalize (step g w ev) (snd (step_obs g w ev)). intros w' l Hmv.
  inversion Hmv; subst; try exact HS; try (destruct HS; split; assumption).
  - destruct HS as [Ha Ho]. split; unfold after; wsimpl.
    + apply Forall_app. split; [exact Ha|apply posted_answered].
    + rewrite total_app. pose proof (idle_no_staking w HI) as Hidle.
      match goal with H : effect _ _ _ _ _ |- _ => destruct (call_counts _ _ _ _ _ _ ltac:(eassumption) H)
        as [(Hb & _ & E & _)|[Hb E]] end.
      * rewrite E, (Ho Hb). reflexivity.
      * intros Hs. rewrite (E Hs), (Hidle Hb). reflexivity.
  - destruct HS as [Ha Ho].
    match goal with H : nth_error _ _ = _ |- _ => rename H into Hn end.
    match goal with H : execute _ _ _ _ = _ |- _ => destruct (execute_counts _ _ _ _ _ _ _ (msg_at _ _ _ HI Hn) H) as (E1 & E2 & _) end.
    destruct (Forall_drop _ _ _ _ Ha Hn) as [_ Hr].
    split; wsimpl.
    + apply Forall_app. split; [exact Hr|]. apply E2. unfold view_fails in Hv. rewrite Hn in Hv.
      destruct r, o; auto.
    + intros Hb. rewrite total_app, E1. specialize (Ho Hb). rewrite (total_drop scnt _ _ _ Hn) in Ho. lia.
  - destruct HS as [Ha Ho].
    match goal with H : nth_error _ _ = _ |- _ => rename H into Hn end.
    destruct (Forall_drop _ _ _ _ Ha Hn) as [_ Hr]. split; wsimpl; [exact Hr|].
    intros Hb. specialize (Ho Hb). rewrite (total_drop scnt _ _ _ Hn) in Ho. cbn [scnt staking_msg] in Ho. lia.
  - destruct HS as [Ha Ho].
    match goal with H : nth_error _ _ = _ |- _ => rename H into Hn end.
    destruct (Forall_drop _ _ _ _ Ha Hn) as [Hf Hr]. split; wsimpl; [exact Hr|].
    intros Hb. specialize (Ho Hb). rewrite (total_drop scnt _ _ _ Hn) in Ho.
    assert (E : scnt (MBack cb r) = 0).
    { cbn in Hf. match goal with H : may_fail _ _ = true |- _ => rename H into Hmf end.
      destruct cb; cbn [may_fail] in Hmf; try reflexivity; congruence. }
    lia.
  - destruct HS as [Ha Ho].
    match goal with H : nth_error _ _ = _ |- _ => rename H into Hn end.
    destruct (Forall_drop _ _ _ _ Ha Hn) as [Hf Hr].
    match goal with H : effect _ _ _ _ _ |- _ => destruct (back_counts _ _ _ _ _ _ _ HI Hn H) as (E1 & E2 & _ & _) end.
    split; unfold after; wsimpl.
    + apply Forall_app. split; [exact Hr|apply posted_answered].
    + intros Hb. rewrite total_app. pose proof (total_drop scnt _ _ _ Hn) as D.
      pose proof (i_one w HI) as HO1. unfold scnt at 2 in D. cbn [staking_msg] in D.
      destruct (staking_callback cb) eqn:Hsc.
      * rewrite (E1 Hb eq_refl). lia.
      * destruct (E2 eq_refl) as [Eb E3]. rewrite E3. rewrite Eb in Hb. specialize (Ho Hb). lia.
Qed.

Lemma steady_final g w evs : inv w -> steady w -> views_answer g w evs -> steady (final g w evs).
Proof.
  revert w. induction evs as [|ev evs IH]; intros w HI HS H; [exact HS|].
  destruct H as [H1 H2]. apply IH; auto using inv_step, steady_step.
Qed.

Lemma start_idle g w : starts g w -> w_msgs w = [] /\ staking_information (w_lockup w) = None.
Proof.
  intros [(ow & du & ti & tr & ve & re & wl & fo & pr & Hnew & _) HB HT HP HM].
  apply new_ok in Hnew. destruct Hnew as (Es & _). rewrite Es. auto.
Qed.

Lemma steady_start g w : starts g w -> steady w.
Proof.
  intros H. destruct (start_idle g w H) as [H1 H2]. split; rewrite ?H1; [constructor|].
  unfold busy. rewrite H2. discriminate.
Qed.

Lemma busy_iff w : inv w -> steady w -> busy (w_lockup w) = true <-> outstanding w = 1%nat.
Proof.
  intros HI [_ Ho]. pose proof (outstanding_total w) as E. split.
  - intros Hb. specialize (Ho Hb). lia.
  - intros H. destruct (busy (w_lockup w)) eqn:Hb; [reflexivity|].
    pose proof (idle_no_staking w HI Hb). lia.
Qed.
Lemma outstanding_le w : inv w -> (outstanding w <= 1)%nat.
Proof. intros HI. pose proof (outstanding_total w). pose proof (i_one w HI). lia. Qed.

(** * The work left *)

Lemma work_zero l : total scnt l = 0 -> total work_of l = 0.
Proof.
  rewrite !total_zero. intros H. eapply Forall_impl; [|exact H]. intros m. unfold scnt.
  destruct m as [[]|cb r|]; cbn; auto; try discriminate. destruct cb; cbn; auto; discriminate.
Qed.
Lemma work_pos m : scnt m = 1 -> 0 < work_of m.
Proof.
  unfold scnt. destruct m as [[]|cb r|]; cbn; try discriminate.
  - intros _. destruct (is_view op); lia.
  - destruct cb; cbn; try discriminate; lia.
Qed.

(** No event makes the outstanding operation longer. *)
Lemma work_step g w ev : inv w -> steady w -> busy (w_lockup w) = true -> work (step g w ev) <= work w.
Proof.
  intros HI HS Hb. generalize (step_move g w ev HI). unfold work.
  generalize (step g w ev) (snd (step_obs g w ev)). intros w' l Hmv.
  inversion Hmv; subst; try reflexivity; unfold after; wsimpl; rewrite ?total_app.
  - match goal with H : effect _ _ _ _ _ |- _ => destruct (call_counts _ _ _ _ _ _ ltac:(eassumption) H)
        as [(_ & _ & _ & E)|[E _]] end; [rewrite E; lia|congruence].
  - match goal with H : nth_error _ _ = _ |- _ => rename H into Hn end.
    match goal with H : execute _ _ _ _ = _ |- _ => destruct (execute_counts _ _ _ _ _ _ _ (msg_at _ _ _ HI Hn) H) as (_ & _ & E) end.
    rewrite (total_drop work_of _ _ _ Hn). lia.
  - match goal with H : nth_error _ _ = _ |- _ => rewrite (total_drop work_of _ _ _ H) end. cbn. lia.
  - match goal with H : nth_error _ _ = _ |- _ => rewrite (total_drop work_of _ _ _ H) end. lia.
  - match goal with H : nth_error _ _ = _ |- _ => rename H into Hn end.
    match goal with H : effect _ _ _ _ _ |- _ => destruct (back_counts _ _ _ _ _ _ _ HI Hn H) as (_ & _ & E & _) end.
    rewrite (total_drop work_of _ _ _ Hn). lia.
Qed.

(** Every delivery of a message of the operation makes it shorter. *)
Lemma work_deliver g w n o r cb :
  inv w -> nth_error (w_msgs w) n = Some (MCall r cb) -> staking_msg (MCall r cb) = true ->
  execute w r cb o <> None -> work (step g w (EDeliver n o)) < work w.
Proof.
  intros HI Hn Hs Hx. unfold step, step_obs. rewrite Hn.
  destruct (execute w r cb o) as [[[pools new] l]|] eqn:E; [|contradiction]. cbn [fst].
  destruct (execute_counts _ _ _ _ _ _ _ (msg_at _ _ _ HI Hn) E) as (_ & _ & E1).
  unfold work. wsimpl. rewrite total_app, (total_drop work_of _ _ _ Hn). unfold scnt in E1. rewrite Hs in E1. lia.
Qed.

Lemma work_run g w n cb r :
  inv w -> nth_error (w_msgs w) n = Some (MBack cb r) -> staking_msg (MBack cb r) = true ->
  work (step g w (ERun n)) < work w.
Proof.
  intros HI Hn Hs. pose proof (step_move g w (ERun n) HI) as Hmv. unfold work. revert Hmv.
  assert (Hne : step g w (ERun n) <> w \/ True) by auto. clear Hne.
  unfold step, step_obs. rewrite Hn.
  destruct (run g _ (g_self g) 0 [r] cb) as [[w'|] l] eqn:Hr; cbn [fst snd].
  - intros _. apply run_after in Hr. destruct Hr as (_ & s & p & _ & He & _ & -> & _). wsimpl.
    destruct (back_counts g w n cb r s p HI Hn He) as (_ & _ & E & _).
    unfold after. wsimpl. rewrite total_app, (total_drop work_of _ _ _ Hn). unfold scnt in E. rewrite Hs in E. lia.
  - intros _. wsimpl. rewrite (total_drop work_of _ _ _ Hn).
    assert (0 < work_of (MBack cb r)) by (apply work_pos; unfold scnt; rewrite Hs; reflexivity). lia.
Qed.

(** An outstanding message exists while the status is busy. *)
Lemma outstanding_message w : inv w -> steady w -> busy (w_lockup w) = true ->
  exists n m, nth_error (w_msgs w) n = Some m /\ staking_msg m = true.
Proof.
  intros HI [_ Ho] Hb. specialize (Ho Hb). clear HI.
  induction (w_msgs w) as [|m l IH]; [discriminate|]. cbn in Ho. fold (total scnt l) in Ho.
  destruct (staking_msg m) eqn:E; [exists O, m; auto|]. unfold scnt at 1 in Ho. rewrite E in Ho.
  destruct (IH Ho) as (n & m' & H1 & H2). exists (S n), m'. auto.
Qed.

Lemma idle_work w : inv w -> steady w -> busy (w_lockup w) = false <-> work w = 0.
Proof.
  intros HI HS. split.
  - intros Hb. apply work_zero. now apply idle_no_staking.
  - intros Hw. destruct (busy (w_lockup w)) eqn:Hb; [|reflexivity]. exfalso.
    destruct (outstanding_message w HI HS Hb) as (n & m & Hn & Hs).
    unfold work in Hw. rewrite (total_drop work_of _ _ _ Hn) in Hw.
    assert (0 < work_of m) by (apply work_pos; unfold scnt; rewrite Hs; reflexivity). lia.
Qed.

(** * Stuck *)

Definition stuck (w : world) : Prop := busy (w_lockup w) = true /\ total scnt (w_msgs w) = 0.

Lemma stuck_step g w ev : inv w -> stuck w -> stuck (step g w ev).
Proof.
  intros HI [Hb Hz]. generalize (step_move g w ev HI).
  generalize (step g w ev) (snd (step_obs g w ev)). intros w' l Hmv.
  inversion Hmv; subst; try (split; assumption); unfold stuck, after; wsimpl; rewrite ?total_app.
  - match goal with H : effect _ _ _ _ _ |- _ => destruct (call_counts _ _ _ _ _ _ ltac:(eassumption) H)
        as [(_ & E1 & E2 & _)|[E _]] end; [split; [exact E1|lia]|congruence].
  - match goal with H : nth_error _ _ = _ |- _ => rename H into Hn end.
    match goal with H : execute _ _ _ _ = _ |- _ => destruct (execute_counts _ _ _ _ _ _ _ (msg_at _ _ _ HI Hn) H) as (E & _ & _) end.
    rewrite (total_drop scnt _ _ _ Hn) in Hz. split; [exact Hb|lia].
  - match goal with H : nth_error _ _ = _ |- _ => rewrite (total_drop scnt _ _ _ H) in Hz end. split; [exact Hb|lia].
  - match goal with H : nth_error _ _ = _ |- _ => rewrite (total_drop scnt _ _ _ H) in Hz end. split; [exact Hb|lia].
  - match goal with H : nth_error _ _ = _ |- _ => rename H into Hn end.
    match goal with H : effect _ _ _ _ _ |- _ => destruct (back_counts _ _ _ _ _ _ _ HI Hn H) as (_ & E1 & _ & E2) end.
    rewrite (total_drop scnt _ _ _ Hn) in Hz.
    assert (Hsc : staking_callback cb = false).
    { unfold scnt in Hz at 1. cbn [staking_msg] in Hz. destruct (staking_callback cb); [lia|reflexivity]. }
    destruct (E1 Hsc) as [E3 E4]. split; [congruence|lia].
Qed.

Lemma stuck_final g w evs : inv w -> stuck w -> stuck (final g w evs).
Proof.
  revert w. induction evs as [|ev evs IH]; intros w HI HS; [exact HS|].
  apply IH; auto using inv_step, stuck_step.
Qed.

Lemma final_app g w a b : final g w (a ++ b) = final g (final g w a) b.
Proof. revert w. induction a as [|ev a IH]; intros w; [reflexivity|]. apply IH. Qed.
Lemma log_app g w a b : log g w (a ++ b) = (log g w a ++ log g (final g w a) b)%list.
Proof.
  revert w. induction a as [|ev a IH]; intros w; [reflexivity|]. cbn. rewrite IH, app_assoc. reflexivity.
Qed.
