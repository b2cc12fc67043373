(** Termination: what the foundation receives and the transitions of the status. *)
From Coq Require Import NArith List Bool String Lia.
From Verif Require Import Prelude PreludeFacts MapFacts LockupModel LockupWorld LockupSpec LockupEffects LockupInv
  LockupMoves LockupBusy.
Import ListNotations.
Open Scope N_scope.

(** Induction over histories with their log. *)
Lemma hist_ind (P : world -> list obs -> Prop) g :
  (forall w L ev, inv w -> P w L -> P (step g w ev) (L ++ snd (step_obs g w ev))%list) ->
  forall w evs L, inv w -> P w L -> P (final g w evs) (L ++ log g w evs)%list.
Proof.
  intros Hs w evs. revert w. induction evs as [|ev evs IH]; intros w L HI HP; cbn.
  - now rewrite app_nil_r.
  - rewrite app_assoc. apply IH; auto using inv_step.
Qed.

(** A payment the receiver got and the lockup has not recorded. *)
Definition paid (m : msg) : N := match m with MBack (OnWithdrawUnvestedAmount a _) (Some _) => a | _ => 0 end.

Lemma received_app a b : received (a ++ b) = received a + received b.
Proof. apply total_app. Qed.

Definition withdrawn (s : contract) : N := termination_withdrawn_tokens (lockup_information s).

(** Before a termination. *)
Definition fresh (w : world) (L : list obs) : Prop :=
  not_terminating (w_lockup w) /\ vesting_information (w_lockup w) <> VNone ->
  received L = 0.

(** After a termination with unvested amount [u]. *)
Definition paying_out (u : N) (w : world) (L : list obs) : Prop :=
  match vesting_information (w_lockup w) with
  | VTerminating ti => received L = withdrawn (w_lockup w) + total paid (w_msgs w) /\
                       unvested_amount ti + withdrawn (w_lockup w) = u
  | VNone => received L = u /\ withdrawn (w_lockup w) = u
  | _ => False
  end.

Lemma paid_tcnt m : tcnt m = 0 -> paid m = 0.
Proof. destruct m as [[]|cb r|]; cbn; auto. destruct cb; auto; discriminate. Qed.
Lemma no_payment l : total tcnt l = 0 -> total paid l = 0.
Proof. rewrite !total_zero. intros H. eapply Forall_impl; [|exact H]. exact paid_tcnt. Qed.

Lemma execute_paid w r cb o pools new l :
  msg_ok (w_lockup w) (pool_total (w_pools w) (w_lockup w)) (MCall r cb) ->
  execute w r cb o = Some (pools, new, l) ->
  received l = total paid new /\ (tcnt (MCall r cb) = 0 -> received l = 0).
Proof.
  intros Hm Hx. destruct r as [wl p|poll|p op|rc a|pk]; cbn [msg_ok] in Hm.
  - subst cb. destruct o; cbn in Hx; try discriminate; injection Hx as <- <- <-; cbn; auto.
  - subst cb. destruct o; cbn in Hx; try discriminate; injection Hx as <- <- <-; cbn; auto.
  - destruct Hm as (d & cb' & _ & -> & Hcb & _).
    assert (E : forall r, paid (MBack cb' r) = 0).
    { intros r. destruct op, cb'; cbn in Hcb; try discriminate; reflexivity. }
    destruct o; cbn [execute] in Hx; try discriminate.
    + injection Hx as <- <- <-. rewrite total_app, total_tokens by reflexivity. cbn [back]. rewrite total_one, E. auto.
    + destruct (is_view op); [|discriminate]. injection Hx as <- <- <-. cbn [back]. rewrite total_one, E. auto.
    + destruct (pool_keeps _ _ _); [|discriminate]. injection Hx as <- <- <-.
      rewrite total_app. cbn [back]. rewrite total_one, E.
      destruct op; rewrite ?total_tokens by reflexivity; auto.
  - destruct o; cbn [execute] in Hx; try discriminate; injection Hx as <- <- <-;
    rewrite ?total_app; rewrite ?total_tokens by reflexivity;
    (destruct Hm as [->|[-> Hp]]; cbn; auto); split; [lia|discriminate].
  - subst cb. destruct o; cbn in Hx; try discriminate; injection Hx as <- <- <-; cbn; auto.
Qed.

Lemma received_sent p : received (sent p) = 0.
Proof. destruct p; reflexivity. Qed.

(** Calls by others. *)
Lemma call_vesting g w who m s p :
  who <> g_self g -> effect (call_ctx g w who) (w_lockup w) m s p ->
  total paid (posted p) = 0 /\ withdrawn s = withdrawn (w_lockup w) /\
  ((exists o, m = TerminateVesting o) \/ vesting_information s = vesting_information (w_lockup w) \/
   exists u st st', vesting_information (w_lockup w) = VTerminating (mkTermination u st) /\
     vesting_information s = VTerminating (mkTermination u st') /\ documented (Some st) (Some st') = true).
Proof.
  intros Hwho He.
  inversion He; subst; cbn [call_ctx ctx_predecessor ctx_current] in *; try congruence;
  (split; [reflexivity|]); (split; [reflexivity|]); eauto;
  right; right; do 3 eexists; (split; [eassumption|]); split; reflexivity.
Qed.

Lemma back_vesting g w n cb r s p :
  inv w -> nth_error (w_msgs w) n = Some (MBack cb r) ->
  effect (back_ctx g w r) (w_lockup w) cb s p ->
  total paid (posted p) = 0 /\
  ((withdrawn s = withdrawn (w_lockup w) /\ paid (MBack cb r) = 0 /\
    (vesting_information s = vesting_information (w_lockup w) \/
     exists u st st', vesting_information (w_lockup w) = VTerminating (mkTermination u st) /\
       vesting_information s = VTerminating (mkTermination u st') /\ documented (Some st) (Some st') = true)) \/
   exists u a, paid (MBack cb r) = a /\ a <= u /\ withdrawn s = withdrawn (w_lockup w) + a /\
     tcnt (MBack cb r) = 1 /\
     vesting_information (w_lockup w) = VTerminating (mkTermination u WithdrawingFromAccountInProgress) /\
     (a < u /\ vesting_information s = VTerminating (mkTermination (u - a) ReadyToWithdraw) \/
      a = u /\ vesting_information s = VNone)).
Proof.
  intros HI Hn He. pose proof (msg_at _ _ _ HI Hn) as Hm. cbn [msg_ok] in Hm.
  destruct (staking_callback cb) eqn:Hsc.
  - destruct Hm as (p0 & d & Hst & Hph & Hans).
    assert (Hp0 : paid (MBack cb r) = 0) by (destruct cb; try discriminate; reflexivity).
    rewrite Hp0.
    inversion He; subst; try discriminate; try (exfalso; destruct cb; discriminate);
    (split; [reflexivity|]); left; (split; [reflexivity|]); (split; [reflexivity|]);
    try (left; reflexivity); right;
    match goal with H : vesting_information (w_lockup w) = VTerminating _ |- _ =>
      unfold get_termination_status in Hph; rewrite H in Hph; rename H into Hv end;
    match type of Hv with _ = VTerminating (mkTermination _ ?st) => destruct st; try discriminate Hph end;
    do 3 eexists; (split; [exact Hv|]); (split; [reflexivity|]);
    try reflexivity; match goal with |- context[is_some ?r] => destruct (is_some r); reflexivity end.
  - destruct cb; try discriminate; try contradiction;
    (inversion He; subst; cbn [ctx_results back_ctx] in *; try discriminate;
      try match goal with H : owner_op _ = _ |- _ => discriminate end;
      try match goal with H : only_status _ _ = _ |- _ => discriminate end;
      try match goal with H : _ \/ _ |- _ => destruct H; discriminate end);
    (split; [reflexivity|]).
    + left. split; [reflexivity|]. split; [reflexivity|]. left. reflexivity.
    + left. split; [reflexivity|]. split; [reflexivity|]. left. reflexivity.
    + left. split; [reflexivity|]. split; [reflexivity|]. left. reflexivity.
    + right. destruct Hm as (u & Hu & Ha).
      match goal with H : [_] = [_] |- _ => injection H; intros; subst r end.
      assert (Hgu : get_terminated_unvested_balance (w_lockup w) = u).
      { unfold get_terminated_unvested_balance. rewrite Hu. reflexivity. }
      exists u, amount. rewrite Hgu.
      split; [reflexivity|]. split; [exact Ha|]. split; [destruct (amount <? u); reflexivity|].
      split; [reflexivity|]. split; [exact Hu|].
      destruct (N.ltb_spec amount u); [left|right]; (split; [lia|]); reflexivity.
    + left. destruct Hm as (u' & Hu & Ha).
      match goal with H : [_] = [_] |- _ => injection H; intros; subst r end.
      split; [reflexivity|]. split; [reflexivity|]. right.
      match goal with H : vesting_information (w_lockup w) = VTerminating (mkTermination ?x ?y) |- _ =>
        lazymatch H with Hu => fail | _ => rewrite Hu in H; injection H; clear H; intros; subst end end.
      do 3 eexists. split; [exact Hu|]. split; reflexivity.
Qed.

Lemma stay_paying u w s msgs st st' L x :
  vesting_information (w_lockup w) = VTerminating (mkTermination x st) ->
  vesting_information s = VTerminating (mkTermination x st') ->
  withdrawn s = withdrawn (w_lockup w) -> total paid msgs = total paid (w_msgs w) ->
  paying_out u w L ->
  forall b t f L', received L' = received L -> paying_out u (mkWorld s b t f msgs) L'.
Proof.
  intros Hv Hv' Hw Hp H b t f L' HL. unfold paying_out in *. wsimpl. rewrite Hv in H. rewrite Hv', Hw, Hp, HL. exact H.
Qed.

Lemma paying_out_same u w s msgs L :
  vesting_information s = vesting_information (w_lockup w) ->
  withdrawn s = withdrawn (w_lockup w) -> total paid msgs = total paid (w_msgs w) ->
  paying_out u w L -> forall b t f L', received L' = received L -> paying_out u (mkWorld s b t f msgs) L'.
Proof.
  intros Hv Hw Hp H b t f L' HL. unfold paying_out in *. wsimpl. rewrite Hv, Hw, Hp, HL. exact H.
Qed.

Lemma received_skip L l : received l = 0 -> received (L ++ l) = received L.
Proof. intros H. rewrite received_app, H. lia. Qed.

Lemma paying_step g u w L ev : inv w -> paying_out u w L ->
  paying_out u (step g w ev) (L ++ snd (step_obs g w ev)).
Proof.
  intros HI HP. generalize (step_move g w ev HI).
  generalize (step g w ev) (snd (step_obs g w ev)). intros w' l Hmv.
  assert (Hnone : vesting_information (w_lockup w) = VNone -> total tcnt (w_msgs w) = 0).
  { intros Hv. pose proof (i_term w HI) as Ht. unfold get_termination_status in Ht. now rewrite Hv in Ht. }
  inversion Hmv; subst.
  - rewrite app_nil_r. exact HP.
  - unfold paying_out in *. rewrite received_skip by reflexivity. exact HP.
  - rewrite app_nil_r. eapply paying_out_same; eauto.
  - rewrite app_nil_r. eapply paying_out_same; eauto.
  - rewrite app_nil_r. eapply paying_out_same; eauto.
  - match goal with H : effect _ _ _ _ _ |- _ => destruct (call_vesting _ _ _ _ _ _ ltac:(eassumption) H)
        as (E1 & E2 & E3); rename H into He end.
    assert (Er : received (L ++ BCalled who m true :: sent p) = received L).
    { apply received_skip. destruct p; reflexivity. }
    assert (Ep : total paid (w_msgs w ++ posted p) = total paid (w_msgs w)) by (rewrite total_app; lia).
    unfold after. destruct E3 as [(o & ->)|[E3|(x & st & st' & E3 & E4 & _)]].
    + exfalso. inversion He; subst; try discriminate; cbn [call_ctx ctx_predecessor ctx_current] in *; try congruence.
      match goal with H : assert_vesting _ _ _ = _ |- _ => apply assert_vesting_ok in H; rename H into Hv end.
      unfold paying_out in HP. destruct Hv as [(h & salt & Ev & _)|(Ev & _)]; rewrite Ev in HP; exact HP.
    + eapply paying_out_same; eauto.
    + eapply stay_paying; eauto.
  - match goal with H : nth_error _ _ = _ |- _ => rename H into Hn end.
    match goal with H : execute _ _ _ _ = _ |- _ => destruct (execute_paid _ _ _ _ _ _ _ (msg_at _ _ _ HI Hn) H) as (E1 & E2) end.
    unfold paying_out in *. wsimpl. rewrite received_app, total_app.
    pose proof (total_drop paid _ _ _ Hn) as D. cbn [paid] in D.
    destruct (vesting_information (w_lockup w)) eqn:Ev; try exact HP.
    + specialize (Hnone eq_refl). rewrite (total_drop tcnt _ _ _ Hn) in Hnone. rewrite E2 by lia. lia.
    + lia.
  - match goal with H : nth_error _ _ = _ |- _ => rename H into Hn end.
    rewrite app_nil_r. pose proof (total_drop paid _ _ _ Hn) as D. cbn [paid] in D.
    eapply paying_out_same; eauto.
  - match goal with H : nth_error _ _ = _ |- _ => rename H into Hn end.
    pose proof (total_drop paid _ _ _ Hn) as D.
    assert (E : paid (MBack cb r) = 0) by (destruct cb, r; try discriminate; reflexivity).
    eapply paying_out_same; eauto; [lia|]. apply received_skip. reflexivity.
  - match goal with H : nth_error _ _ = _ |- _ => rename H into Hn end.
    match goal with H : effect _ _ _ _ _ |- _ => destruct (back_vesting _ _ _ _ _ _ _ HI Hn H) as (E1 & E2) end.
    pose proof (total_drop paid _ _ _ Hn) as D.
    assert (Er : received (L ++ BCallback cb r true :: sent p) = received L).
    { apply received_skip. destruct p; reflexivity. }
    unfold after. destruct E2 as [(E2 & E3 & E4)|(x & a & E2 & E3 & E4 & E5 & E6 & E7)].
    + assert (Ep : total paid (drop_nth n (w_msgs w) ++ posted p) = total paid (w_msgs w)) by (rewrite total_app; lia).
      destruct E4 as [E4|(x & st & st' & E4 & E5 & _)].
      * eapply paying_out_same; eauto.
      * eapply stay_paying; eauto.
    + unfold paying_out in *. wsimpl. rewrite Er, total_app. rewrite E6 in HP. wsimpl.
      destruct E7 as [[E7 E8]|[E7 E8]]; rewrite E8.
      * cbn [unvested_amount]. lia.
      * assert (Z : total paid (drop_nth n (w_msgs w)) = 0).
        { apply no_payment. pose proof (i_term w HI) as Ht. unfold get_termination_status in Ht.
          rewrite E6, (total_drop tcnt _ _ _ Hn), E5 in Ht. cbn [t_status] in Ht. lia. }
        lia.
Qed.

Lemma paying_bound u w L : inv w -> paying_out u w L ->
  received L <= u /\ (vesting_information (w_lockup w) = VNone -> received L = u).
Proof.
  intros HI HP. unfold paying_out in HP. pose proof (i_term w HI) as Ht. pose proof (i_msgs w HI) as Hm.
  destruct (vesting_information (w_lockup w)) as [|h|vs|[x st]] eqn:Ev; try contradiction.
  - split; [lia|]. intros _. apply HP.
  - split; [|discriminate]. wsimpl.
    enough (total paid (w_msgs w) <= x) by lia.
    unfold get_termination_status in Ht. rewrite Ev in Ht. wsimpl.
    assert (G : total tcnt (w_msgs w) <= 1) by (destruct st; lia). clear Ht HP HI.
    induction Hm as [|m l Hm Hl IH]; [cbn; lia|]. cbn in G |- *.
    fold (total tcnt l) in G. fold (total paid l).
    destruct (N.eq_dec (tcnt m) 0) as [E|E].
    + rewrite (paid_tcnt _ E). specialize (IH ltac:(lia)). lia.
    + rewrite (no_payment l) by lia.
      assert (paid m <= x); [|lia].
      destruct m as [|cb r|]; cbn; try lia. destruct cb, r; cbn; try lia.
      cbn in Hm. destruct Hm as (u' & Hu & Ha). rewrite Ev in Hu. injection Hu as <- _. exact Ha.
Qed.

(** Nothing is received before a termination. *)
Definition unpaid (w : world) (L : list obs) : Prop :=
  not_terminating (w_lockup w) /\ withdrawn (w_lockup w) = 0 /\ received L = 0 \/ exists u, paying_out u w L.

Lemma unpaid_step g w L ev : inv w -> unpaid w L -> unpaid (step g w ev) (L ++ snd (step_obs g w ev)).
Proof.
  intros HI [(HP & HW & HR)|[u HP]].
  2:{ right. exists u. now apply paying_step. }
  pose proof (i_term w HI) as Ht. rewrite (not_terminating_status _ HP) in Ht.
  generalize (step_move g w ev HI).
  generalize (step g w ev) (snd (step_obs g w ev)). intros w' l Hmv.
  assert (Hr0 : forall l, received l = 0 -> received (L ++ l) = 0) by (intros l' Hl; rewrite received_app; lia).
  inversion Hmv; subst; try (left; wsimpl; auto; fail).
  - match goal with H : effect _ _ _ _ _ |- _ => destruct (call_vesting _ _ _ _ _ _ ltac:(eassumption) H)
        as (E1 & E2 & E3); rename H into He end.
    assert (Er : received (L ++ BCalled who m true :: sent p) = 0) by (apply Hr0; destruct p; reflexivity).
    destruct E3 as [(o & ->)|[E3|(x & st & st' & E3 & E4 & _)]].
    + inversion He; subst; try discriminate; cbn [call_ctx ctx_predecessor ctx_current] in *; try congruence.
      right. exists u. unfold paying_out, after. wsimpl. rewrite Er, total_app, E2, HW. cbn.
      rewrite (no_payment _ Ht). split; lia.
    + left. unfold after, not_terminating in *. wsimpl. rewrite E3. split; [exact HP|]. split; [lia|exact Er].
    + unfold not_terminating in HP. rewrite E3 in HP. contradiction.
  - match goal with H : nth_error _ _ = _ |- _ => rename H into Hn end.
    match goal with H : execute _ _ _ _ = _ |- _ => destruct (execute_paid _ _ _ _ _ _ _ (msg_at _ _ _ HI Hn) H) as (E1 & E2) end.
    rewrite (total_drop tcnt _ _ _ Hn) in Ht. left. wsimpl. split; [exact HP|]. split; [exact HW|].
    apply Hr0, E2. lia.
  - match goal with H : nth_error _ _ = _ |- _ => rename H into Hn end.
    match goal with H : effect _ _ _ _ _ |- _ => destruct (back_vesting _ _ _ _ _ _ _ HI Hn H) as (E1 & E2) end.
    assert (Er : received (L ++ BCallback cb r true :: sent p) = 0) by (apply Hr0; destruct p; reflexivity).
    destruct E2 as [(E2 & E3 & [E4|(x & st & st' & E4 & E5 & _)])|(x & a & E2 & E3 & E4 & E5 & E6 & E7)].
    + left. unfold after, not_terminating in *. wsimpl. rewrite E4. split; [exact HP|]. split; [lia|exact Er].
    + unfold not_terminating in HP. rewrite E4 in HP. contradiction.
    + unfold not_terminating in HP. rewrite E6 in HP. contradiction.
Qed.

Lemma unpaid_start g w : starts g w -> unpaid w [].
Proof.
  intros [(ow & du & ti & tr & ve & re & wl & fo & pr & Hnew & _) HB HT HP HM].
  apply new_ok in Hnew. destruct Hnew as (Es & _). left. rewrite Es. unfold not_terminating. cbn.
  destruct ve as [[]|]; auto.
Qed.

(** What a termination starts from and leads to. *)
Lemma terminates_spec g w ev u : inv w -> terminates g w ev u ->
  not_terminating (w_lockup w) /\ vesting_information (w_lockup w) <> VNone /\
  exists st, w_lockup (step g w ev) = with_term (w_lockup w) u st /\
    (st = VestingTerminatedWithDeficit \/ st = ReadyToWithdraw) /\
    w_msgs (step g w ev) = w_msgs w /\ received (snd (step_obs g w ev)) = 0.
Proof.
  intros HI (f & o & vs & l & -> & Hs & Hsch & Hu). pose proof (step_move g w (ECall f 0 (TerminateVesting o)) HI) as Hmv.
  rewrite Hs in Hmv |- *. cbn [snd] in *. revert Hmv. generalize (step g w (ECall f 0 (TerminateVesting o))). clear Hs.
  intros w' Hmv. inversion Hmv; subst.
  match goal with H : effect _ _ _ _ _ |- _ => rename H into He end.
  inversion He; subst; try discriminate; cbn [call_ctx ctx_predecessor ctx_current ctx_timestamp] in *; try congruence.
  match goal with H : assert_vesting _ _ _ = _ |- _ => apply assert_vesting_ok in H; rename H into Hv end.
  match goal with H : get_unvested_amount _ _ ?v = Ok ?u' |- _ =>
    lazymatch H with Hu => fail | _ => rename H into Hu' end end.
  assert (vs0 = vs).
  { unfold schedule_of in Hsch. destruct Hv as [(h & salt & Ev & -> & _)|(Ev & ->)]; rewrite Ev in Hsch; cbn in Hsch; congruence. }
  subst vs0. rewrite Hu in Hu'. injection Hu' as <-.
  split; [|split].
  - unfold not_terminating. destruct Hv as [(h & salt & -> & _)|(-> & _)]; exact I.
  - destruct Hv as [(h & salt & -> & _)|(-> & _)]; discriminate.
  - eexists. unfold after. wsimpl. split; [reflexivity|].
    split; [destruct (_ <? u); [destruct (is_some _)|]; auto|]. cbn. rewrite app_nil_r. auto.
Qed.

Lemma paying_history g w0 evs ev u evs' :
  starts g w0 -> terminates g (final g w0 evs) ev u ->
  paying_out u (final g w0 (evs ++ ev :: evs')) (log g w0 (evs ++ ev :: evs')).
Proof.
  intros H0 Ht. pose proof (inv_start g w0 H0) as I0. pose proof (inv_final g w0 evs I0) as I1.
  pose proof (hist_ind _ g (unpaid_step g) w0 evs [] I0 (unpaid_start g w0 H0)) as HU. cbn [app] in HU.
  destruct (terminates_spec _ _ _ _ I1 Ht) as (Hn & Hvn & st & Hs & _ & Hm & Hr).
  set (w := final g w0 evs) in *. set (L := log g w0 evs) in *.
  assert (HL : withdrawn (w_lockup w) = 0 /\ received L = 0).
  { destruct HU as [(_ & A & B)|[u' HP]]; [auto|exfalso]. unfold paying_out, not_terminating in *.
    destruct (vesting_information (w_lockup w)); auto. }
  assert (HP : paying_out u (step g w ev) (L ++ snd (step_obs g w ev))).
  { unfold paying_out. rewrite Hs, Hm. cbn. rewrite received_app, Hr.
    pose proof (i_term w I1) as Hti. rewrite (not_terminating_status _ Hn) in Hti. rewrite (no_payment _ Hti).
    unfold withdrawn in *. cbn. lia. }
  pose proof (hist_ind _ g (fun w L ev => paying_step g u w L ev) (step g w ev) evs' _ (inv_step g w ev I1) HP) as HF.
  assert (EL : log g w0 (evs ++ ev :: evs') = ((L ++ snd (step_obs g w ev)) ++ log g (step g w ev) evs')%list).
  { rewrite log_app. cbn [log]. fold w L. now rewrite app_assoc. }
  assert (EF : final g w0 (evs ++ ev :: evs') = final g (step g w ev) evs').
  { rewrite final_app. reflexivity. }
  rewrite EL, EF. exact HF.
Qed.

Lemma foundation_bounded g w0 evs ev u evs' :
  starts g w0 -> terminates g (final g w0 evs) ev u ->
  received (log g w0 (evs ++ ev :: evs')) <= u /\
  (vesting_information (w_lockup (final g w0 (evs ++ ev :: evs'))) = VNone ->
   received (log g w0 (evs ++ ev :: evs')) = u).
Proof.
  intros H0 Ht. apply paying_bound; [apply inv_final, (inv_start g w0 H0)|]. now apply paying_history.
Qed.

(** * The status *)
Lemma status_step g w ev : inv w ->
  get_termination_status (w_lockup (step g w ev)) = get_termination_status (w_lockup w) \/
  documented (get_termination_status (w_lockup w)) (get_termination_status (w_lockup (step g w ev))) = true.
Proof.
  intros HI. generalize (step_move g w ev HI).
  generalize (step g w ev) (snd (step_obs g w ev)). intros w' l Hmv.
  inversion Hmv; subst; try (left; reflexivity); unfold after, get_termination_status; wsimpl.
  - match goal with H : effect _ _ _ _ _ |- _ => destruct (call_vesting _ _ _ _ _ _ ltac:(eassumption) H)
        as (E1 & E2 & E3); rename H into He end.
    destruct E3 as [(o & ->)|[E3|(x & st & st' & E3 & E4 & E5)]].
    + inversion He; subst; try discriminate; cbn [call_ctx ctx_predecessor ctx_current] in *; try congruence.
      match goal with H : assert_vesting _ _ _ = _ |- _ => apply assert_vesting_ok in H; rename H into Hv end.
      right. wsimpl.
      replace (match vesting_information (w_lockup w) with VTerminating ti => Some (t_status ti) | _ => None end)
        with (@None termination_status) by (destruct Hv as [(h & salt & -> & _)|(-> & _)]; reflexivity).
      destruct (_ <? u); [destruct (is_some _)|]; reflexivity.
    + rewrite E3. auto.
    + rewrite E3, E4. wsimpl. auto.
  - match goal with H : nth_error _ _ = _ |- _ => rename H into Hn end.
    match goal with H : effect _ _ _ _ _ |- _ => destruct (back_vesting _ _ _ _ _ _ _ HI Hn H) as (E1 & E2) end.
    destruct E2 as [(E2 & E3 & [E4|(x & st & st' & E4 & E5 & E6)])|(x & a & E2 & E3 & E4 & E5 & E6 & E7)].
    + rewrite E4. auto.
    + rewrite E4, E5. wsimpl. auto.
    + rewrite E6. right. destruct E7 as [[E7 E8]|[E7 E8]]; rewrite E8; reflexivity.
Qed.

(** Leaving the termination. *)
Lemma leaves_terminating g w ev ti : inv w ->
  vesting_information (w_lockup w) = VTerminating ti ->
  (forall ti', vesting_information (w_lockup (step g w ev)) <> VTerminating ti') ->
  vesting_information (w_lockup (step g w ev)) = VNone /\
  withdrawn (w_lockup (step g w ev)) = withdrawn (w_lockup w) + unvested_amount ti /\
  exists n r x, ev = ERun n /\ nth_error (w_msgs w) n = Some (MBack (OnWithdrawUnvestedAmount (unvested_amount ti) r) (Some x)).
Proof.
  intros HI Hv Hout. revert Hout. generalize (step_move g w ev HI).
  generalize (step g w ev) (snd (step_obs g w ev)). intros w' l Hmv Hout.
  inversion Hmv; subst; try (exfalso; now apply (Hout ti)); unfold after in *; wsimpl.
  - match goal with H : effect _ _ _ _ _ |- _ => destruct (call_vesting _ _ _ _ _ _ ltac:(eassumption) H)
        as (E1 & E2 & E3); rename H into He end. exfalso.
    destruct E3 as [(o & ->)|[E3|(x & st & st' & E3 & E4 & E5)]].
    + inversion He; subst; try discriminate; cbn [call_ctx ctx_predecessor ctx_current] in *; try congruence.
      eapply Hout. reflexivity.
    + apply (Hout ti). congruence.
    + eapply Hout. exact E4.
  - match goal with H : nth_error _ _ = _ |- _ => rename H into Hn end.
    match goal with H : effect _ _ _ _ _ |- _ => destruct (back_vesting _ _ _ _ _ _ _ HI Hn H) as (E1 & E2) end.
    destruct E2 as [(E2 & E3 & [E4|(x & st & st' & E4 & E5 & E6)])|(x & a & E2 & E3 & E4 & E5 & E6 & E7)].
    + exfalso. apply (Hout ti). congruence.
    + exfalso. eapply Hout. exact E5.
    + destruct E7 as [[E7 E8]|[E7 E8]]; [exfalso; eapply Hout; exact E8|].
      rewrite Hv in E6. injection E6 as ->. wsimpl. split; [exact E8|]. split; [rewrite E4; congruence|].
      pose proof (msg_at _ _ _ HI Hn) as Hm. destruct cb; try discriminate E5. cbn in E2.
      destruct r as [v|].
      * exists n, receiver, v. split; [reflexivity|]. rewrite Hn. congruence.
      * exfalso. rename x into uu.
        match goal with H : effect _ _ _ _ _ |- _ => inversion H; subst; try discriminate end;
        try match goal with H : owner_op _ = _ |- _ => discriminate end;
        try match goal with H : only_status _ _ = _ |- _ => discriminate end;
        try match goal with H : _ \/ _ |- _ => destruct H; discriminate end.
Qed.
