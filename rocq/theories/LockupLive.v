(** The foundation can always finish a termination. *)
From Coq Require Import NArith List Bool String Lia.
From Verif Require Import Prelude PreludeFacts MapFacts LockupModel LockupWorld LockupSpec LockupMath LockupEffects
  LockupInv LockupMoves LockupLocked LockupBusy LockupTerm.
Import ListNotations.
Open Scope N_scope.

(** * What makes a termination finish *)
Definition arriving (m : msg) : N := match m with MTokens a => a | _ => 0 end.
Definition pool_now (w : world) : N * N :=
  match get_staking_pool_account_id (w_lockup w) with Some p => w_pools w p | None => (0, 0) end.

Definition prospect (d : N) (b : N * N) (m : msg) : Prop :=
  match m with
  | MBack OnGetAccountStakedBalanceToUnstake (Some (ABalance x))
  | MCall (RPool _ (PUnstake x)) (Some (OnStakingPoolUnstakeForTermination _)) =>
      x <= fst b /\ d <= x + snd b
  | MBack (OnStakingPoolUnstakeForTermination _) (Some _)
  | MCall (RPool _ PGetUnstaked) (Some OnGetAccountUnstakedBalanceToWithdraw)
  | MBack (OnStakingPoolWithdrawForTermination _) None => d <= snd b
  | MBack OnGetAccountUnstakedBalanceToWithdraw (Some (ABalance x))
  | MCall (RPool _ (PWithdraw x)) (Some (OnStakingPoolWithdrawForTermination _)) => d <= x /\ x <= snd b
  | MBack (OnStakingPoolWithdrawForTermination x) (Some _) => d <= x
  | _ => True
  end.

Definition on_course (w : world) : Prop :=
  match vesting_information (w_lockup w) with
  | VTerminating ti =>
      match t_status ti with
      | VestingTerminatedWithDeficit => staking_information (w_lockup w) <> None
      | UnstakingInProgress | WithdrawingFromStakingPoolInProgress => True
      | EverythingUnstaked => busy (w_lockup w) = false /\ staking_information (w_lockup w) <> None /\
                              get_known_deposited_balance (w_lockup w) <= snd (pool_now w)
      | ReadyToWithdraw | WithdrawingFromAccountInProgress =>
          get_known_deposited_balance (w_lockup w) = 0 /\ busy (w_lockup w) = false \/
          unvested_amount ti + MIN_BALANCE_FOR_STORAGE
            <= w_balance w + total arriving (w_msgs w) + total to_foundation_pending (w_msgs w)
      end
  | _ => True
  end.

Record prospects (w : world) : Prop := mkProspects {
  pr_msgs : Forall (prospect (get_known_deposited_balance (w_lockup w)) (pool_now w)) (w_msgs w);
  pr_course : on_course w
}.

Lemma prospect_other d b m : staking_msg m = false -> prospect d b m.
Proof.
  destruct m as [[]|cb r|]; cbn; auto; try discriminate. destruct cb; cbn; auto; discriminate.
Qed.
Lemma prospects_none d b l : total scnt l = 0 -> Forall (prospect d b) l.
Proof.
  rewrite total_zero. intros H. eapply Forall_impl; [|exact H]. intros m. unfold scnt.
  destruct (staking_msg m) eqn:E; [discriminate|]. intros _. now apply prospect_other.
Qed.
Lemma prospect_mono d b b' m : fst b <= fst b' -> snd b <= snd b' -> prospect d b m -> prospect d b' m.
Proof.
  intros H1 H2. destruct m as [[]|cb r|]; cbn; auto.
  - destruct op, cb as [[]|]; cbn; auto; lia.
  - destruct cb; cbn; auto; destruct r as [[]|]; cbn; auto; lia.
Qed.

Lemma pending_tcnt m : tcnt m = 0 -> to_foundation_pending m = 0.
Proof. destruct m as [[]|cb r|]; cbn; auto; destruct cb; cbn; auto; discriminate. Qed.

Lemma tokens_arriving a : total arriving (tokens a) = a.
Proof. unfold tokens. destruct (N.eqb_spec a 0); cbn; lia. Qed.
Lemma tokens_pending a : total to_foundation_pending (tokens a) = 0.
Proof. apply total_tokens. reflexivity. Qed.

(** * Events keep it *)

(** A request to the pool is executed. *)
Lemma prospects_pool w n p op cb o pools new l :
  inv w -> prospects w -> nth_error (w_msgs w) n = Some (MCall (RPool p op) cb) ->
  execute w (RPool p op) cb o = Some (pools, new, l) -> keeps_apart w (EDeliver n o) ->
  prospects (mkWorld (w_lockup w) (w_balance w) (w_time w) pools (drop_nth n (w_msgs w) ++ new)).
Proof.
  intros HI [HM HC] Hn Hx Hk. pose proof (msg_at _ _ _ HI Hn) as Hm. cbn [msg_ok] in Hm.
  destruct Hm as (d & cb' & Hst & -> & Hcb & Hph). pose proof (matches_staking _ _ Hcb) as Hsc.
  pose proof (i_one w HI) as H1. pose proof (total_drop scnt _ _ _ Hn) as Dn. change (scnt (MCall (RPool p op) (Some cb'))) with 1 in Dn.
  destruct (Forall_drop _ _ _ _ HM Hn) as [Hp _].
  assert (Hb : busy (w_lockup w) = true) by (unfold busy; rewrite Hst; reflexivity).
  pose proof (i_pool w HI) as Hpool.
  assert (HZ : total scnt (drop_nth n (w_msgs w)) = 0) by lia.
  destruct (no_staking _ HZ) as [Z1 Z2]. rewrite (total_drop plus _ _ _ Hn), (total_drop minus _ _ _ Hn), Z1, Z2 in Hpool.
  change (plus (MCall (RPool p op) (Some cb'))) with 0 in Hpool. change (minus (MCall (RPool p op) (Some cb'))) with 0 in Hpool.
  assert (Ep : forall f B t ms, pool_now (mkWorld (w_lockup w) B t f ms) = f p).
  { intros. unfold pool_now, get_staking_pool_account_id. cbn. rewrite Hst. reflexivity. }
  assert (Ep0 : pool_now w = w_pools w p).
  { unfold pool_now, get_staking_pool_account_id. rewrite Hst. reflexivity. }
  assert (Ed : get_known_deposited_balance (w_lockup w) = d).
  { unfold get_known_deposited_balance. rewrite Hst. reflexivity. }
  assert (Et : pool_total (w_pools w) (w_lockup w) = fst (w_pools w p) + snd (w_pools w p)).
  { unfold pool_total, get_staking_pool_account_id. rewrite Hst. reflexivity. }
  rewrite Ed, Et in Hpool. rewrite Ep0, Ed in Hp.
  assert (G : Forall (prospect d (pools p)) new /\ total to_foundation_pending new = 0).
  { assert (Tk : forall b a, Forall (prospect d b) (tokens a)).
    { intros. unfold tokens. destruct (a =? 0); repeat constructor. }
    assert (Pb : forall r, to_foundation_pending (MBack cb' r) = 0).
    { intros r. destruct cb'; try discriminate Hsc; reflexivity. }
    destruct o; cbn [execute] in Hx; try discriminate.
    - injection Hx as <- <- _. rewrite total_app, tokens_pending. cbn [back]. rewrite total_one, Pb. split; [|reflexivity].
      apply Forall_app. split; [apply Tk|]. constructor; [|constructor].
      destruct op, cb'; cbn in Hcb; try discriminate; cbn in *; auto; lia.
    - destruct (is_view op) eqn:Ev; [|discriminate]. injection Hx as <- <- _. cbn [back]. rewrite total_one, Pb.
      split; [|reflexivity]. constructor; [|constructor].
      destruct op, cb'; cbn in Hcb; try discriminate; cbn in *; auto; lia.
    - destruct (pool_keeps op (w_pools w p) (staked, unstaked)) eqn:Ek; [|discriminate]. injection Hx as <- <- _.
      rewrite total_app. cbn [back]. rewrite total_one, Pb, set_pool_same. split.
      + apply Forall_app. split; [destruct op; try constructor; apply Tk|]. constructor; [|constructor].
        cbn in Hk. rewrite Hn in Hk.
        destruct op, cb'; cbn in Hcb; try discriminate; cbn in *; auto; try lia.
      + destruct op; rewrite ?tokens_pending; reflexivity. }
  destruct G as [G1 G2]. split; wsimpl.
  - apply Forall_app. split; [now apply prospects_none|]. rewrite Ep, Ed. exact G1.
  - unfold on_course in *. wsimpl. destruct (vesting_information (w_lockup w)) as [| | |[u st]]; auto. cbn [t_status unvested_amount] in *.
    destruct st; auto; try (destruct HC as [HC _]; congruence);
    (right; destruct HC as [[_ HC]|HC]; [congruence|]; rewrite !total_app, G2;
     rewrite (total_drop arriving _ _ _ Hn), (total_drop to_foundation_pending _ _ _ Hn) in HC; cbn [arriving to_foundation_pending] in HC; lia).
Qed.

Lemma prospects_deliver w n r cb o pools new l :
  inv w -> prospects w -> nth_error (w_msgs w) n = Some (MCall r cb) ->
  execute w r cb o = Some (pools, new, l) -> keeps_apart w (EDeliver n o) ->
  prospects (mkWorld (w_lockup w) (w_balance w) (w_time w) pools (drop_nth n (w_msgs w) ++ new)).
Proof.
  intros HI HP Hn Hx Hk.
  assert (G : (exists p op, r = RPool p op) \/
    (pools = w_pools w /\ total scnt new = 0 /\
     to_foundation_pending (MCall r cb) <= total arriving new + total to_foundation_pending new)).
  { pose proof (msg_at _ _ _ HI Hn) as Hm. destruct r as [wl p|poll|p op|rc a|pk]; cbn [msg_ok] in Hm; [right|right|left; eauto|right|right].
    - subst cb. destruct o; cbn in Hx; try discriminate; injection Hx as <- <- _; cbn; auto using N.le_refl.
    - subst cb. destruct o; cbn in Hx; try discriminate; injection Hx as <- <- _; cbn; auto using N.le_refl.
    - destruct o; cbn [execute] in Hx; try discriminate; injection Hx as <- <- _; rewrite ?total_app, ?tokens_arriving, ?tokens_pending;
      rewrite ?total_tokens by reflexivity; destruct Hm as [->|[-> _]]; cbn; (split; [reflexivity|]); (split; [reflexivity|]); lia.
    - subst cb. destruct o; cbn in Hx; try discriminate; injection Hx as <- <- _; cbn; auto using N.le_refl. }
  destruct G as [(p & op & ->)|(-> & G1 & G2)]; [eapply prospects_pool; eauto|].
  destruct HP as [HM HC]. destruct (Forall_drop _ _ _ _ HM Hn) as [_ HM'].
  split; wsimpl; [apply Forall_app; split; [exact HM'|now apply prospects_none]|].
  unfold on_course in *; wsimpl; destruct (vesting_information (w_lockup w)) as [| | |[u st]]; auto; cbn [t_status unvested_amount] in *;
  destruct st; auto; (destruct HC as [HC|HC]; [left; exact HC|right]); rewrite !total_app;
  rewrite (total_drop arriving _ _ _ Hn), (total_drop to_foundation_pending _ _ _ Hn) in HC; cbn [arriving] in HC; lia.
Qed.

(** A call by another account. *)
Lemma prospects_call g w who m s p :
  inv w -> prospects w -> who <> g_self g -> effect (call_ctx g w who) (w_lockup w) m s p -> spent p <= w_balance w ->
  prospects (after w s (w_msgs w) p).
Proof.
  intros HI [HM HC] Hw He Hsp.
  assert (Hidle : forall q d, staking_information (w_lockup w) = Some (mkStaking q Idle d) -> total scnt (w_msgs w) = 0).
  { intros q d Hs. apply idle_no_staking; [exact HI|]. unfold busy. rewrite Hs. reflexivity. }
  inversion He; subst; cbn [call_ctx ctx_predecessor ctx_current ctx_balance] in *; try congruence.
  - split; unfold after; wsimpl.
    + apply Forall_app. split; [exact HM|repeat constructor].
    + unfold on_course, not_terminating in *. wsimpl. destruct (vesting_information (w_lockup w)); tauto.
  - split; unfold after; wsimpl.
    + rewrite app_nil_r. apply prospects_none. eauto.
    + unfold on_course, not_terminating in *. wsimpl. destruct (vesting_information (w_lockup w)); tauto.
  - split; unfold after; wsimpl.
    + apply Forall_app. split; [apply prospects_none; eauto|]. constructor; [|constructor].
      destruct m; cbn in *; try discriminate;
      match goal with H : Some _ = Some _ |- _ => injection H as <- <- end; exact I.
    + unfold on_course, not_terminating in *. wsimpl. destruct (vesting_information (w_lockup w)); tauto.
  - split; unfold after; wsimpl.
    + apply Forall_app. split; [exact HM|repeat constructor].
    + unfold on_course, not_terminating in *. wsimpl. destruct (vesting_information (w_lockup w)); tauto.
  - split; unfold after; wsimpl.
    + apply Forall_app. split; [exact HM|repeat constructor].
    + unfold on_course, not_terminating in *. wsimpl. destruct (vesting_information (w_lockup w)); tauto.
  - split; unfold after; wsimpl.
    + apply Forall_app. split; [exact HM|repeat constructor].
    + unfold on_course, not_terminating in *. wsimpl. destruct (vesting_information (w_lockup w)); tauto.
  - split; unfold after; wsimpl.
    + rewrite app_nil_r. exact HM.
    + unfold on_course. wsimpl. cbn [spent posted]. rewrite N.sub_0_r, app_nil_r.
      destruct (N.ltb_spec (get_account_balance (w_balance w)) u) as [Hu|Hu].
      * destruct (staking_information (w_lockup w)) eqn:Es; cbn [is_some]; wsimpl; [discriminate|].
        left. unfold get_known_deposited_balance, busy. wsimpl. rewrite Es. auto.
      * right. unfold get_account_balance, sat_sub in Hu. lia.
  - split; unfold after; wsimpl.
    + apply Forall_app. split; [apply prospects_none; eauto|repeat constructor].
    + exact I.
  - split; unfold after; wsimpl.
    + apply Forall_app. split; [apply prospects_none; eauto|]. constructor; [|constructor].
      unfold on_course in HC. match goal with H : vesting_information _ = VTerminating _ |- _ => rewrite H in HC end.
      cbn [t_status] in HC. destruct HC as (_ & _ & HC). unfold pool_now, get_staking_pool_account_id, get_known_deposited_balance in *.
      match goal with H : staking_information _ = Some _ |- _ => rewrite H in HC end. wsimpl. exact HC.
    + exact I.
  - split; unfold after; wsimpl.
    + apply Forall_app. split; [exact HM|repeat constructor].
    + unfold on_course in *. match goal with H : vesting_information _ = VTerminating _ |- _ => rewrite H in HC end.
      wsimpl. cbn [t_status unvested_amount] in HC. destruct HC as [HC|HC]; [left; exact HC|right].
      rewrite !total_app. cbn [posted spent p_remote p_then option_map fst attached_to] in *. rewrite !total_one. cbn [arriving to_foundation_pending].
      lia.
Qed.

(** A callback. *)
Lemma prospects_back g w n cb r s p :
  inv w -> prospects w -> nth_error (w_msgs w) n = Some (MBack cb r) ->
  effect (back_ctx g w r) (w_lockup w) cb s p -> spent p <= w_balance w ->
  prospects (after w s (drop_nth n (w_msgs w)) p).
Proof.
  intros HI [HM HC] Hn He Hsp. pose proof (msg_at _ _ _ HI Hn) as Hm.
  destruct (Forall_drop _ _ _ _ HM Hn) as [Hp HM']. cbn [msg_ok] in Hm.
  destruct (staking_callback cb) eqn:Hsc.
  - destruct Hm as (p0 & d & Hst & Hph & Hans).
    assert (Hb : busy (w_lockup w) = true) by (unfold busy; rewrite Hst; reflexivity).
    pose proof (i_one w HI) as H1. pose proof (total_drop scnt _ _ _ Hn) as Dn.
    assert (Es : scnt (MBack cb r) = 1) by (unfold scnt; cbn; rewrite Hsc; reflexivity).
    assert (HZ : total scnt (drop_nth n (w_msgs w)) = 0) by lia.
    assert (Ep0 : pool_now w = w_pools w p0).
    { unfold pool_now, get_staking_pool_account_id. rewrite Hst. reflexivity. }
    assert (Ed : get_known_deposited_balance (w_lockup w) = d).
    { unfold get_known_deposited_balance. rewrite Hst. reflexivity. }
    rewrite Ed, Ep0 in Hp.
    unfold on_course in HC. rewrite (total_drop arriving _ _ _ Hn), (total_drop to_foundation_pending _ _ _ Hn) in HC.
    assert (Ea : arriving (MBack cb r) = 0 /\ to_foundation_pending (MBack cb r) = 0).
    { destruct cb; try discriminate; auto. }
    destruct Ea as [Ea1 Ea2]. rewrite Ea1, Ea2 in HC. rewrite Hb, Ed in HC. clear Ed.
    assert (G : Forall (prospect (get_known_deposited_balance s) (pool_now (after w s (drop_nth n (w_msgs w)) p)))
                  (posted p) /\ on_course (after w s (drop_nth n (w_msgs w)) p)).
    2:{ destruct G as [G1 G2]. split; [|exact G2]. unfold after; wsimpl. apply Forall_app. split; [now apply prospects_none|exact G1]. }
    inversion He; subst; try discriminate; try (exfalso; destruct cb; discriminate);
    cbn [ctx_predecessor ctx_current ctx_results back_ctx] in *;
    try match goal with H : _ :: _ = _ :: _ |- _ => injection H; clear H; intros; subst end;
    match goal with H : staking_information (w_lockup w) = Some (mkStaking _ _ _) |- _ =>
      lazymatch H with Hst => fail | _ => rewrite Hst in H; injection H; clear H; intros; subst end end;
    try (match goal with H : vesting_information (w_lockup w) = VTerminating _ |- _ => rename H into Hv;
      unfold get_termination_status in Hph; rewrite Hv in Hph, HC; cbn [t_status unvested_amount] in Hph, HC end).
    all: unfold after, on_course, pool_now, get_staking_pool_account_id, get_known_deposited_balance, busy in *; wsimpl;
      try (rewrite Hst; cbn [option_map staking_pool_account_id deposit_amount status]).
    1-5: (split; [cbn [posted]; first [apply Forall_nil|apply Forall_cons; [exact I|apply Forall_nil]]|]);
      destruct (vesting_information (w_lockup w)) as [| | |[u ts]]; auto; cbn [t_status unvested_amount] in *;
      destruct ts; auto; try discriminate; try (destruct HC as [? ?]; discriminate);
      right; (destruct HC as [[_ ?]|HC]; [discriminate|]); rewrite ?app_nil_r, ?total_app; cbn [posted p_remote p_then option_map fst];
      rewrite ?total_one; cbn [arriving to_foundation_pending spent p_remote attached_to]; lia.
    + split; [cbn [posted]; constructor; [exact Hp|constructor]|].
      unfold get_termination_status in Hph.
      destruct (vesting_information (w_lockup w)) as [| | |[u ts]]; auto. destruct ts; cbn in *; auto; discriminate Hph.
    + split; [cbn [posted]; constructor|]. cbn in Hp. split; [reflexivity|]. split; [discriminate|]. lia.
    + split; [cbn [posted]; constructor|]. match goal with |- context[is_some ?r] => destruct r end; cbn [is_some]; [|discriminate].
      cbn in Hp. split; [reflexivity|]. split; [discriminate|]. exact Hp.
    + split; [cbn [posted]; constructor; [exact Hp|constructor]|].
      unfold get_termination_status in Hph.
      destruct (vesting_information (w_lockup w)) as [| | |[u ts]]; auto. destruct ts; cbn in *; auto; discriminate Hph.
    + split; [cbn [posted]; constructor|]. cbn in Hp. left. split; [lia|reflexivity].
    + split; [cbn [posted]; constructor|]. cbn in Hp. left. split; [lia|reflexivity].
    + split; [cbn [posted]; constructor|]. cbn in Hp. split; [reflexivity|]. split; [discriminate|]. exact Hp.
  - assert (Ea : arriving (MBack cb r) = 0) by reflexivity.
    unfold on_course in HC. rewrite (total_drop arriving _ _ _ Hn), (total_drop to_foundation_pending _ _ _ Hn), Ea in HC.
    destruct cb; try discriminate; try contradiction;
    (inversion He; subst; cbn [ctx_results back_ctx] in *; try discriminate;
      try match goal with H : owner_op _ = _ |- _ => discriminate end;
      try match goal with H : only_status _ _ = _ |- _ => discriminate end;
      try match goal with H : _ \/ _ |- _ => destruct H; discriminate end).
    + split; unfold after; wsimpl.
      * rewrite app_nil_r. apply prospects_none. 
        assert (Z : total scnt (w_msgs w) = 0).
        { apply idle_no_staking; [exact HI|]. unfold busy. match goal with H : staking_information _ = None |- _ => rewrite H end. reflexivity. }
        rewrite (total_drop scnt _ _ _ Hn) in Z. lia.
      * unfold on_course, not_terminating in *. wsimpl. destruct (vesting_information (w_lockup w)); tauto.
    + split; unfold after; wsimpl; [rewrite app_nil_r; exact HM'|].
      unfold on_course, busy, pool_now, get_staking_pool_account_id, get_known_deposited_balance in *. wsimpl.
      rewrite app_nil_r, N.sub_0_r. exact HC.
    + split; unfold after; wsimpl; [rewrite app_nil_r; exact HM'|].
      unfold on_course, busy, pool_now, get_staking_pool_account_id, get_known_deposited_balance in *. wsimpl.
      rewrite app_nil_r, N.sub_0_r. exact HC.
    + destruct Hm as (u & Hu & Ha). rewrite Hu in HC. cbn [t_status unvested_amount] in HC.
      assert (Hgu : get_terminated_unvested_balance (w_lockup w) = u).
      { unfold get_terminated_unvested_balance. rewrite Hu. reflexivity. }
      match goal with H : [_] = [_] |- _ => injection H; intros; subst r end. rewrite Hgu. cbn [to_foundation_pending] in HC.
      split; unfold after; [|unfold on_course]; wsimpl; cbn [posted spent]; rewrite app_nil_r.
      * destruct (amount <? u); exact HM'.
      * destruct (N.ltb_spec amount u) as [Hlt|Hge]; wsimpl; [|exact I].
        unfold busy, pool_now, get_staking_pool_account_id, get_known_deposited_balance in *. wsimpl.
        destruct HC as [HC|HC]; [left; exact HC|right]. lia.
    + destruct Hm as (u' & Hu & Ha).
      match goal with H : [_] = [_] |- _ => injection H; intros; subst r end.
      match goal with H : vesting_information (w_lockup w) = VTerminating (mkTermination ?x ?y) |- _ =>
        lazymatch H with Hu => fail | _ => rewrite Hu in H; injection H; clear H; intros; subst end end.
      rewrite Hu in HC. cbn [t_status unvested_amount to_foundation_pending] in HC.
      split; unfold after; [|unfold on_course]; wsimpl; cbn [posted spent]; rewrite app_nil_r; [exact HM'|].
      unfold busy, pool_now, get_staking_pool_account_id, get_known_deposited_balance in *. wsimpl.
      destruct HC as [HC|HC]; [left; exact HC|right]. lia.
Qed.

Lemma prospects_step g w ev : inv w -> prospects w -> keeps_apart w ev -> prospects (step g w ev).
Proof.
  intros HI HP Hk. generalize (step_move g w ev HI).
  generalize (step g w ev) (snd (step_obs g w ev)). intros w' l Hmv.
  inversion Hmv; subst; try exact HP.
  - destruct HP as [HM HC]. split; [exact HM|exact HC].
  - destruct HP as [HM HC]. split; wsimpl; [exact HM|]. unfold on_course, pool_now in *. wsimpl.
    destruct (vesting_information (w_lockup w)) as [| | |[u st]]; auto. destruct st; auto; cbn [t_status unvested_amount] in *;
    (destruct HC as [HC|HC]; [left; exact HC|right; lia]).
  - cbn in Hk.
    assert (G : fst (pool_now w) <= fst (pool_now (mkWorld (w_lockup w) (w_balance w) (w_time w) (set_pool (w_pools w) p (s, u)) (w_msgs w))) /\
                snd (pool_now w) <= snd (pool_now (mkWorld (w_lockup w) (w_balance w) (w_time w) (set_pool (w_pools w) p (s, u)) (w_msgs w)))).
    { unfold pool_now. wsimpl. destruct (get_staking_pool_account_id (w_lockup w)) as [q|]; cbn; [|lia].
      unfold set_pool. destruct (String.eqb_spec q p); subst; cbn; lia. }
    destruct HP as [HM HC]. split; wsimpl.
    + eapply Forall_impl; [|exact HM]. intros m. apply prospect_mono; apply G.
    + unfold on_course in *. wsimpl.
      destruct (vesting_information (w_lockup w)) as [| | |[u' st]]; auto. destruct st; auto; cbn [t_status unvested_amount] in *.
      destruct HC as (H1 & H2 & H3). split; [exact H1|]. split; [exact H2|]. destruct G. lia.
  - eapply prospects_call; eauto.
  - eapply prospects_deliver; eauto.
  - match goal with H : nth_error _ _ = _ |- _ => rename H into Hn end.
    destruct HP as [HM HC]. destruct (Forall_drop _ _ _ _ HM Hn) as [_ HM']. split; wsimpl; [exact HM'|].
    unfold on_course, pool_now in *. wsimpl.
    destruct (vesting_information (w_lockup w)) as [| | |[u st]]; auto. destruct st; auto; cbn [t_status unvested_amount] in *;
    (destruct HC as [HC|HC]; [left; exact HC|right]);
    rewrite (total_drop arriving _ _ _ Hn), (total_drop to_foundation_pending _ _ _ Hn) in HC; cbn [arriving to_foundation_pending] in HC; lia.
  - match goal with H : nth_error _ _ = _ |- _ => rename H into Hn end.
    destruct HP as [HM HC]. destruct (Forall_drop _ _ _ _ HM Hn) as [_ HM']. split; wsimpl; [exact HM'|].
    unfold on_course, pool_now in *. wsimpl.
    assert (E : to_foundation_pending (MBack cb r) = 0) by (destruct cb; try discriminate; reflexivity).
    destruct (vesting_information (w_lockup w)) as [| | |[u st]]; auto. destruct st; auto; cbn [t_status unvested_amount] in *;
    (destruct HC as [HC|HC]; [left; exact HC|right]);
    rewrite (total_drop arriving _ _ _ Hn), (total_drop to_foundation_pending _ _ _ Hn), E in HC; cbn [arriving] in HC; lia.
  - eapply prospects_back; eauto.
Qed.

Lemma prospects_final g w evs : inv w -> prospects w -> all_keep_apart g w evs -> prospects (final g w evs).
Proof.
  revert w. induction evs as [|ev evs IH]; intros w HI HP H; [exact HP|].
  destruct H as [H1 H2]. apply IH; auto using inv_step, prospects_step.
Qed.

Lemma prospects_start g w : starts g w -> prospects w.
Proof.
  intros H. destruct (start_idle g w H) as [H1 H2]. split; rewrite ?H1; [constructor|].
  destruct H as [(ow & du & ti & tr & ve & re & wl & fo & pr & Hnew & _) HB HT HP HM].
  apply new_ok in Hnew. destruct Hnew as (Es & _). unfold on_course. rewrite Es. cbn. destruct ve as [[]|]; exact I.
Qed.

(** * Delivering everything *)
Definition wt (m : msg) : N :=
  match m with
  | MTokens _ => 1
  | MBack OnGetAccountUnstakedBalanceToWithdrawByOwner _ | MBack OnGetAccountStakedBalanceToUnstake _
  | MBack OnGetAccountUnstakedBalanceToWithdraw _ => 4
  | MBack _ _ => 1
  | MCall (RPool _ op) _ => if is_view op then 5 else 3
  | MCall _ _ => 3
  end.

Lemma wt_tokens a : total wt (tokens a) <= 1.
Proof. unfold tokens. destruct (a =? 0); cbn; lia. Qed.

Lemma execute_wt w r cb o pools new l :
  msg_ok (w_lockup w) (pool_total (w_pools w) (w_lockup w)) (MCall r cb) ->
  execute w r cb o = Some (pools, new, l) -> total wt new < wt (MCall r cb).
Proof.
  intros Hm Hx. destruct r as [wl p|poll|p op|rc a|pk]; cbn [msg_ok] in Hm.
  - subst cb. destruct o; cbn in Hx; try discriminate; injection Hx as <- <- _; cbn; lia.
  - subst cb. destruct o; cbn in Hx; try discriminate; injection Hx as <- <- _; cbn; lia.
  - destruct Hm as (d & cb' & _ & -> & Hcb & _).
    assert (Hw : forall r, wt (MBack cb' r) <= if is_view op then 4 else 1).
    { intros r. destruct op, cb'; cbn in Hcb; try discriminate; cbn; lia. }
    destruct o; cbn [execute] in Hx; try discriminate.
    + injection Hx as <- <- _. rewrite total_app. cbn [back]. rewrite total_one. specialize (Hw None).
      pose proof (wt_tokens (attached_to (RPool p op))). unfold wt at 3.
      destruct op; cbn [is_view attached_to] in *; try (cbn [tokens N.eqb total fold_right] in *); lia.
    + destruct (is_view op) eqn:Ev; [|discriminate]. injection Hx as <- <- _. cbn [back]. rewrite total_one.
      specialize (Hw (Some (ABalance (view_answer op (w_pools w p))))). unfold wt at 2. rewrite Ev. lia.
    + destruct (pool_keeps op (w_pools w p) (staked, unstaked)) eqn:Ek; [|discriminate]. injection Hx as <- <- _.
      rewrite total_app. cbn [back]. rewrite total_one. specialize (Hw (Some AVoid)). unfold wt at 3.
      destruct op; cbn [is_view total fold_right] in *; try discriminate; try lia.
      all: try (unfold pool_keeps in Ek; destruct (w_pools w p); rewrite andb_false_r in Ek; discriminate).
      pose proof (wt_tokens amount). lia.
  - destruct o; cbn [execute] in Hx; try discriminate; injection Hx as <- <- _; rewrite ?total_app;
    pose proof (wt_tokens (attached_to (RTransfer rc a))); destruct Hm as [->|[-> _]]; cbn in *; lia.
  - subst cb. destruct o; cbn in Hx; try discriminate; injection Hx as <- <- _; cbn; lia.
Qed.

(** Failures of the termination that its callbacks will record. *)
Definition clean (m : msg) : Prop :=
  match m with
  | MBack (OnStakingPoolUnstakeForTermination _) None | MBack (OnStakingPoolWithdrawForTermination _) None
  | MBack (OnWithdrawUnvestedAmount _ _) None => False
  | _ => True
  end.

Definition rank (st : termination_status) : N :=
  match st with
  | VestingTerminatedWithDeficit => 5
  | UnstakingInProgress => 4
  | EverythingUnstaked => 3
  | WithdrawingFromStakingPoolInProgress => 2
  | ReadyToWithdraw | WithdrawingFromAccountInProgress => 1
  end.
(** How far the termination is from its end, given the payments under way. *)
Definition phi (s : contract) (P : N) : N :=
  match vesting_information s with VTerminating ti => rank (t_status ti) + (unvested_amount ti - P) | _ => 0 end.

Lemma back_wt g w n cb r s p :
  inv w -> nth_error (w_msgs w) n = Some (MBack cb r) -> effect (back_ctx g w r) (w_lockup w) cb s p ->
  total wt (posted p) < wt (MBack cb r) /\ Forall clean (posted p) /\
  (clean (MBack cb r) -> forall P, phi s (P + total to_foundation_pending (posted p)) <=
                                   phi (w_lockup w) (to_foundation_pending (MBack cb r) + P)).
Proof.
  intros HI Hn He. pose proof (msg_at _ _ _ HI Hn) as Hm. cbn [msg_ok] in Hm.
  assert (HF : Forall clean (posted p)) by (destruct p; cbn [posted]; [apply Forall_cons; [exact I|apply Forall_nil]|apply Forall_nil]).
  destruct (staking_callback cb) eqn:Hsc.
  - destruct Hm as (p0 & d & Hst & Hph & Hans).
    assert (Hp0 : to_foundation_pending (MBack cb r) = 0) by (destruct cb; try discriminate; reflexivity).
    rewrite Hp0. cbn [N.add].
    inversion He; subst; try discriminate; try (exfalso; destruct cb; discriminate);
    cbn [ctx_results back_ctx] in *;
    try match goal with H : _ :: _ = _ :: _ |- _ => injection H; clear H; intros; subst end;
    (split; [cbn; try match goal with |- context[match cb with _ => _ end] => destruct cb end; try lia; try discriminate|]);
    (split; [exact HF|]); intros Hcl P; cbn [posted total fold_right p_remote p_then option_map fst to_foundation_pending];
    rewrite ?N.add_0_r; try (apply N.le_refl); unfold phi; wsimpl;
    match goal with H : vesting_information (w_lockup w) = VTerminating _ |- _ =>
      unfold get_termination_status in Hph; rewrite H in Hph |- *; rename H into Hv end;
    match type of Hv with _ = VTerminating (mkTermination _ ?st) => destruct st; try discriminate Hph end;
    cbn [t_status unvested_amount rank]; try lia.
    all: try (match goal with |- context[is_some ?r] => destruct r; cbn [is_some rank]; [lia|contradiction] end).
    contradiction.
  - destruct cb; try discriminate; try contradiction;
    (inversion He; subst; cbn [ctx_results back_ctx] in *; try discriminate;
      try match goal with H : owner_op _ = _ |- _ => discriminate end;
      try match goal with H : only_status _ _ = _ |- _ => discriminate end;
      try match goal with H : _ \/ _ |- _ => destruct H; discriminate end);
    (split; [cbn; lia|]); (split; [exact HF|]); intros Hcl P; cbn [posted total fold_right]; rewrite ?N.add_0_r.
    + apply N.le_refl.
    + apply N.le_refl.
    + apply N.le_refl.
    + destruct Hm as (u & Hu & Ha).
      match goal with H : [_] = [_] |- _ => injection H; intros; subst r end.
      assert (Hgu : get_terminated_unvested_balance (w_lockup w) = u).
      { unfold get_terminated_unvested_balance. rewrite Hu. reflexivity. }
      rewrite Hgu. unfold phi. rewrite Hu.
      destruct (N.ltb_spec amount u); cbn [with_term set_vesting vesting_information t_status unvested_amount rank to_foundation_pending]; lia.
    + match goal with H : [_] = [_] |- _ => injection H; intros; subst r end. contradiction.
Qed.

Definition terminal (s : contract) : Prop :=
  match vesting_information s with VNone | VTerminating _ => True | _ => False end.
(** A termination never goes back, and keeps the foundation until it is complete. *)
Lemma terminal_step g w ev : inv w -> terminal (w_lockup w) ->
  terminal (w_lockup (step g w ev)) /\
  ((exists ti, vesting_information (w_lockup (step g w ev)) = VTerminating ti) ->
   foundation_account_id (w_lockup (step g w ev)) = foundation_account_id (w_lockup w)).
Proof.
  intros HI HT. generalize (step_move g w ev HI).
  generalize (step g w ev) (snd (step_obs g w ev)). intros w' l Hmv.
  inversion Hmv; subst; try (split; [exact HT|reflexivity]); unfold after, terminal in *; wsimpl.
  - match goal with H : effect _ _ _ _ _ |- _ => inversion H; subst; cbn [call_ctx ctx_predecessor ctx_current] in *; try congruence end;
    wsimpl; split; auto.
  - match goal with H : nth_error _ _ = _ |- _ => rename H into Hn end.
    match goal with H : effect _ _ _ _ _ |- _ => rename H into He end.
    destruct (back_vesting _ _ _ _ _ _ _ HI Hn He) as (_ & E2).
    split.
    + destruct E2 as [(E2 & E3 & [E4|(x & st & st' & E4 & E5 & E6)])|(x & a & E2 & E3 & E4 & E5 & E6 & E7)].
      * rewrite E4. exact HT.
      * rewrite E5. exact I.
      * destruct E7 as [[E7 E8]|[E7 E8]]; rewrite E8; exact I.
    + intros (ti & Hti). inversion He; subst; try reflexivity; wsimpl.
      destruct (_ <? get_terminated_unvested_balance _); [reflexivity|discriminate Hti].
Qed.

(** The foundation of a termination stays the same until it is complete. *)
Definition founded (f : account_id) (s : contract) : Prop :=
  terminal s /\ ((exists ti, vesting_information s = VTerminating ti) -> foundation_account_id s = Some f).
Lemma founded_step g f w ev : inv w -> founded f (w_lockup w) -> founded f (w_lockup (step g w ev)).
Proof.
  intros H1 [H5 H6]. destruct (terminal_step g w ev H1 H5) as [T1 T2]. split; [exact T1|].
  intros [ti Hti]. rewrite T2 by eauto. apply H6.
  unfold terminal in H5. destruct (vesting_information (w_lockup w)) eqn:E; try contradiction; eauto.
  exfalso. revert Hti. generalize (step_move g w ev H1).
  generalize (step g w ev) (snd (step_obs g w ev)). intros w' l Hmv.
  inversion Hmv; subst; unfold after; wsimpl; try congruence.
  - match goal with H : effect _ _ _ _ _ |- _ => inversion H; subst; cbn [call_ctx ctx_predecessor ctx_current] in *; try congruence end; wsimpl; try congruence.
    match goal with H : assert_vesting _ _ _ = _ |- _ => unfold assert_vesting in H; rewrite E in H; inv_res end.
  - match goal with H : effect _ _ _ _ _ |- _ => inversion H; subst; cbn [back_ctx ctx_predecessor ctx_current] in *; try congruence end; wsimpl; try congruence.
    all: match goal with H : nth_error _ _ = _ |- _ => pose proof (msg_at _ _ _ H1 H) as Hm end; cbn in Hm; try contradiction.
    destruct Hm as (u & Hu & _). congruence.
Qed.
Lemma founded_final g f w evs : inv w -> founded f (w_lockup w) -> founded f (w_lockup (final g w evs)).
Proof. revert w. induction evs as [|ev evs IH]; intros w HI H; [exact H|]. apply IH; auto using inv_step, founded_step. Qed.

(** * The foundation's way to the end *)
Section Path.
Variables (g : genesis) (answers : world -> remote -> outcome) (f : account_id).
Hypothesis co : cooperative answers.

(** What an event of the foundation's way is allowed to be. *)
Definition allowed (w : world) (ev : event) : Prop :=
  only_foundation answers f w ev /\ view_fails w ev = false /\ keeps_apart w ev /\ reveals_covered g w ev.
Inductive leads : world -> list event -> world -> Prop :=
| leads_nil w : leads w [] w
| leads_cons w ev evs w' : allowed w ev -> leads (step g w ev) evs w' -> leads w (ev :: evs) w'.

Lemma leads_app w evs w1 evs' w2 : leads w evs w1 -> leads w1 evs' w2 -> leads w (evs ++ evs') w2.
Proof. induction 1; intros H2; [exact H2|]. cbn. constructor; auto. Qed.
Lemma leads_final w evs w' : leads w evs w' -> w' = final g w evs.
Proof. induction 1; [reflexivity|exact IHleads]. Qed.
Lemma leads_all w evs w' : leads w evs w' -> all_only_foundation answers f g w evs.
Proof. induction 1; [exact I|]. split; [apply H|exact IHleads]. Qed.

(** The invariants that hold along the way. *)
Record good (w : world) : Prop := mkGood {
  go_inv : inv w; go_steady : steady w; go_covered : covered w; go_prospects : prospects w;
  go_founded : founded f (w_lockup w)
}.
Lemma good_step w ev : good w -> allowed w ev -> good (step g w ev).
Proof.
  intros [H1 H2 H3 H4 H5] (A1 & A2 & A3 & A4).
  split; auto using inv_step, steady_step, covered_step, prospects_step, founded_step.
Qed.
Lemma good_leads w evs w' : good w -> leads w evs w' -> good w'.
Proof. intros Hg H. induction H; auto using good_step. Qed.

Definition pend (w : world) : N := total to_foundation_pending (w_msgs w).

(** A request answered cooperatively. *)
Lemma answer_clean w n r cb pools new l :
  good w -> nth_error (w_msgs w) n = Some (MCall r cb) ->
  execute w r cb (answers w r) = Some (pools, new, l) ->
  Forall clean new /\ total to_foundation_pending new = to_foundation_pending (MCall r cb).
Proof.
  intros Hg Hn Hx. pose proof (msg_at _ _ _ (go_inv w Hg) Hn) as Hm.
  destruct r as [wl p|poll|p op|rc a|pk]; cbn [msg_ok] in Hm.
  - subst cb. destruct (answers w (RIsWhitelisted wl p)); cbn in Hx; try discriminate; injection Hx as <- <- _; cbn; split; auto;
    repeat constructor.
  - subst cb. destruct (answers w (RGetResult poll)); cbn in Hx; try discriminate; injection Hx as <- <- _; cbn; split; auto;
    repeat constructor.
  - destruct Hm as (d & cb' & Hst & -> & Hcb & Hph).
    assert (Hp : forall r, to_foundation_pending (MBack cb' r) = 0).
    { intros r. destruct op, cb'; cbn in Hcb; try discriminate; reflexivity. }
    assert (Hcl : forall a r, Forall clean (tokens a ++ [MBack cb' (Some r)])).
    { intros a r. apply Forall_app. split; [unfold tokens; destruct (a =? 0); repeat constructor|].
      constructor; [destruct cb'; exact I|constructor]. }
    assert (Hpr : prospect (get_known_deposited_balance (w_lockup w)) (w_pools w p) (MCall (RPool p op) (Some cb'))).
    { destruct (Forall_drop _ _ _ _ (pr_msgs w (go_prospects w Hg)) Hn) as [Hpr _].
      unfold pool_now, get_staking_pool_account_id in Hpr. rewrite Hst in Hpr. exact Hpr. }
    pose proof (i_pools w (go_inv w Hg) p) as Hb.
    destruct (answers w (RPool p op)) eqn:Ea; cbn [execute] in Hx; try discriminate.
    + injection Hx as <- <- _. rewrite total_app. cbn [back]. rewrite total_one, Hp, (tokens_pending _).
      split; [|reflexivity]. apply Forall_app. split.
      { unfold tokens. destruct (_ =? 0); repeat constructor. }
      constructor; [|constructor].
      destruct op, cb'; cbn in Hcb; try discriminate; try exact I.
      * exfalso. cbn in Hpr. destruct (co_withdraw answers co w p amount) as (s & u & E); [lia|exact Hb|congruence].
      * exfalso. cbn in Hpr. destruct (co_unstake answers co w p amount) as (s & u & E); [lia|exact Hb|congruence].
    + destruct (is_view op) eqn:Ev; [|discriminate]. injection Hx as <- <- _. cbn [back]. rewrite total_one, Hp.
      split; [apply (Hcl 0)|reflexivity].
    + destruct (pool_keeps op (w_pools w p) (staked, unstaked)) eqn:Ek; [|discriminate]. injection Hx as <- <- _.
      rewrite total_app. cbn [back]. rewrite total_one, Hp. split.
      * destruct op; try apply (Hcl 0). apply Hcl.
      * destruct op; try reflexivity. now rewrite tokens_pending.
  - rewrite (co_transfer answers co) in Hx. cbn [execute] in Hx. injection Hx as <- <- _.
    destruct Hm as [->|[-> _]]; cbn; split; auto; try lia; repeat constructor.
  - subst cb. destruct (answers w (RAddFullAccessKey pk)); cbn in Hx; try discriminate; injection Hx as <- <- _; cbn; split; auto.
Qed.

Lemma tick w m rest : good w -> w_msgs w = m :: rest ->
  exists ev, allowed w ev /\ total wt (w_msgs (step g w ev)) < total wt (w_msgs w) /\
    (Forall clean (w_msgs w) ->
     Forall clean (w_msgs (step g w ev)) /\
     phi (w_lockup (step g w ev)) (pend (step g w ev)) <= phi (w_lockup w) (pend w)).
Proof.
  intros Hg Hw. pose proof (go_inv w Hg) as HI.
  assert (Hn : nth_error (w_msgs w) 0 = Some m) by (rewrite Hw; reflexivity).
  assert (Hd : drop_nth 0 (w_msgs w) = rest) by (rewrite Hw; reflexivity).
  destruct m as [r cb|cb r|a].
  - destruct (execute w r cb (answers w r)) as [[[pools new] l]|] eqn:Hx; [|destruct (co_possible answers co w r cb Hx)].
    exists (EDeliver 0 (answers w r)). split.
    { split; [|split; [|split; [|exact I]]].
      - exists r, cb. auto.
      - unfold view_fails. rewrite Hn. destruct (answers w r) eqn:Ea; auto. destruct r; auto.
        destruct (is_view op) eqn:Ev; auto. rewrite (co_view answers co w _ op Ev) in Ea. discriminate.
      - unfold keeps_apart. rewrite Hn. destruct (answers w r) eqn:Ea; auto. destruct r; auto. destruct op; auto.
        eapply co_apart; eauto. }
    assert (Hs : step g w (EDeliver 0 (answers w r)) = mkWorld (w_lockup w) (w_balance w) (w_time w) pools (rest ++ new)).
    { unfold step, step_obs. rewrite Hn, Hx, Hd. reflexivity. }
    rewrite Hs. wsimpl. rewrite Hw, total_app. cbn [total fold_right].
    pose proof (execute_wt _ _ _ _ _ _ _ (msg_at _ _ _ HI Hn) Hx) as Hwt.
    change (fold_right (fun m t => wt m + t) 0 rest) with (total wt rest).
    split; [lia|]. intros Hc. destruct (answer_clean _ _ _ _ _ _ _ Hg Hn Hx) as [C1 C2].
    split; [apply Forall_app; split; [inversion Hc; assumption|exact C1]|].
    unfold pend. wsimpl. rewrite Hw, total_app, C2. cbn [total fold_right].
    change (fold_right (fun m t => to_foundation_pending m + t) 0 rest) with (total to_foundation_pending rest).
    rewrite N.add_comm. apply N.le_refl.
  - exists (ERun 0). split; [repeat split|].
    assert (Hl : answered (MBack cb r)).
    { pose proof (s_answered w (go_steady w Hg)) as Ha. rewrite Hw in Ha. inversion Ha; assumption. }
    assert (Hpos : 1 <= wt (MBack cb r)) by (destruct cb; cbn; lia).
    destruct (run g (mkWorld (w_lockup w) (w_balance w) (w_time w) (w_pools w) rest) (g_self g) 0 [r] cb) as [[w'|] l] eqn:Hr.
    + destruct (run_after _ _ _ _ _ _ _ _ Hr) as (_ & s & p & He). cbv zeta in He. wsimpl.
      destruct He as (_ & He & _ & -> & _).
      assert (Hs : step g w (ERun 0) = after (mkWorld (w_lockup w) (w_balance w) (w_time w) (w_pools w) rest) s rest p).
      { unfold step, step_obs. rewrite Hn, Hd. cbv zeta. rewrite Hr. reflexivity. }
      rewrite Hs. unfold after. wsimpl. rewrite total_app, Hw. cbn [total fold_right].
      change (fold_right (fun m t => wt m + t) 0 rest) with (total wt rest).
      destruct (back_wt g w 0 cb r s p HI Hn He) as (B1 & B2 & B3).
      split; [lia|]. intros Hc. inversion Hc; subst.
      split; [apply Forall_app; split; assumption|]. unfold pend. wsimpl. rewrite Hw, total_app. cbn [total fold_right].
      apply B3. assumption.
    + assert (Hmf : may_fail cb r = true) by (eapply callback_fails; [exact HI|exact Hn|rewrite Hd; exact Hr]).
      assert (Hs : step g w (ERun 0) = mkWorld (w_lockup w) (w_balance w) (w_time w) (w_pools w) rest).
      { unfold step, step_obs. rewrite Hn, Hd. cbv zeta. rewrite Hr. reflexivity. }
      rewrite Hs. wsimpl. rewrite Hw. cbn [total fold_right].
      change (fold_right (fun m t => wt m + t) 0 rest) with (total wt rest).
      split; [lia|]. intros Hc. inversion Hc; subst. split; [assumption|]. unfold pend. wsimpl. rewrite Hw. cbn [total fold_right].
      assert (Hp : to_foundation_pending (MBack cb r) = 0).
      { cbn [answered] in Hl. unfold may_fail in Hmf. destruct cb; try reflexivity. congruence. }
      rewrite Hp. apply N.le_refl.
  - exists (ERun 0). split; [repeat split|].
    assert (Hs : step g w (ERun 0) = mkWorld (w_lockup w) (w_balance w + a) (w_time w) (w_pools w) rest).
    { unfold step, step_obs. rewrite Hn, Hd. reflexivity. }
    rewrite Hs. wsimpl. rewrite Hw. cbn [total fold_right]. change (fold_right (fun m t => wt m + t) 0 rest) with (total wt rest).
    split; [cbn [wt]; lia|]. intros Hc. split; [inversion Hc; assumption|]. unfold pend. wsimpl. rewrite Hw. apply N.le_refl.
Qed.

(** Deliver all that is outstanding. *)
Lemma flush w : good w -> exists evs w', leads w evs w' /\ w_msgs w' = [] /\
  (Forall clean (w_msgs w) -> phi (w_lockup w') 0 <= phi (w_lockup w) (pend w)).
Proof.
  remember (total wt (w_msgs w)) as k eqn:Ek. revert w Ek.
  induction k as [k IH] using (well_founded_induction N.lt_wf_0). intros w -> Hg.
  destruct (w_msgs w) as [|m rest] eqn:Hw.
  - exists [], w. split; [constructor|]. split; [exact Hw|]. intros _. unfold pend. rewrite Hw. apply N.le_refl.
  - destruct (tick w m rest Hg Hw) as (ev & A & B & C). rewrite Hw in B, C.
    destruct (IH _ B _ eq_refl (good_step _ _ Hg A)) as (evs & w' & L & E & P).
    exists (ev :: evs), w'. split; [econstructor; eauto|]. split; [exact E|]. intros Hc. destruct (C Hc) as [C1 C2].
    specialize (P C1). lia.
Qed.

(** The end of the way. *)
Definition complete (w : world) : Prop :=
  w_msgs w = [] /\
  (vesting_information (w_lockup w) = VNone \/
   exists ti, vesting_information (w_lockup w) = VTerminating ti /\ unvested_amount ti <= MIN_BALANCE_FOR_STORAGE).

Lemma finish w (r : account_id) : f <> g_self g -> is_valid_account_id r = true -> good w -> w_msgs w = [] ->
  exists evs w', leads w evs w' /\ complete w'.
Proof.
  intros Hf Hr. remember (phi (w_lockup w) 0) as k eqn:Ek. revert w Ek.
  induction k as [k IH] using (well_founded_induction N.lt_wf_0). intros w -> Hg Hw.
  assert (Go : forall m s p, foundation_method m = true -> reveals_covered g w (ECall f 0 m) ->
    exec (call_ctx g w f) (w_lockup w) m = Ok (s, p) -> spent p <= w_balance w ->
    phi s (total to_foundation_pending (posted p)) < phi (w_lockup w) 0 ->
    exists evs w', leads w evs w' /\ complete w').
  { intros m s p Hm Hrv He Hsp Hlt.
    pose proof (call_obs g w f m s p Hf He Hsp) as Hs. apply (f_equal fst) in Hs. cbn [fst] in Hs.
    change (fst (step_obs g w (ECall f 0 m))) with (step g w (ECall f 0 m)) in Hs.
    assert (A : allowed w (ECall f 0 m)) by (split; [split; auto|repeat split; assumption]).
    pose proof (good_step _ _ Hg A) as Hg'. 
    destruct (flush _ Hg') as (evs & w1 & L & E & P). rewrite Hs in P. unfold after, pend in P. wsimpl.
    rewrite Hw in P. cbn [app] in P.
    assert (P' : phi (w_lockup w1) 0 <= phi s (total to_foundation_pending (posted p))).
    { apply P. destruct p; cbn [posted]; repeat constructor. }
    destruct (IH (phi (w_lockup w1) 0) ltac:(lia) w1 eq_refl (good_leads _ _ _ Hg' L) E) as (evs' & w2 & L2 & C).
    exists (ECall f 0 m :: evs ++ evs'), w2. split; [|exact C]. econstructor; [exact A|]. eapply leads_app; eauto. }
  destruct (go_founded w Hg) as [HT HF]. unfold terminal in HT.
  destruct (vesting_information (w_lockup w)) as [| | |[u st]] eqn:Hv; try contradiction.
  { exists [], w. split; [constructor|]. split; auto. }
  pose proof (HF (ex_intro _ _ eq_refl)) as Hfo.
  pose proof (pr_course w (go_prospects w Hg)) as HC. unfold on_course in HC. rewrite Hv in HC. cbn [t_status unvested_amount] in HC.
  assert (Hidle : busy (w_lockup w) = false).
  { destruct (busy (w_lockup w)) eqn:Hb; [|reflexivity]. pose proof (s_one w (go_steady w Hg) Hb) as H1. rewrite Hw in H1. discriminate. }
  assert (Hst : get_termination_status (w_lockup w) = Some st) by (unfold get_termination_status; rewrite Hv; reflexivity).
  pose proof (i_phase w (go_inv w Hg)) as Hph. rewrite Hst, Hidle in Hph.
  pose proof (i_term w (go_inv w Hg)) as Htm. rewrite Hst, Hw in Htm.
  assert (Hown : assert_called_by_foundation (call_ctx g w f) (w_lockup w) = Ok tt).
  { unfold assert_called_by_foundation. cbn [call_ctx ctx_predecessor]. rewrite Hfo, String.eqb_refl. reflexivity. }
  assert (Hpool : staking_information (w_lockup w) <> None -> exists p d, staking_information (w_lockup w) = Some (mkStaking p Idle d)).
  { intros Hn. unfold busy in Hidle. destruct (staking_information (w_lockup w)) as [[p q d]|]; [|congruence].
    cbn in Hidle. destruct q; try discriminate; exists p, d; reflexivity. }
  destruct st; try (specialize (Hph eq_refl); discriminate); try discriminate Htm.
  - destruct (Hpool HC) as (p & d & Hs).
    eapply (Go TerminationPrepareToWithdraw); [reflexivity|exact I| | |].
    + transitivity (termination_prepare_to_withdraw (call_ctx g w f) (w_lockup w)); [reflexivity|].
      unfold termination_prepare_to_withdraw, set_termination_status, set_staking_pool_status, assert_staking_pool_is_idle, ask.
      rewrite Hown, Hs, Hst. cbn. rewrite Hv. cbn. rewrite Hs. cbn. reflexivity.
    + cbn. lia.
    + unfold phi. wsimpl. rewrite Hv. cbn [set_vesting set_staking vesting_information t_status unvested_amount rank]. cbn [posted total fold_right p_remote p_then option_map fst to_foundation_pending]. lia.
  - destruct HC as (_ & HC & _). destruct (Hpool HC) as (p & d & Hs).
    eapply (Go TerminationPrepareToWithdraw); [reflexivity|exact I| | |].
    + transitivity (termination_prepare_to_withdraw (call_ctx g w f) (w_lockup w)); [reflexivity|].
      unfold termination_prepare_to_withdraw, set_termination_status, set_staking_pool_status, assert_staking_pool_is_idle, ask.
      rewrite Hown, Hs, Hst. cbn. rewrite Hv. cbn. rewrite Hs. cbn. reflexivity.
    + cbn. lia.
    + unfold phi. wsimpl. rewrite Hv. cbn [set_vesting set_staking vesting_information t_status unvested_amount rank]. cbn [posted total fold_right p_remote p_then option_map fst to_foundation_pending]. lia.
  - destruct (N.leb_spec (w_balance w) MIN_BALANCE_FOR_STORAGE) as [Hle|Hgt].
    { exists [], w. split; [constructor|]. split; [exact Hw|]. right. exists (mkTermination u ReadyToWithdraw). split; [exact Hv|].
      cbn [unvested_amount]. destruct HC as [[HC _]|HC].
      - pose proof (c_tokens w (go_covered w Hg)) as Hc. rewrite Hw, HC in Hc. cbn [total fold_right] in Hc.
        pose proof (held_le_locked (w_lockup w) (w_time w) (c_wf w (go_covered w Hg))) as Hh. unfold held_by_vesting in Hh. rewrite Hv in Hh. cbn [unvested_amount] in Hh. lia.
      - rewrite Hw in HC. cbn [total fold_right] in HC. lia. }
    destruct (N.eq_dec u 0) as [->|Hu].
    { exists [], w. split; [constructor|]. split; [exact Hw|]. right. exists (mkTermination 0 ReadyToWithdraw). split; [exact Hv|]. cbn. lia. }
    assert (Ha : 0 < N.min u (get_account_balance (w_balance w))).
    { unfold get_account_balance, sat_sub. lia. }
    eapply (Go (TerminationWithdraw r)); [reflexivity|exact I| | |].
    + transitivity (termination_withdraw (call_ctx g w f) (w_lockup w) r); [reflexivity|].
      unfold termination_withdraw, set_termination_status, ask.
      rewrite Hown, Hr, Hst, Hv. cbn [bind]. cbn [call_ctx ctx_balance].
      unfold get_terminated_unvested_balance. rewrite Hv. cbn [unvested_amount].
      apply N.ltb_lt in Ha. rewrite Ha. cbn. reflexivity.
    + cbn. unfold get_account_balance, sat_sub. lia.
    + unfold phi. wsimpl. rewrite Hv. cbn [posted total fold_right p_remote p_then option_map fst to_foundation_pending with_term set_vesting vesting_information rank t_status unvested_amount].
      lia.
Qed.
End Path.

Lemma all_reveals_app g w evs evs' : all_reveals_covered g w (evs ++ evs') ->
  all_reveals_covered g w evs /\ all_reveals_covered g (final g w evs) evs'.
Proof.
  revert w. induction evs as [|ev evs IH]; intros w H; [split; [exact I|exact H]|].
  destruct H as [H1 H2]. destruct (IH _ H2). split; [split|]; assumption.
Qed.
Lemma final_cons g w evs ev evs' : final g w (evs ++ ev :: evs') = final g (step g (final g w evs) ev) evs'.
Proof. rewrite final_app. reflexivity. Qed.

(** After a termination, the foundation can always collect. *)
Theorem foundation_collects g w0 evs ev u evs1 answers r :
  starts g w0 -> public_schedule_sane (w_lockup w0) ->
  let all := (evs ++ ev :: evs1)%list in
  all_reveals_covered g w0 all -> views_answer g w0 all -> all_keep_apart g w0 all ->
  terminates g (final g w0 evs) ev u ->
  cooperative answers -> is_valid_account_id r = true ->
  exists f evs2, foundation_account_id (w_lockup (final g w0 evs)) = Some f /\
    all_only_foundation answers f g (final g w0 all) evs2 /\
    u <= received (log g w0 (all ++ evs2)) + MIN_BALANCE_FOR_STORAGE.
Proof.
  intros H0 Hsane all Hrev Hview Hap Ht Hco Hr.
  assert (I0 : inv w0) by exact (inv_start g w0 H0).
  assert (HT : exists f, foundation_account_id (w_lockup (final g w0 evs)) = Some f /\ f <> g_self g /\
    founded f (w_lockup (step g (final g w0 evs) ev))).
  { assert (I1 : inv (final g w0 evs)) by (apply inv_final, I0).
    pose proof (terminates_spec _ _ _ _ I1 Ht) as (_ & _ & st & Es & _).
    destruct Ht as (f & o & vs & l & -> & Hs & _). exists f.
    revert Hs. generalize (step_move g _ (ECall f 0 (TerminateVesting o)) I1). rewrite Es. intros Hmv Hs. rewrite Hs in Hmv. cbn [snd] in Hmv.
    inversion Hmv; subst.
    match goal with H : effect _ _ _ _ _ |- _ => inversion H; subst; try discriminate; cbn [call_ctx ctx_predecessor ctx_current] in *; try congruence end.
    split; [assumption|]. split; [assumption|]. split; [exact I|]. intros _. assumption. }
  destruct HT as (f & Hf & Hfs & Hfd).
  assert (Hgood : good f (final g w0 all)).
  { split.
    - apply inv_final, I0.
    - apply steady_final; auto. apply (steady_start g w0 H0).
    - apply covered_final; auto. now apply (covered_start g).
    - apply prospects_final; auto. apply (prospects_start g w0 H0).
    - unfold all. rewrite final_cons. apply founded_final; [|exact Hfd]. apply inv_step, inv_final, I0. }
  destruct (flush g answers f Hco _ Hgood) as (e1 & w1 & L1 & M1 & _).
  destruct (finish g answers f Hco w1 r Hfs Hr (good_leads g answers f _ _ _ Hgood L1) M1) as (e2 & w2 & L2 & M2 & C).
  pose proof (leads_app _ _ _ _ _ _ _ _ L1 L2) as L.
  exists f, (e1 ++ e2)%list. split; [exact Hf|]. split; [exact (leads_all _ _ _ _ _ _ L)|].
  pose proof (paying_history g w0 evs ev u (evs1 ++ e1 ++ e2) H0 Ht) as HP.
  pose proof (leads_final _ _ _ _ _ _ L) as E2.
  replace (evs ++ ev :: evs1 ++ e1 ++ e2)%list with (all ++ e1 ++ e2)%list in HP by (unfold all; rewrite <- app_assoc; reflexivity).
  rewrite final_app, <- E2 in HP. unfold paying_out in HP. rewrite M2 in HP. cbn [total fold_right] in HP.
  destruct C as [C|(ti & C & C2)]; rewrite C in HP; lia.
Qed.
