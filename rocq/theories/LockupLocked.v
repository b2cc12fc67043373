(** The locked amount is always covered by tokens the lockup controls. *)
From Coq Require Import NArith List Bool String Lia.
From Verif Require Import Prelude PreludeFacts MapFacts LockupModel LockupWorld LockupSpec LockupMath LockupEffects
  LockupInv LockupMoves.
Import ListNotations.
Open Scope N_scope.

Definition credit (m : msg) : N := in_flight m + to_foundation_pending m + plus m.

Record covered (w : world) : Prop := mkCovered {
  c_wf : well_formed (w_lockup w);
  c_tokens : locked (w_lockup w) (w_time w) + total minus (w_msgs w)
             <= w_balance w + get_known_deposited_balance (w_lockup w) + total credit (w_msgs w)
}.

Lemma total_credit l :
  total credit l = total in_flight l + total to_foundation_pending l + total plus l.
Proof.
  induction l as [|m l IH]; [reflexivity|]. cbn.
  fold (total credit l) (total in_flight l) (total to_foundation_pending l) (total plus l).
  unfold credit at 1. lia.
Qed.

Lemma total_tokens_credit a : total credit (tokens a) = a.
Proof. unfold tokens, credit. destruct (N.eqb_spec a 0); unfold credit; cbn; lia. Qed.

(** Changes of the pool do not matter to the locked amount. *)
Lemma locked_pool s o t : locked (set_staking s o) t = locked s t.
Proof. reflexivity. Qed.
Lemma wf_pool s o : well_formed s -> well_formed (set_staking s o).
Proof. intros [? ? ? ?]. split; assumption. Qed.
(** Nor do changes of the termination status. *)
Lemma locked_term s u st st' t : vesting_information s = VTerminating (mkTermination u st) ->
  locked (with_term s u st') t = locked s t.
Proof. intros H. unfold locked, held_by_vesting, with_term. cbn. rewrite H. reflexivity. Qed.
Lemma wf_term s u st st' : vesting_information s = VTerminating (mkTermination u st) ->
  well_formed s -> well_formed (with_term s u st').
Proof. intros H [? ? ? Hv]. rewrite H in Hv. split; assumption. Qed.

(** Requests that are executed keep the tokens. *)
Lemma execute_keeps w r cb o pools new l :
  msg_ok (w_lockup w) (pool_total (w_pools w) (w_lockup w)) (MCall r cb) ->
  execute w r cb o = Some (pools, new, l) ->
  credit (MCall r cb) + total minus new <= total credit new.
Proof.
  intros Hm Hx. destruct r as [wl p|poll|p op|rc a|pk]; cbn [msg_ok] in Hm.
  - subst cb. destruct o; cbn in Hx; try discriminate; injection Hx as <- <- _; unfold credit; cbn; lia.
  - subst cb. destruct o; cbn in Hx; try discriminate; injection Hx as <- <- _; unfold credit; cbn; lia.
  - destruct Hm as (d & cb' & _ & -> & Hcb & _).
    destruct o; cbn [execute] in Hx; try discriminate.
    + injection Hx as <- <- _.
      rewrite !total_app, total_tokens, total_tokens_credit by reflexivity. cbn [back].
      rewrite !total_one. destruct op, cb'; try discriminate; unfold credit; cbn; lia.
    + destruct (is_view op) eqn:Ev; [|discriminate]. injection Hx as <- <- _.
      cbn [back]. rewrite !total_one. destruct op, cb'; try discriminate; unfold credit; cbn; lia.
    + destruct (pool_keeps op (w_pools w p) (staked, unstaked)) eqn:Ek; [|discriminate].
      injection Hx as <- <- _. rewrite !total_app. cbn [back]. rewrite !total_one.
      destruct op, cb'; cbn in Hcb; try discriminate; try (apply N.eqb_eq in Hcb; subst);
      rewrite ?total_tokens_credit; rewrite ?total_tokens by reflexivity; unfold credit; cbn; lia.
  - destruct o; cbn [execute] in Hx; try discriminate; injection Hx as <- <- _;
    rewrite ?total_app, ?total_tokens_credit; rewrite ?total_tokens by reflexivity;
    (destruct Hm as [->|[-> Hp]]; cbn [back]; rewrite ?total_one; unfold credit; cbn; lia).
  - subst cb. destruct o; cbn in Hx; try discriminate; injection Hx as <- <- _; unfold credit; cbn; lia.
Qed.

Lemma paid_locked s a u st t s' :
  well_formed s -> vesting_information s = VTerminating (mkTermination u st) -> a <= u ->
  s' = set_lockup s (mkLockup (lockup_amount (lockup_information s))
           (termination_withdrawn_tokens (lockup_information s) + a) (lockup_duration (lockup_information s))
           (release_duration (lockup_information s)) (lockup_timestamp (lockup_information s))
           (transfers_information (lockup_information s))) ->
  forall s'', s'' = (if a <? u then with_term s' (u - a) ReadyToWithdraw
                     else set_vesting (set_foundation s' None) VNone) ->
  well_formed s'' /\ locked s'' t + a <= locked s t.
Proof.
  intros [HL HW HT HV] Hv Ha -> s'' ->. rewrite Hv in HV. cbn in HV.
  assert (Hwf : forall v, match v with VTerminating ti => unvested_amount ti = u - a | VNone => a = u | _ => False end ->
    forall f, let s1 := mkContract (owner_account_id s) (mkLockup (lockup_amount (lockup_information s))
           (termination_withdrawn_tokens (lockup_information s) + a) (lockup_duration (lockup_information s))
           (release_duration (lockup_information s)) (lockup_timestamp (lockup_information s))
           (transfers_information (lockup_information s))) v (staking_pool_whitelist_account_id s)
           (staking_information s) f in
    well_formed s1 /\ locked s1 t + a <= locked s t).
  { intros v Hvv f s1. split.
    - split; subst s1; wsimpl; auto; try lia. destruct v; try contradiction; auto. lia.
    - unfold locked, held_by_vesting, lockup_end, not_released. subst s1. cbn. rewrite Hv. cbn.
      destruct (transfers_information (lockup_information s)) as [ts|]; [|lia].
      destruct (t <? _); [lia|]. destruct v; try contradiction; try rewrite Hvv; lia. }
  destruct (N.ltb_spec a u).
  - apply Hwf. reflexivity.
  - apply Hwf. lia.
Qed.

Lemma covered_back g w n cb r s p :
  inv w -> covered w -> nth_error (w_msgs w) n = Some (MBack cb r) ->
  effect (back_ctx g w r) (w_lockup w) cb s p ->
  covered (after w s (drop_nth n (w_msgs w)) p).
Proof.
  intros HI [Hwf Hc] Hn He. pose proof (msg_at _ _ _ HI Hn) as Hm.
  rewrite (total_drop minus _ _ _ Hn), (total_drop credit _ _ _ Hn) in Hc.
  assert (G : well_formed s /\ spent p = 0 /\ total minus (posted p) = 0 /\
    locked s (w_time w) + get_known_deposited_balance (w_lockup w) + credit (MBack cb r)
      <= locked (w_lockup w) (w_time w) + get_known_deposited_balance s + minus (MBack cb r)).
  2:{ destruct G as (G1 & G2 & G3 & G4). split; unfold after; cbn [w_lockup w_balance w_time w_pools w_msgs]; [exact G1|].
      rewrite !total_app. lia. }
  clear Hc. cbn [msg_ok] in Hm.
  destruct (staking_callback cb) eqn:Hsc.
  - destruct Hm as (p0 & d & Hst & Hph & Hans).
    assert (HD : get_known_deposited_balance (w_lockup w) = d).
    { unfold get_known_deposited_balance. rewrite Hst. reflexivity. }
    rewrite HD.
    inversion He; subst; try discriminate; try (exfalso; destruct cb; discriminate);
    cbn [ctx_predecessor ctx_current ctx_results back_ctx] in *;
    try match goal with H : _ :: _ = _ :: _ |- _ => injection H; clear H; intros; subst end;
    match goal with H : staking_information (w_lockup w) = Some (mkStaking _ _ _) |- _ =>
      lazymatch H with Hst => fail | _ => rewrite Hst in H; injection H; clear H; intros; subst end end;
    try (match goal with H : vesting_information (w_lockup w) = VTerminating _ |- _ => rename H into Hv end);
    try (change (with_term (with_pool (w_lockup w) ?a ?b ?c) ?u ?t) with (with_pool (with_term (w_lockup w) u t) a b c));
    unfold with_pool;
    (split; [first [apply wf_pool; first [exact Hwf | eapply wf_term; eassumption] | exact Hwf ]|]);
    (split; [reflexivity|]); (split; [reflexivity|]);
    rewrite ?locked_pool; try (erewrite locked_term by exact Hv);
    unfold get_known_deposited_balance; cbn [set_staking staking_information deposit_amount];
    try (rewrite Hst; cbn [deposit_amount]).
    + destruct H0; subst; unfold credit; cbn; lia.
    + unfold credit; cbn; lia.
    + match goal with H : only_status _ ?r = true |- _ => destruct cb, r as [[]|]; try discriminate; unfold credit; cbn; lia end.
    + cbn in Hans. destruct Hans as [|(y & [= <-] & Hy)]; [discriminate|]. unfold credit; cbn; lia.
    + unfold credit; cbn; lia.
    + unfold credit; cbn; lia.
    + unfold credit; cbn; lia.
    + unfold credit; cbn; lia.
    + unfold credit; cbn; lia.
    + unfold credit; cbn; lia.
    + unfold credit; cbn; lia.
    + unfold credit; cbn; lia.
  - destruct cb; try discriminate; try contradiction.
    + inversion He; subst; cbn [ctx_results back_ctx] in *; try discriminate;
      try match goal with H : owner_op _ = _ |- _ => discriminate end;
      try match goal with H : only_status _ _ = _ |- _ => discriminate end;
      try match goal with H : _ \/ _ |- _ => destruct H; discriminate end.
      split; [unfold with_pool; now apply wf_pool|]. split; [reflexivity|]. split; [reflexivity|].
      unfold with_pool. rewrite locked_pool. unfold get_known_deposited_balance.
      match goal with H : staking_information _ = None |- _ => rewrite H end. unfold credit; cbn; lia.
    + inversion He; subst; cbn [ctx_results back_ctx] in *; try discriminate;
      try match goal with H : owner_op _ = _ |- _ => discriminate end;
      try match goal with H : only_status _ _ = _ |- _ => discriminate end;
      try match goal with H : _ \/ _ |- _ => destruct H; discriminate end.
      * match goal with |- well_formed ?x /\ _ => set (s1 := x) in * end.
        assert (Hw1 : well_formed s1) by (destruct Hwf as [? ? ? ?]; split; assumption).
        split; [exact Hw1|]. split; [reflexivity|]. split; [reflexivity|].
        pose proof (locked_le _ (w_time w) Hw1) as HL.
        match goal with H : are_transfers_enabled _ = false |- _ => unfold are_transfers_enabled in H; rename H into Hx end.
        assert (El : locked (w_lockup w) (w_time w) =
                     lockup_amount (lockup_information (w_lockup w)) -
                     termination_withdrawn_tokens (lockup_information (w_lockup w))).
        { unfold locked, lockup_end. destruct (transfers_information _); [discriminate|reflexivity]. }
        rewrite El. subst s1. cbn in *. unfold get_known_deposited_balance. unfold credit; cbn; lia.
      * split; [exact Hwf|]. split; [reflexivity|]. split; [reflexivity|]. unfold credit; cbn; lia.
    + destruct Hm as (u & Hu & Ha).
      inversion He; subst; cbn [ctx_results back_ctx] in *; try discriminate;
      try match goal with H : owner_op _ = _ |- _ => discriminate end;
      try match goal with H : only_status _ _ = _ |- _ => discriminate end;
      try match goal with H : _ \/ _ |- _ => destruct H; discriminate end.
      * assert (Hgu : get_terminated_unvested_balance (w_lockup w) = u).
        { unfold get_terminated_unvested_balance. rewrite Hu. reflexivity. }
        match goal with H : [_] = [_] |- _ => injection H; intros; subst r end.
        rewrite Hgu.
        destruct (paid_locked _ _ _ _ (w_time w) _ Hwf Hu Ha eq_refl _ eq_refl) as [P1 P2].
        split; [exact P1|]. split; [reflexivity|]. split; [reflexivity|].
        match goal with |- context[get_known_deposited_balance (if ?b then ?x else ?y)] =>
          assert (E : get_known_deposited_balance (if b then x else y) = get_known_deposited_balance (w_lockup w))
            by (destruct b; reflexivity) end.
        rewrite E. unfold credit. cbn [in_flight to_foundation_pending plus minus]. lia.
      * match goal with H : [_] = [_] |- _ => injection H; intros; subst r end.
        match goal with H : vesting_information (w_lockup w) = VTerminating (mkTermination ?x ?y) |- _ =>
          lazymatch H with Hu => fail | _ => rewrite Hu in H; injection H; clear H; intros; subst end end.
        split; [eapply wf_term; eauto|]. split; [reflexivity|]. split; [reflexivity|].
        erewrite locked_term by exact Hu. cbn. unfold get_known_deposited_balance. unfold credit; cbn; lia.
Qed.

Lemma covered_call g w who m s p :
  inv w -> covered w -> who <> g_self g -> reveals_covered g w (ECall who 0 m) ->
  exec (call_ctx g w who) (w_lockup w) m = Ok (s, p) ->
  effect (call_ctx g w who) (w_lockup w) m s p -> spent p <= w_balance w ->
  covered (after w s (w_msgs w) p).
Proof.
  intros HI [Hwf Hc] Hwho Hrev Hx He Hsp.
  assert (G : (exists a r, m = Transfer a r) \/ well_formed s /\ total minus (posted p) = 0 /\
    locked s (w_time w) + get_known_deposited_balance (w_lockup w) + spent p
      <= locked (w_lockup w) (w_time w) + get_known_deposited_balance s + total credit (posted p)).
  2:{ destruct G as [(a & r & ->)|(G1 & G3 & G4)].
      - inversion He; subst; try discriminate; cbn [ctx_predecessor ctx_current call_ctx] in *; try congruence.
        split; unfold after; cbn [w_lockup w_balance w_time w_pools w_msgs]; [exact Hwf|].
        rewrite !total_app. cbn [spent p_remote attached_to] in *.
        match goal with H : get_liquid_owners_balance _ _ _ = _ |- _ => rename H into Hl end.
        unfold get_liquid_owners_balance, get_owners_balance in Hl. cbn [call_ctx ctx_timestamp ctx_balance] in Hl.
        rewrite (get_locked_ok _ _ Hwf) in Hl. inv_all. unfold sat_sub in *.
        assert (Z : total minus (w_msgs w) = 0).
        { apply no_staking. apply idle_no_staking; [exact HI|].
          match goal with H : assert_no_staking_or_idle _ = _ |- _ =>
            unfold assert_no_staking_or_idle in H; unfold busy end.
          destruct (staking_information _) as [[? [] ?]|]; try discriminate; reflexivity. }
        unfold credit. cbn [in_flight to_foundation_pending plus minus posted p_remote p_then option_map total fold_right]. lia.
      - split; unfold after; cbn [w_lockup w_balance w_time w_pools w_msgs]; [exact G1|].
        rewrite !total_app. lia. }
  clear Hc. inversion He; subst; cbn [ctx_predecessor ctx_current call_ctx ctx_results] in *; try congruence.
  - right. split; [exact Hwf|]. split; [reflexivity|]. unfold credit; cbn; lia.
  - right. split; [now apply wf_pool|]. split; [reflexivity|]. rewrite locked_pool. cbn.
    unfold get_known_deposited_balance.
    match goal with H : staking_information _ = _ |- _ => rewrite H end. unfold credit; cbn; lia.
  - right. split; [unfold with_pool; now apply wf_pool|]. split; [reflexivity|].
    unfold with_pool. rewrite locked_pool. cbn [spent posted p_remote p_then option_map fst].
    rewrite total_one. unfold get_known_deposited_balance.
    match goal with H : staking_information _ = _ |- _ => rewrite H end.
    cbn [set_staking staking_information deposit_amount].
    destruct op; unfold credit; cbn; lia.
  - right. split; [exact Hwf|]. split; [reflexivity|]. unfold credit; cbn; lia.
  - left. eauto.
  - right. split; [exact Hwf|]. split; [reflexivity|]. unfold credit; cbn; lia.
  - (* terminate *)
    right. match goal with H : assert_vesting _ _ _ = _ |- _ => rename H into Hv end.
    match goal with H : get_unvested_amount _ _ _ = _ |- _ => rename H into Hu end.
    match goal with |- well_formed (with_term _ _ ?x) /\ _ => set (st := x) in * end. clearbody st.
    pose proof (assert_vesting_ok _ _ _ _ Hv) as Hvv. cbn [call_ctx ctx_hash] in Hvv.
    assert (Hrc : sane vs /\
      match vesting_information (w_lockup w) with
      | VHash _ => not_vested (lockup_amount (lockup_information (w_lockup w))) vs (w_time w)
                     <= locked (w_lockup w) (w_time w)
      | _ => True end).
    { destruct Hvv as [(h & salt & Ev & -> & Hh)|[Ev ->]]; rewrite Ev.
      - apply (Hrev). cbn [call_ctx ctx_predecessor] in *.
        rewrite (call_obs _ _ _ _ _ _ Hwho Hx Hsp). left. reflexivity.
      - split; [|exact I]. pose proof (wf_vesting _ Hwf) as H0. rewrite Ev in H0. exact (proj1 H0). }
    destruct Hrc as [Hsane Hcov].
    rewrite (get_unvested_ok _ _ _ (wf_amount _ Hwf) Hsane) in Hu
      by (destruct Hvv as [(h & salt & -> & _)|[-> _]]; exact I).
    injection Hu as Hu. cbn [call_ctx ctx_timestamp] in Hu.
    assert (Hz : termination_withdrawn_tokens (lockup_information (w_lockup w)) = 0).
    { pose proof (i_fresh w HI) as Hf. destruct Hvv as [(h & salt & Ev & _)|(Ev & _)]; rewrite Ev in Hf; exact Hf. }
    split; [|split; [reflexivity|]].
    + destruct Hwf as [HL HW HT HV]. split; wsimpl; auto. rewrite Hz.
      pose proof (not_vested_le (lockup_amount (lockup_information (w_lockup w))) vs (w_time w) Hsane). lia.
    + cbn [spent posted total fold_right].
      change (get_known_deposited_balance (with_term (w_lockup w) u st)) with (get_known_deposited_balance (w_lockup w)).
      enough (locked (with_term (w_lockup w) u st) (w_time w) <= locked (w_lockup w) (w_time w)) by lia.
      revert Hcov. unfold locked, held_by_vesting. cbn [with_term set_vesting lockup_information vesting_information unvested_amount].
      destruct Hvv as [(h & salt & -> & _)|(-> & _)]; intros Hcov;
      (destruct (lockup_end _); [destruct (_ <? _)|]; lia).
  - right. match goal with H : vesting_information _ = _ |- _ => rename H into Hv end.
    change (with_pool (with_term (w_lockup w) ?u ?t) ?a ?b ?c) with (set_staking (with_term (w_lockup w) u t) (Some (mkStaking a b c))).
    split; [apply wf_pool; eapply wf_term; eauto|]. split; [reflexivity|].
    rewrite locked_pool. erewrite locked_term by exact Hv. unfold get_known_deposited_balance.
    match goal with H : staking_information _ = _ |- _ => rewrite H end. unfold credit; cbn; lia.
  - right. match goal with H : vesting_information _ = _ |- _ => rename H into Hv end.
    change (with_pool (with_term (w_lockup w) ?u ?t) ?a ?b ?c) with (set_staking (with_term (w_lockup w) u t) (Some (mkStaking a b c))).
    split; [apply wf_pool; eapply wf_term; eauto|]. split; [reflexivity|].
    rewrite locked_pool. erewrite locked_term by exact Hv. unfold get_known_deposited_balance.
    match goal with H : staking_information _ = _ |- _ => rewrite H end. unfold credit; cbn; lia.
  - right. match goal with H : vesting_information _ = _ |- _ => rename H into Hv end.
    split; [eapply wf_term; eauto|]. split; [reflexivity|].
    erewrite locked_term by exact Hv. cbn [spent posted p_remote p_then option_map fst attached_to].
    rewrite total_one. unfold get_known_deposited_balance. unfold credit; cbn; lia.
Qed.

Lemma covered_step g w ev : inv w -> covered w -> reveals_covered g w ev -> covered (step g w ev).
Proof.
  intros HI HC Hrev. generalize (step_move g w ev HI).
  generalize (step g w ev) (snd (step_obs g w ev)). intros w' l Hmv.
  inversion Hmv; subst; try exact HC.
  - destruct HC as [Hwf Hc]. split; wsimpl; [exact Hwf|].
    match goal with H : w_time w <= t |- _ => pose proof (locked_mono _ _ _ Hwf H) end. lia.
  - destruct HC as [Hwf Hc]. split; wsimpl; [exact Hwf|]. lia.
  - destruct HC as [Hwf Hc]. split; wsimpl; [exact Hwf|]. lia.
  - eapply covered_call; eauto.
  - destruct HC as [Hwf Hc]. split; wsimpl; [exact Hwf|].
    match goal with H : nth_error _ _ = Some _ |- _ => rename H into Hn end.
    rewrite !total_app. rewrite (total_drop minus _ _ _ Hn), (total_drop credit _ _ _ Hn) in Hc.
    match goal with H : execute _ _ _ _ = _ |- _ => pose proof (execute_keeps _ _ _ _ _ _ _ (msg_at _ _ _ HI Hn) H) end.
    cbn [minus] in Hc. lia.
  - destruct HC as [Hwf Hc]. split; wsimpl; [exact Hwf|].
    match goal with H : nth_error _ _ = Some _ |- _ => rename H into Hn end.
    rewrite (total_drop minus _ _ _ Hn), (total_drop credit _ _ _ Hn) in Hc. unfold credit in Hc at 1. cbn [minus in_flight to_foundation_pending plus] in Hc. lia.
  - destruct HC as [Hwf Hc]. split; wsimpl; [exact Hwf|].
    match goal with H : nth_error _ _ = Some _ |- _ => rename H into Hn end.
    rewrite (total_drop minus _ _ _ Hn), (total_drop credit _ _ _ Hn) in Hc.
    assert (E : credit (MBack cb r) = 0) by (destruct cb, r; try discriminate; reflexivity).
    rewrite E in Hc. lia.
  - eapply covered_back; eauto.
Qed.

Lemma covered_final g w evs : inv w -> covered w -> all_reveals_covered g w evs -> covered (final g w evs).
Proof.
  revert w. induction evs as [|ev evs IH]; intros w HI HC H; [exact HC|].
  destruct H as [H1 H2]. apply IH; auto using inv_step, covered_step.
Qed.

Lemma covered_start g w : starts g w -> public_schedule_sane (w_lockup w) -> covered w.
Proof.
  intros [(ow & du & ti & tr & ve & re & wl & fo & pr & Hnew & Hdu & Hti & Hre & Htr & Hve) HB HT HP HM] Hsane.
  apply new_ok in Hnew. destruct Hnew as (Es & _). cbn [ctx_balance] in Es.
  assert (Hwf : well_formed (w_lockup w)).
  { unfold public_schedule_sane in Hsane. rewrite Es in *. split; cbn in *; auto; try lia.
    destruct ve as [[h|vs]|]; auto. }
  split; [exact Hwf|]. pose proof (locked_le _ (w_time w) Hwf) as HL.
  rewrite HM. cbn [total fold_right].
  assert (EL : lockup_amount (lockup_information (w_lockup w)) = w_balance w) by (rewrite Es; reflexivity).
  lia.
Qed.

(** The tokens the lockup controls, and the payments to the foundation it does not know the outcome of, cover
    the locked amount. *)
Lemma locked_covered w : inv w -> covered w ->
  locked (w_lockup w) (w_time w) <= controlled w + total to_foundation_pending (w_msgs w).
Proof.
  intros HI [Hwf Hc]. pose proof (i_pool w HI) as Hp. rewrite total_credit in Hc.
  unfold controlled. change (at_pool w) with (pool_total (w_pools w) (w_lockup w)). lia.
Qed.
