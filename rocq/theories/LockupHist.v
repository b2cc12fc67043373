(** Facts about histories: pools come from the whitelist, transfers from the poll. *)
From Coq Require Import NArith List Bool String Lia.
From Verif Require Import Prelude PreludeFacts MapFacts LockupModel LockupWorld LockupSpec LockupEffects LockupInv
  LockupMoves LockupBusy LockupTerm.
Import ListNotations.
Open Scope N_scope.

(** * Pools *)
Lemma in_use_app o a b : in_use o (a ++ b) = in_use (in_use o a) b.
Proof.
  revert o. induction a as [|x a IH]; intros o; [reflexivity|]. cbn.
  destruct x as [who m ok|cb r ok|r|r an|to am un]; auto.
  - destruct m, ok; auto.
  - destruct cb, r as [[| [] | |]|], ok; auto.
Qed.

(** Obs of a call or callback and of what it sends. *)
Definition pool_after (s : contract) (m : call) : option account_id :=
  match m with
  | OnWhitelistIsWhitelisted p => Some p
  | UnselectStakingPool => None
  | _ => get_staking_pool_account_id s
  end.

Lemma effect_pool c s m s' p : effect c s m s' p ->
  get_staking_pool_account_id s' = pool_after s m /\
  staking_pool_whitelist_account_id s' = staking_pool_whitelist_account_id s /\
  (forall pr, p = Some pr -> match p_remote pr with
     | RPool q _ => get_staking_pool_account_id s = Some q /\ pool_after s m = Some q
     | RIsWhitelisted wl _ => wl = staking_pool_whitelist_account_id s
     | RGetResult poll => transfers_information (lockup_information s) = TransfersDisabled poll
     | _ => True end) /\
  (forall q, m = OnWhitelistIsWhitelisted q -> exists l, ctx_results c = Some (ABool true) :: l).
Proof.
  intros He. inversion He; subst;
  try match goal with H : owner_op m = _ |- _ => destruct m; try discriminate H end;
  try match goal with H : only_status m _ = _ |- _ => destruct m; try discriminate H end;
  try match goal with H : _ \/ _ |- _ => destruct H; subst m end;
  try match goal with |- context[if ?b then _ else set_vesting _ _] => destruct b end;
  cbn [pool_after]; unfold get_staking_pool_account_id;
  repeat match goal with H : staking_information s = _ |- _ => rewrite H; clear H end;
  (split; [reflexivity|]); (split; [reflexivity|]);
  (split; [intros pr Hp; try discriminate; injection Hp as <-; cbn; auto|intros q Hq; try discriminate]).
  all: try (match goal with H : staking_information _ = _ |- _ => rewrite H end; cbn; auto). eauto.
Qed.

Definition pool_msgs (wl : account_id) (L : list obs) (m : msg) : Prop :=
  match m with
  | MCall (RIsWhitelisted wl' _) _ => wl' = wl
  | MBack (OnWhitelistIsWhitelisted p) (Some (ABool true)) =>
      In (BAnswered (RIsWhitelisted wl p) (ABool true)) L
  | _ => True
  end.

Definition sends_ok (Q : list obs -> account_id -> Prop) (L : list obs) : Prop :=
  forall l1 p op l2, L = (l1 ++ BSent (RPool p op) :: l2)%list -> Q l1 p.

Lemma app_split {A} (a b l1 l2 : list A) x : (a ++ b = l1 ++ x :: l2)%list ->
  (exists k, a = l1 ++ x :: k)%list \/ (exists k, l1 = a ++ k /\ b = k ++ x :: l2)%list.
Proof.
  revert l1. induction a as [|y a IH]; intros l1 H; cbn in *.
  - right. exists l1. auto.
  - destruct l1 as [|z l1]; cbn in H; injection H as -> H.
    + left. exists a. reflexivity.
    + destruct (IH _ H) as [(k & ->)|(k & -> & ->)]; [left|right]; exists k; auto.
Qed.

Lemma sends_app Q L l : sends_ok Q L ->
  (forall l1 p op l2, l = (l1 ++ BSent (RPool p op) :: l2)%list -> Q (L ++ l1)%list p) -> sends_ok Q (L ++ l).
Proof.
  intros H1 H2 l1 p op l2 E. destruct (app_split _ _ _ _ _ E) as [(k & ->)|(k & -> & ->)].
  - eapply H1. reflexivity.
  - eapply H2. reflexivity.
Qed.

Lemma sends_none Q L l : sends_ok Q L -> (forall p op, ~ In (BSent (RPool p op)) l) -> sends_ok Q (L ++ l).
Proof.
  intros H1 H2. apply sends_app; [exact H1|]. intros l1 p op l2 ->. exfalso. eapply H2.
  apply in_or_app. right. left. reflexivity.
Qed.

Definition used_ok (wl : account_id) (L : list obs) (p : account_id) : Prop :=
  in_use None L = Some p /\ In (BAnswered (RIsWhitelisted wl p) (ABool true)) L.

Record pools_ok (wl : account_id) (w : world) (L : list obs) : Prop := mkPools {
  q_wl : staking_pool_whitelist_account_id (w_lockup w) = wl;
  q_pool : get_staking_pool_account_id (w_lockup w) = in_use None L;
  q_in : forall p, in_use None L = Some p -> In (BAnswered (RIsWhitelisted wl p) (ABool true)) L;
  q_msgs : Forall (pool_msgs wl L) (w_msgs w);
  q_sends : sends_ok (used_ok wl) L
}.

Lemma pool_msgs_more wl L l ms : Forall (pool_msgs wl L) ms -> Forall (pool_msgs wl (L ++ l)) ms.
Proof.
  intros H. eapply Forall_impl; [|exact H]. intros m. unfold pool_msgs.
  destruct m as [[]|cb r|]; auto. destruct cb; auto. destruct r as [[| [] | |]|]; auto. intros Hin. apply in_or_app. auto.
Qed.

Lemma tokens_pool_msgs wl L a : Forall (pool_msgs wl L) (tokens a).
Proof. unfold tokens. destruct (a =? 0); repeat constructor. Qed.

Lemma execute_pools wl w L r cb o pools new l :
  msg_ok (w_lockup w) (pool_total (w_pools w) (w_lockup w)) (MCall r cb) ->
  pool_msgs wl L (MCall r cb) -> execute w r cb o = Some (pools, new, l) ->
  Forall (pool_msgs wl (L ++ l)) new /\ in_use None (L ++ l) = in_use None L /\
  (forall p op, ~ In (BSent (RPool p op)) l).
Proof.
  intros Hm Hp Hx. destruct r as [wl' p|poll|p op|rc a|pk]; cbn [msg_ok] in Hm.
  - subst cb. cbn in Hp. subst wl'. destruct o; cbn in Hx; try discriminate; injection Hx as <- <- <-.
    + rewrite app_nil_r. split; [|split; [reflexivity|intros ? ? []]]. repeat constructor.
    + split; [|split].
      * repeat constructor. cbn. destruct b; auto. apply in_or_app. right. left. reflexivity.
      * rewrite in_use_app. reflexivity.
      * intros q op [H|[]]. discriminate.
  - subst cb. destruct o; cbn in Hx; try discriminate; injection Hx as <- <- <-.
    + rewrite app_nil_r. split; [|split; [reflexivity|intros ? ? []]]. repeat constructor.
    + split; [|split]; [repeat constructor|rewrite in_use_app; reflexivity|]. intros q op [H|[]]. discriminate.
  - destruct Hm as (d & cb' & _ & -> & Hcb & _).
    assert (E : forall r L, pool_msgs wl L (MBack cb' r)).
    { intros r L'. destruct op, cb'; cbn in Hcb; try discriminate; exact I. }
    destruct o; cbn [execute] in Hx; try discriminate.
    + injection Hx as <- <- <-. rewrite app_nil_r. split; [|split; [reflexivity|intros ? ? []]].
      apply Forall_app. split; [apply tokens_pool_msgs|]. repeat constructor. apply E.
    + destruct (is_view op); [|discriminate]. injection Hx as <- <- <-. rewrite app_nil_r. split; [|split; [reflexivity|intros ? ? []]].
      repeat constructor. apply E.
    + destruct (pool_keeps _ _ _); [|discriminate]. injection Hx as <- <- <-. rewrite app_nil_r. split; [|split; [reflexivity|intros ? ? []]].
      apply Forall_app. split; [destruct op; try constructor; apply tokens_pool_msgs|]. repeat constructor. apply E.
  - destruct o; cbn [execute] in Hx; try discriminate; injection Hx as <- <- <-.
    + rewrite app_nil_r. split; [|split; [reflexivity|intros ? ? []]].
      apply Forall_app. split; [apply tokens_pool_msgs|].
      destruct Hm as [->|[-> _]]; repeat constructor.
    + split; [|split]; [destruct Hm as [->|[-> _]]; repeat constructor| |].
      * rewrite in_use_app. destruct cb; reflexivity.
      * intros q op [H|[]]. discriminate.
  - subst cb. destruct o; cbn in Hx; try discriminate; injection Hx as <- <- <-.
    rewrite app_nil_r. split; [|split; [reflexivity|intros ? ? []]]. constructor.
Qed.

(** A call or callback, seen in the log. *)
Lemma pools_effect wl w L c m s p b msgs : pools_ok wl w L ->
  effect c (w_lockup w) m s p ->
  in_use None (L ++ [b]) = pool_after (w_lockup w) m ->
  (match b with BSent _ => False | _ => True end) ->
  (forall q, m = OnWhitelistIsWhitelisted q -> In (BAnswered (RIsWhitelisted wl q) (ABool true)) L) ->
  Forall (pool_msgs wl L) msgs ->
  pools_ok wl (after w s msgs p) (L ++ b :: sent p).
Proof.
  intros [Q1 Q2 Q3 Q4 Q5] He Eu Hb Hq Hms. destruct (effect_pool _ _ _ _ _ He) as (E1 & E2 & E3 & E4).
  assert (EL : (L ++ b :: sent p = (L ++ [b]) ++ sent p)%list) by (rewrite <- app_assoc; reflexivity).
  assert (Es : forall o, in_use o (sent p) = o) by (intros o; destruct p; reflexivity).
  assert (HinL : forall q, pool_after (w_lockup w) m = Some q -> In (BAnswered (RIsWhitelisted wl q) (ABool true)) L).
  { intros q Hp. destruct m; cbn in Hp; try discriminate; try (apply Q3; congruence).
    injection Hp as ->. now apply Hq. }
  split; unfold after; wsimpl.
  - congruence.
  - rewrite E1, EL, in_use_app, Es, Eu. reflexivity.
  - intros q. rewrite EL, in_use_app, Es, Eu. intros Hp. apply in_or_app. left. apply in_or_app. left. auto.
  - apply Forall_app. split; [now apply pool_msgs_more|]. destruct p as [pr|]; cbn [posted]; [constructor; [|constructor]|constructor].
    specialize (E3 pr eq_refl). cbn. destruct (p_remote pr); auto. congruence.
  - rewrite EL. apply sends_app.
    + apply sends_none; [exact Q5|]. intros q op [H|[]]. subst b. exact Hb.
    + intros l1 q op l2 E. destruct p as [pr|]; cbn in E.
      * destruct l1 as [|x l1]; cbn in E; injection E as Er E; [|destruct l1; discriminate].
        specialize (E3 pr eq_refl). rewrite Er in E3. rewrite app_nil_r. split.
        -- rewrite Eu. apply (proj2 E3).
        -- apply in_or_app. left. apply HinL. apply (proj2 E3).
      * destruct l1; discriminate.
Qed.

Lemma pools_same wl w L f B t :
  pools_ok wl w L -> pools_ok wl (mkWorld (w_lockup w) B t f (w_msgs w)) L.
Proof. intros [Q1 Q2 Q3 Q4 Q5]. split; auto. Qed.

Lemma pools_step wl g w L ev : inv w -> pools_ok wl w L ->
  pools_ok wl (step g w ev) (L ++ snd (step_obs g w ev)).
Proof.
  intros HI HQ. generalize (step_move g w ev HI).
  generalize (step g w ev) (snd (step_obs g w ev)). intros w' l Hmv.
  inversion Hmv; subst; rewrite ?app_nil_r; try (apply pools_same; exact HQ).
  - exact HQ.
  - assert (Eu : in_use None (L ++ [BCalled who m false]) = in_use None L).
    { rewrite in_use_app. destruct m; reflexivity. }
    destruct HQ as [Q1 Q2 Q3 Q4 Q5]. split; rewrite ?Eu; auto.
    + intros p Hp. apply in_or_app. auto.
    + now apply pool_msgs_more.
    + apply sends_none; [exact Q5|]. intros p op [H1|[]]. discriminate.
  - eapply pools_effect; eauto.
    + rewrite in_use_app, <- (q_pool _ _ _ HQ).
      destruct m; try reflexivity. exfalso.
      match goal with H : effect _ _ _ _ _ |- _ => inversion H; subst;
        cbn [call_ctx ctx_predecessor ctx_current] in *; try congruence;
        try match goal with H : _ \/ _ |- _ => destruct H; discriminate end end; discriminate.
    + intros q ->. exfalso.
      match goal with H : effect _ _ _ _ _ |- _ => inversion H; subst;
        cbn [call_ctx ctx_predecessor ctx_current] in *; try congruence;
        try match goal with H : _ \/ _ |- _ => destruct H; discriminate end end; discriminate.
    + exact (q_msgs _ _ _ HQ).
  - match goal with H : nth_error _ _ = _ |- _ => rename H into Hn end.
    destruct (Forall_drop _ _ _ _ (q_msgs _ _ _ HQ) Hn) as [Hpm Hr].
    match goal with H : execute _ _ _ _ = _ |- _ =>
      destruct (execute_pools _ _ _ _ _ _ _ _ _ (msg_at _ _ _ HI Hn) Hpm H) as (E1 & E2 & E3) end.
    destruct HQ as [Q1 Q2 Q3 Q4 Q5]. split; wsimpl; rewrite ?E2; auto.
    + intros p Hp. apply in_or_app. auto.
    + apply Forall_app. split; [now apply pool_msgs_more|exact E1].
    + apply sends_none; assumption.
  - match goal with H : nth_error _ _ = _ |- _ => rename H into Hn end.
    destruct (Forall_drop _ _ _ _ (q_msgs _ _ _ HQ) Hn) as [_ Hr].
    destruct HQ as [Q1 Q2 Q3 Q4 Q5]. split; wsimpl; auto.
  - match goal with H : nth_error _ _ = _ |- _ => rename H into Hn end.
    destruct (Forall_drop _ _ _ _ (q_msgs _ _ _ HQ) Hn) as [_ Hr].
    assert (Eu : in_use None (L ++ [BCallback cb r false]) = in_use None L).
    { rewrite in_use_app. destruct cb, r as [[| [] | |]|]; reflexivity. }
    destruct HQ as [Q1 Q2 Q3 Q4 Q5]. split; wsimpl; rewrite ?Eu; auto.
    + intros p Hp. apply in_or_app. auto.
    + now apply pool_msgs_more.
    + apply sends_none; [exact Q5|]. intros p op [H1|[]]. discriminate.
  - match goal with H : nth_error _ _ = _ |- _ => rename H into Hn end.
    destruct (Forall_drop _ _ _ _ (q_msgs _ _ _ HQ) Hn) as [Hpm Hr].
    match goal with H : effect _ _ _ _ _ |- _ => rename H into He end.
    destruct (effect_pool _ _ _ _ _ He) as (_ & _ & _ & E4).
    eapply pools_effect; eauto.
    + rewrite in_use_app, <- (q_pool _ _ _ HQ).
      pose proof (msg_at _ _ _ HI Hn) as Hm.
      destruct cb; try reflexivity; try contradiction.
      destruct (E4 _ eq_refl) as [l El]. cbn in El. injection El as -> _. reflexivity.
    + intros q ->. destruct (E4 _ eq_refl) as [l El]. cbn in El. injection El as -> _. exact Hpm.
Qed.

Lemma pools_start g w : starts g w -> pools_ok (staking_pool_whitelist_account_id (w_lockup w)) w [].
Proof.
  intros H. destruct (start_idle g w H) as [H1 H2]. split; auto.
  - unfold get_staking_pool_account_id. rewrite H2. reflexivity.
  - discriminate.
  - rewrite H1. constructor.
  - intros l1 p op l2 E. destruct l1; discriminate.
Qed.

Lemma only_whitelisted g w0 evs p op l1 l2 :
  starts g w0 -> log g w0 evs = (l1 ++ BSent (RPool p op) :: l2)%list ->
  in_use None l1 = Some p /\
  In (BAnswered (RIsWhitelisted (staking_pool_whitelist_account_id (w_lockup w0)) p) (ABool true)) l1.
Proof.
  intros H0 HL. pose proof (inv_start g w0 H0) as I0.
  pose proof (hist_ind _ g (pools_step _ g) w0 evs [] I0 (pools_start g w0 H0)) as HQ. cbn [app] in HQ.
  exact (q_sends _ _ _ HQ _ _ _ _ HL).
Qed.

(** * Transfers *)
Lemma effect_transfers c s m s' p : effect c s m s' p ->
  transfers_information (lockup_information s') = transfers_information (lockup_information s) \/
  are_transfers_enabled s = false /\ m = OnGetResultFromTransferPoll /\
  exists t l, ctx_results c = Some (APollResult (Some t)) :: l /\
    transfers_information (lockup_information s') = TransfersEnabled t.
Proof.
  intros He. inversion He; subst; auto.
  - right. split; [assumption|]. split; [reflexivity|]. eauto.
  - left. destruct (_ <? _); reflexivity.
Qed.

Lemma transfers_step g w ev : inv w ->
  transfers_information (lockup_information (w_lockup (step g w ev))) =
    transfers_information (lockup_information (w_lockup w)) \/
  are_transfers_enabled (w_lockup w) = false /\
  exists n t, ev = ERun n /\
    nth_error (w_msgs w) n = Some (MBack OnGetResultFromTransferPoll (Some (APollResult (Some t)))) /\
    transfers_information (lockup_information (w_lockup (step g w ev))) = TransfersEnabled t.
Proof.
  intros HI. generalize (step_move g w ev HI).
  generalize (step g w ev) (snd (step_obs g w ev)). intros w' l Hmv.
  inversion Hmv; subst; auto; unfold after; wsimpl;
  match goal with H : effect _ _ _ _ _ |- _ => destruct (effect_transfers _ _ _ _ _ H)
    as [E|(E1 & E2 & t & l & E3 & E4)] end; auto; subst.
  - discriminate E3.
  - right. split; [exact E1|]. exists n, t. split; [reflexivity|]. cbn in E3. injection E3 as -> _. auto.
Qed.

Lemma transfers_stay g w evs t : inv w ->
  transfers_information (lockup_information (w_lockup w)) = TransfersEnabled t ->
  transfers_information (lockup_information (w_lockup (final g w evs))) = TransfersEnabled t.
Proof.
  revert w. induction evs as [|ev evs IH]; intros w HI H; [exact H|]. cbn. apply IH; [now apply inv_step|].
  destruct (transfers_step g w ev HI) as [E|[E _]]; [congruence|].
  unfold are_transfers_enabled in E. rewrite H in E. discriminate.
Qed.

Definition poll_msgs (poll : account_id) (L : list obs) (m : msg) : Prop :=
  match m with
  | MCall (RGetResult p) _ => p = poll
  | MBack OnGetResultFromTransferPoll (Some (APollResult x)) => In (BAnswered (RGetResult poll) (APollResult x)) L
  | _ => True
  end.
Lemma poll_msgs_more poll L l ms : Forall (poll_msgs poll L) ms -> Forall (poll_msgs poll (L ++ l)) ms.
Proof.
  intros H. eapply Forall_impl; [|exact H]. intros m. unfold poll_msgs.
  destruct m as [[]|cb r|]; auto. destruct cb; auto. destruct r as [[]|]; auto. intros Hin. apply in_or_app. auto.
Qed.

Definition poll_ok (poll : account_id) (w : world) (L : list obs) : Prop :=
  match transfers_information (lockup_information (w_lockup w)) with
  | TransfersDisabled p => p = poll
  | TransfersEnabled t => In (BAnswered (RGetResult poll) (APollResult (Some t))) L
  end /\ Forall (poll_msgs poll L) (w_msgs w).

Lemma tokens_poll_msgs poll L a : Forall (poll_msgs poll L) (tokens a).
Proof. unfold tokens. destruct (a =? 0); repeat constructor. Qed.

Lemma execute_poll poll w L r cb o pools new l :
  msg_ok (w_lockup w) (pool_total (w_pools w) (w_lockup w)) (MCall r cb) ->
  poll_msgs poll L (MCall r cb) -> execute w r cb o = Some (pools, new, l) ->
  Forall (poll_msgs poll (L ++ l)) new.
Proof.
  intros Hm Hp Hx. destruct r as [wl' p|pl|p op|rc a|pk]; cbn [msg_ok] in Hm.
  - subst cb. destruct o; cbn in Hx; try discriminate; injection Hx as <- <- <-; repeat constructor.
  - subst cb. cbn in Hp. subst pl. destruct o; cbn in Hx; try discriminate; injection Hx as <- <- <-;
    repeat constructor. cbn. apply in_or_app. right. left. reflexivity.
  - destruct Hm as (d & cb' & _ & -> & Hcb & _).
    assert (E : forall r L, poll_msgs poll L (MBack cb' r)).
    { intros r L'. destruct op, cb'; cbn in Hcb; try discriminate; exact I. }
    destruct o; cbn [execute] in Hx; try discriminate.
    + injection Hx as <- <- <-. apply Forall_app. split; [apply tokens_poll_msgs|]. repeat constructor. apply E.
    + destruct (is_view op); [|discriminate]. injection Hx as <- <- <-. repeat constructor. apply E.
    + destruct (pool_keeps _ _ _); [|discriminate]. injection Hx as <- <- <-.
      apply Forall_app. split; [destruct op; try constructor; apply tokens_poll_msgs|]. repeat constructor. apply E.
  - destruct o; cbn [execute] in Hx; try discriminate; injection Hx as <- <- <-.
    + apply Forall_app. split; [apply tokens_poll_msgs|]. destruct Hm as [->|[-> _]]; repeat constructor.
    + destruct Hm as [->|[-> _]]; repeat constructor.
  - subst cb. destruct o; cbn in Hx; try discriminate; injection Hx as <- <- <-. constructor.
Qed.

Lemma poll_step poll g w L ev : inv w -> poll_ok poll w L -> poll_ok poll (step g w ev) (L ++ snd (step_obs g w ev)).
Proof.
  intros HI [HT HM].
  assert (HT' : match transfers_information (lockup_information (w_lockup (step g w ev))) with
    | TransfersDisabled p => p = poll
    | TransfersEnabled t => In (BAnswered (RGetResult poll) (APollResult (Some t))) L
    end).
  { destruct (transfers_step g w ev HI) as [E|(_ & n & t & -> & Hn & E)]; rewrite E; [exact HT|].
    exact (proj1 (Forall_drop _ _ _ _ HM Hn)). }
  split.
  { destruct (transfers_information (lockup_information (w_lockup (step g w ev)))); [|exact HT']. apply in_or_app. auto. }
  clear HT'. generalize (step_move g w ev HI).
  generalize (step g w ev) (snd (step_obs g w ev)). intros w' l Hmv.
  assert (Hpost : forall c m s p l', effect c (w_lockup w) m s p -> Forall (poll_msgs poll (L ++ l')) (posted p)).
  { intros c m s p l' He. destruct (effect_pool _ _ _ _ _ He) as (_ & _ & E3 & _).
    destruct p as [pr|]; cbn [posted]; [constructor; [|constructor]|constructor]. specialize (E3 pr eq_refl). cbn. destruct (p_remote pr); auto.
    rewrite E3 in HT. exact HT. }
  inversion Hmv; subst; unfold after; wsimpl; rewrite ?app_nil_r; auto.
  - now apply poll_msgs_more.
  - apply Forall_app. split; [now apply poll_msgs_more|]. eapply Hpost; eauto.
  - match goal with H : nth_error _ _ = _ |- _ => rename H into Hn end.
    destruct (Forall_drop _ _ _ _ HM Hn) as [Hpm Hr]. apply Forall_app. split; [now apply poll_msgs_more|].
    eapply execute_poll; eauto. apply (msg_at _ _ _ HI Hn).
  - match goal with H : nth_error _ _ = _ |- _ => exact (proj2 (Forall_drop _ _ _ _ HM H)) end.
  - match goal with H : nth_error _ _ = _ |- _ => apply poll_msgs_more; exact (proj2 (Forall_drop _ _ _ _ HM H)) end.
  - match goal with H : nth_error _ _ = _ |- _ => destruct (Forall_drop _ _ _ _ HM H) as [_ Hr] end.
    apply Forall_app. split; [now apply poll_msgs_more|]. eapply Hpost; eauto.
Qed.

Lemma enabled_by_poll g w0 evs poll t :
  starts g w0 -> transfers_information (lockup_information (w_lockup w0)) = TransfersDisabled poll ->
  transfers_information (lockup_information (w_lockup (final g w0 evs))) = TransfersEnabled t ->
  In (BAnswered (RGetResult poll) (APollResult (Some t))) (log g w0 evs).
Proof.
  intros H0 Hd He. pose proof (inv_start g w0 H0) as I0.
  assert (H1 : poll_ok poll w0 []).
  { split; [rewrite Hd; reflexivity|]. rewrite (proj1 (start_idle g w0 H0)). constructor. }
  pose proof (hist_ind _ g (poll_step poll g) w0 evs [] I0 H1) as [HQ _]. cbn [app] in HQ.
  rewrite He in HQ. exact HQ.
Qed.
