(** What one event does to the lockup world, for the invariants that build on [inv]. *)
From Coq Require Import NArith List Bool String Lia.
From Verif Require Import Prelude PreludeFacts MapFacts LockupModel LockupWorld LockupSpec LockupEffects LockupInv.
Import ListNotations.
Open Scope N_scope.

Definition call_ctx (g : genesis) (w : world) (who : account_id) : ctx :=
  mkCtx (g_self g) who 0 (w_time w) (w_balance w) [] (g_hash g).
Definition back_ctx (g : genesis) (w : world) (r : option answer) : ctx :=
  mkCtx (g_self g) (g_self g) 0 (w_time w) (w_balance w) [r] (g_hash g).

Definition spent (p : option promise) : N := match p with Some p => attached_to (p_remote p) | None => 0 end.
Definition posted (p : option promise) : list msg :=
  match p with Some p => [MCall (p_remote p) (option_map fst (p_then p))] | None => [] end.
Definition sent (p : option promise) : list obs :=
  match p with Some p => [BSent (p_remote p)] | None => [] end.
(** The world after a call that leads to the contract state [s] and sends [p]. *)
Definition after (w : world) (s : contract) (msgs : list msg) (p : option promise) : world :=
  mkWorld s (w_balance w - spent p) (w_time w) (w_pools w) (msgs ++ posted p).

(** Callbacks that may fail. *)
Definition may_fail (cb : call) (r : option answer) : bool :=
  match cb with
  | OnWhitelistIsWhitelisted _ | OnGetResultFromTransferPoll => true
  | _ => failed_view cb r
  end.

Inductive move (g : genesis) (w : world) : event -> world -> list obs -> Prop :=
| M_stay ev : move g w ev w []
| M_refused who att m : who <> g_self g -> move g w (ECall who att m) w [BCalled who m false]
| M_time t : w_time w <= t -> t < U64_BOUND ->
    move g w (ETime t) (mkWorld (w_lockup w) (w_balance w) t (w_pools w) (w_msgs w)) []
| M_income x : move g w (EIncome x) (mkWorld (w_lockup w) (w_balance w + x) (w_time w) (w_pools w) (w_msgs w)) []
| M_growth p s u : fst (w_pools w p) + snd (w_pools w p) <= s + u -> s + u < U128_BOUND ->
    move g w (EGrowth p s u)
      (mkWorld (w_lockup w) (w_balance w) (w_time w) (set_pool (w_pools w) p (s, u)) (w_msgs w)) []
| M_call who m s p : who <> g_self g -> exec (call_ctx g w who) (w_lockup w) m = Ok (s, p) ->
    effect (call_ctx g w who) (w_lockup w) m s p -> spent p <= w_balance w ->
    move g w (ECall who 0 m) (after w s (w_msgs w) p) (BCalled who m true :: sent p)
| M_deliver n o r cb pools new l : nth_error (w_msgs w) n = Some (MCall r cb) ->
    execute w r cb o = Some (pools, new, l) ->
    move g w (EDeliver n o)
      (mkWorld (w_lockup w) (w_balance w) (w_time w) pools (drop_nth n (w_msgs w) ++ new)) l
| M_tokens n a : nth_error (w_msgs w) n = Some (MTokens a) ->
    move g w (ERun n) (mkWorld (w_lockup w) (w_balance w + a) (w_time w) (w_pools w) (drop_nth n (w_msgs w))) []
| M_lost n cb r : nth_error (w_msgs w) n = Some (MBack cb r) -> may_fail cb r = true ->
    move g w (ERun n) (mkWorld (w_lockup w) (w_balance w) (w_time w) (w_pools w) (drop_nth n (w_msgs w)))
      [BCallback cb r false]
| M_back n cb r s p : nth_error (w_msgs w) n = Some (MBack cb r) ->
    effect (back_ctx g w r) (w_lockup w) cb s p -> spent p <= w_balance w ->
    move g w (ERun n) (after w s (drop_nth n (w_msgs w)) p) (BCallback cb r true :: sent p).

Lemma exec_attached c s m o : exec c s m = Ok o -> ctx_attached c = 0.
Proof. unfold exec. intros H. inv_all. assumption. Qed.

Lemma run_after g w who att res m w' l :
  run g w who att res m = (Some w', l) ->
  att = 0 /\ exists s p,
    let c := mkCtx (g_self g) who 0 (w_time w) (w_balance w) res (g_hash g) in
    exec c (w_lockup w) m = Ok (s, p) /\ effect c (w_lockup w) m s p /\ spent p <= w_balance w /\
    w' = after w s (w_msgs w) p /\ l = sent p.
Proof.
  unfold run. intros H.
  match type of H with context[exec ?c _ _] => set (c0 := c) in * end.
  destruct (exec c0 (w_lockup w) m) as [[s p]|] eqn:E; [|discriminate].
  pose proof (exec_attached _ _ _ _ E) as Ha. subst c0. cbn in Ha. subst att. rewrite N.add_0_r in E.
  split; [reflexivity|]. exists s, p. cbv zeta. split; [exact E|]. split; [now apply exec_effect|].
  unfold after, spent, posted, sent. destruct p as [p|].
  - destruct (N.leb_spec (attached_to (p_remote p)) (w_balance w)); [|discriminate].
    injection H as <- <-. auto.
  - injection H as <- <-. rewrite N.sub_0_r, app_nil_r. split; [lia|]. auto.
Qed.

Lemma callback_fails g w n cb r l :
  inv w -> nth_error (w_msgs w) n = Some (MBack cb r) ->
  run g (mkWorld (w_lockup w) (w_balance w) (w_time w) (w_pools w) (drop_nth n (w_msgs w)))
    (g_self g) 0 [r] cb = (None, l) -> may_fail cb r = true.
Proof.
  intros HI Hn. set (w1 := mkWorld _ _ _ _ _). intros Hr.
  destruct (Forall_drop _ _ _ _ (i_msgs w HI) Hn) as [Hmm Hrest].
  destruct (staking_callback cb) eqn:Hc.
  - destruct (failed_view cb r) eqn:Hfv.
    { unfold may_fail. destruct cb; auto. }
    exfalso. cbn [msg_ok] in Hmm. rewrite Hc in Hmm. destruct Hmm as (p & d & Hst & Hpk & Hans).
    assert (Hlt : minus (MBack cb r) = 0 -> d + plus (MBack cb r) < U128_BOUND).
    { intros E. pose proof (i_one w HI). pose proof (i_pool w HI) as Hp. pose proof (i_pools w HI p) as Hps.
      unfold pool_total, get_known_deposited_balance, get_staking_pool_account_id in Hp. rewrite Hst in Hp. cbn in Hp.
      pose proof (total_drop scnt _ _ _ Hn) as D1.
      pose proof (total_drop plus _ _ _ Hn) as D3. pose proof (total_drop minus _ _ _ Hn) as D4.
      assert (E1 : scnt (MBack cb r) = 1) by (unfold scnt; cbn; rewrite Hc; reflexivity).
      destruct (no_staking (drop_nth n (w_msgs w)) ltac:(lia)) as [Z1 Z2].
      lia. }
    destruct (staking_callback_runs g w1 cb r p d _ Hc Hfv Hst Hpk Hans Hlt) as (s' & o & He & Ho).
    destruct (run_of_exec g w1 r cb s' o He Ho) as (w' & l' & Hrun). congruence.
  - destruct cb; try discriminate Hc; try contradiction; try reflexivity.
    exfalso. cbn in Hmm. destruct (payment_callback_runs g w1 amount receiver r Hmm (i_sum w HI)) as (s' & He).
    destruct (run_of_exec g w1 r _ s' None He I) as (w' & l' & Hrun). congruence.
Qed.

Lemma step_move g w ev : inv w -> move g w ev (step g w ev) (snd (step_obs g w ev)).
Proof.
  intros HI. unfold step. destruct (step_obs g w ev) as [w' l] eqn:E. cbn [fst snd].
  destruct ev as [t|x|p s u|who att m|n o|n]; cbn [step_obs] in E.
  - destruct ((w_time w <=? t) && (t <? U64_BOUND)) eqn:Et; injection E as <- <-; [|constructor].
    norm_bool. now constructor.
  - injection E as <- <-. constructor.
  - destruct (_ && _) eqn:Et; injection E as <- <-; [|constructor]. norm_bool. now constructor.
  - destruct (String.eqb_spec who (g_self g)); [injection E as <- <-; constructor|].
    destruct (run g w who att [] m) as [[w1|] l1] eqn:Hr; injection E as <- <-.
    + apply run_after in Hr. destruct Hr as (-> & s & p & Hx & He & Hle & -> & ->). now constructor.
    + now constructor.
  - destruct (nth_error (w_msgs w) n) as [[r cb|cb r|a]|] eqn:Hn; try (injection E as <- <-; constructor).
    destruct (execute w r cb o) as [[[pools new] l1]|] eqn:Hx; injection E as <- <-; [|constructor].
    econstructor; eauto.
  - destruct (nth_error (w_msgs w) n) as [[r cb|cb r|a]|] eqn:Hn; try (injection E as <- <-; constructor).
    + destruct (run g _ (g_self g) 0 [r] cb) as [[w1|] l1] eqn:Hr; injection E as <- <-.
      * apply run_after in Hr. destruct Hr as (_ & s & p & _ & He & Hle & -> & ->). wsimpl.
        exact (M_back g w n cb r s p Hn He Hle).
      * eapply M_lost; [exact Hn|]. eapply callback_fails; eauto.
    + assumption.
Qed.

(** What is known about the message a callback answers. *)
Lemma msg_at w n m : inv w -> nth_error (w_msgs w) n = Some m ->
  msg_ok (w_lockup w) (pool_total (w_pools w) (w_lockup w)) m.
Proof. intros HI Hn. exact (proj1 (Forall_drop _ _ _ _ (i_msgs w HI) Hn)). Qed.

(** A call that the contract accepts. *)
Lemma call_obs g w who m s p :
  who <> g_self g -> exec (call_ctx g w who) (w_lockup w) m = Ok (s, p) -> spent p <= w_balance w ->
  step_obs g w (ECall who 0 m) = (after w s (w_msgs w) p, BCalled who m true :: sent p).
Proof.
  intros Hw Hx Hp. unfold step_obs. destruct (String.eqb_spec who (g_self g)); [contradiction|].
  unfold run. rewrite N.add_0_r. fold (call_ctx g w who). rewrite Hx.
  unfold after, spent, posted, sent in *. destruct p as [p|].
  - apply N.leb_le in Hp. rewrite Hp. reflexivity.
  - rewrite N.sub_0_r, app_nil_r. reflexivity.
Qed.
