(** The lockup and the pool of this repository: what is outstanding can always be delivered, the owner can leave
    the pool, the foundation can finish a termination. *)
From Coq Require Import NArith List Bool String Lia.
From Verif Require Import Prelude PreludeFacts MapFacts LockupModel LockupWorld LockupSpec LockupMath LockupEffects
  LockupInv LockupMoves LockupLocked LockupBusy LockupTerm LockupLive LockupFacts LockupPoolSpec LockupPool.
From Verif Require StakingPoolModel StakingPoolSpec StakingPoolProofs StakingPoolHistory StakingPoolFacts
  StakingPoolCustomer StakingPoolAccept ShareMath.
Import ListNotations.
Open Scope N_scope.

Module SA := StakingPoolAccept.
Notation macct p u := (SP.acct_of (SM.accounts p) u).

(** * The pool, as a customer sees it *)
Definition ripens (pw : SS.world) (u : account_id) : N := SM.unstaked_available_epoch_height (macct (SS.w_pool pw) u).

Lemma ripens_step S0 k pid pw u att l rs m pw' ps :
  SH.winv S0 k pw -> SS.step pid pw (SS.EvCall u att l rs m) = (pw', Some ps) ->
  SS.w_epoch pw' = SS.w_epoch pw /\
  (ripens pw u <= SS.w_epoch pw + 4 -> ripens pw' u <= SS.w_epoch pw' + 4) /\
  (SS.is_unstake_call m = false -> ripens pw u <= SS.w_epoch pw -> ripens pw' u <= SS.w_epoch pw').
Proof.
  intros W H. destruct (SF.step_avail _ _ _ _ _ _ _ _ _ _ _ W H) as (E & A & B & C).
  unfold ripens. rewrite E. change SM.NUM_EPOCHS_TO_UNLOCK with 4 in A.
  split; [reflexivity|]. destruct (SS.is_unstake_call m).
  - rewrite A by reflexivity. split; [lia|discriminate].
  - destruct (SS.is_withdraw_call m).
    + destruct (B eq_refl) as [B1 [B2|B2]]; rewrite B2; split; lia.
    + rewrite C by reflexivity. split; lia.
Qed.

Lemma unstake_all_empties S0 k pid pw u l rs pw' ps :
  SH.winv S0 k pw -> SS.step pid pw (SS.EvCall u 0 l rs SM.UnstakeAll) = (pw', Some ps) ->
  SM.stake_shares (macct (SS.w_pool pw') u) = 0.
Proof.
  intros W ST. apply SH.step_call_some in ST. destruct ST as (_ & HL & p' & E & _ & ->). cbn [SS.w_pool].
  destruct (SF.exec_split _ _ _ _ _ E eq_refl) as (_ & _ & p1 & need & HP & n & HB & _).
  destruct (SF.ping_winv _ _ pw _ _ _ W HP) as (W1 & PL & _ & _ & F1); [cbn; lia|reflexivity|].
  pose proof (SH.wi_pool _ _ _ W1) as I1. cbn [SS.w_pool] in I1. cbn [SM.ctx_predecessor SH.call_ctx] in HB.
  pose proof (SP.unstake_inv _ _ _ _ _ _ I1 HB) as (I' & _ & _ & _ & _ & _ & HA & _ & F).
  destruct (F u) as (FS & FU & _). cbn [SM.ctx_predecessor SH.call_ctx] in FU, FS.
  rewrite keqb_refl in FU, FS. destruct HB as (HT & HS & _ & Hn & _).
  rewrite ShareMath.shares_of_value in Hn; auto; [|apply I1]. lia.
Qed.

Lemma withdraw_takes S0 k pid pw u l rs a pw' ps :
  SH.winv S0 k pw -> u <> SM.owner_id (SS.w_pool pw) ->
  SS.step pid pw (SS.EvCall u 0 l rs (SM.Withdraw a)) = (pw', Some ps) ->
  SM.stake_shares (macct (SS.w_pool pw') u) = SM.stake_shares (macct (SS.w_pool pw) u) /\
  SM.unstaked (macct (SS.w_pool pw') u) + a = SM.unstaked (macct (SS.w_pool pw) u).
Proof.
  intros W NO ST. apply SH.step_call_some in ST. destruct ST as (_ & HL & p' & E & _ & ->). cbn [SS.w_pool].
  destruct (SF.exec_split _ _ _ _ _ E eq_refl) as (_ & _ & p1 & need & HP & HB & _).
  destruct (SF.ping_winv _ _ pw _ _ _ W HP) as (W1 & _ & _ & _ & F1); [cbn; lia|reflexivity|].
  pose proof (SH.wi_pool _ _ _ W1) as I1. cbn [SS.w_pool] in I1.
  pose proof (SP.withdraw_inv _ _ _ _ _ I1 HB) as (_ & _ & _ & _ & _ & F).
  destruct (F u) as (FS & FU & _). cbn [SM.ctx_predecessor SH.call_ctx] in FU. rewrite keqb_refl in FU.
  destruct (F1 u) as (_ & _ & _ & F1u). rewrite (F1u NO) in FS, FU. auto.
Qed.

(** What an accepted call sends away goes to its caller. *)
Lemma call_sends S0 k pid pw u att l rs m pw' ps :
  SH.winv S0 k pw -> SS.step pid pw (SS.EvCall u att l rs m) = (pw', Some ps) ->
  SS.w_total pw' + SS.sent_to u ps = SS.w_total pw + att.
Proof.
  intros W H. apply SH.step_call_some in H. destruct H as (_ & HL & p' & E & HO & ->).
  destruct (SP.exec_rel _ _ _ _ _ _ (SH.wi_pool _ _ _ W) E) as (r & _ & _ & HS & _).
  rewrite HS. cbn [SM.ctx_predecessor SH.call_ctx SS.w_total]. rewrite keqb_refl. lia.
Qed.

(** * The lockup's own steps *)
Definition stays (s s' : contract) : Prop :=
  owner_account_id s' = owner_account_id s /\
  (not_terminating s -> vesting_information s' = vesting_information s) /\
  (are_transfers_enabled s = true -> not_terminating s -> lockup_information s' = lockup_information s) /\
  (forall p, get_staking_pool_account_id s = Some p -> get_staking_pool_account_id s' = Some p).
Lemma stays_refl s : stays s s.
Proof. repeat split; auto. Qed.
Lemma stays_trans a b c : stays a b -> stays b c -> stays a c.
Proof.
  intros (A1 & A2 & A3 & A4) (B1 & B2 & B3 & B4). split; [congruence|]. split; [|split].
  - intros H. pose proof (A2 H) as E. rewrite <- E. apply B2. unfold not_terminating in *. now rewrite E.
  - intros He H. pose proof (A2 H) as E. pose proof (A3 He H) as E'. rewrite <- E'. apply B3.
    + unfold are_transfers_enabled in *. now rewrite E'.
    + unfold not_terminating in *. now rewrite E.
  - auto.
Qed.

(** Stake and unstake calls of the pool that what is outstanding may still lead to. *)
Definition to_stake (m : msg) : N :=
  match m with
  | MCall (RPool _ (PDepositAndStake _)) _ | MCall (RPool _ (PStake _)) _ | MCall (RPool _ (PUnstake _)) _
  | MCall (RPool _ PUnstakeAll) _ | MCall (RPool _ PGetStaked) _ | MBack OnGetAccountStakedBalanceToUnstake _ => 1
  | _ => 0
  end.
Lemma to_stake_scnt l : total to_stake l <= total scnt l.
Proof.
  induction l as [|m l IH]; cbn; [lia|]. fold (total to_stake l) (total scnt l).
  assert (to_stake m <= scnt m); [|lia].
  unfold to_stake, scnt. destruct m as [[| |p []| |] cb|[] r|a]; cbn; lia.
Qed.

Lemma carried_tokens a : total carried (tokens a) = a.
Proof. unfold tokens. destruct (N.eqb_spec a 0); cbn; lia. Qed.
Lemma flight_tokens a : total in_flight (tokens a) = a.
Proof. unfold tokens. destruct (N.eqb_spec a 0); cbn; lia. Qed.

(** A callback runs, or is lost. *)
Lemma back_stays g w n cb r s p :
  inv w -> nth_error (w_msgs w) n = Some (MBack cb r) -> effect (back_ctx g w r) (w_lockup w) cb s p ->
  stays (w_lockup w) s /\ total carried (posted p) = 0 /\ spent p = 0 /\ total in_flight (posted p) = 0 /\
  total to_stake (posted p) <= to_stake (MBack cb r).
Proof.
  intros HI Hn He. pose proof (msg_at _ _ _ HI Hn) as Hm. cbn [msg_ok] in Hm.
  assert (PS : forall st d p0 d0, staking_information (w_lockup w) = Some (mkStaking p0 st d) ->
     forall q, get_staking_pool_account_id (w_lockup w) = Some q ->
       option_map staking_pool_account_id (Some (mkStaking p0 Idle d0)) = Some q).
  { intros st d p0 d0 Hs q. unfold get_staking_pool_account_id. rewrite Hs. auto. }
  inversion He; subst; cbn [back_ctx ctx_predecessor ctx_current ctx_results] in *;
    try (destruct (staking_callback _) eqn:Hsc in Hm; cbn in Hsc; try discriminate Hsc; contradiction);
    try (exfalso; destruct cb; cbn in *; try discriminate; contradiction);
    cbn [staking_callback] in Hm;
    try (lazymatch type of Hm with paying _ _ => destruct Hm as (u9 & Hm & _) end);
    try (match goal with |- context [if ?a <? ?b then _ else _] => destruct (a <? b) end);
    (split; [|cbn [posted spent p_remote p_then option_map fst attached_to total fold_right carried in_flight to_stake];
              repeat split; try lia; try (destruct op; cbn in *; lia)]);
    unfold stays, with_pool, with_term, set_staking, set_vesting, set_lockup, set_foundation, get_staking_pool_account_id in *;
    cbn [owner_account_id vesting_information lockup_information staking_information option_map];
    (split; [try reflexivity|split; [|split]]).
  all: try (intros; reflexivity).
  all: try (intros; assumption).
  all: try (intros; exfalso; unfold not_terminating in *;
    match goal with H : vesting_information _ = VTerminating _, K : match vesting_information _ with _ => _ end |- _ => rewrite H in K; exact K end).
  all: try (intros; match goal with H : staking_information _ = _ |- _ => rewrite H in * end; cbn in *; first [assumption|discriminate]).
  all: try (intros; congruence).
Qed.

(** * Continuations in which one account acts *)
Section Path.
Variables (g : genesis) (pid : account_id) (answers : world -> remote -> outcome) (lk : system -> N) (S0 : N)
  (who : account_id) (methods : call -> bool).
Hypothesis Hposs : possible answers.
Hypothesis Hlk : unlocks g lk.
Hypothesis HS0 : S0 <> 0.
Hypothesis Hself : g_self g <> pid.

Definition epoch (sys : system) : N := SS.w_epoch (sy_pool sys).
Definition ripe (sys : system) : Prop := ripens (sy_pool sys) (g_self g) <= epoch sys.

(** The lockup uses the pool, and there is room for [j] more stake and unstake calls. *)
Record fit (j : N) (sys : system) : Prop := mkFit {
  f_inv : inv (sy_lockup sys);
  f_steady : steady (sy_lockup sys);
  f_tied : tied g pid sys;
  f_pool : exists k, SH.winv S0 k (sy_pool sys) /\ k + total to_stake (w_msgs (sy_lockup sys)) + j <= fund;
  f_wealth : wealth sys < U128_BOUND;
  f_ripe : ripens (sy_pool sys) (g_self g) <= epoch sys + 4;
  f_owner : SM.owner_id (SS.w_pool (sy_pool sys)) <> g_self g;
  f_sel : get_staking_pool_account_id (w_lockup (sy_lockup sys)) = Some pid
}.

Lemma fit_less j j' sys : j' <= j -> fit j sys -> fit j' sys.
Proof. intros L [? ? ? (k & W & K) ? ? ? ?]. split; auto. exists k. split; [exact W|lia]. Qed.

Lemma fit_total j sys : fit j sys -> SS.w_total (sy_pool sys) < U128_BOUND.
Proof. intros H. pose proof (f_wealth _ _ H). unfold wealth in *. lia. Qed.
Lemma fit_sound j sys : fit j sys -> exists k, sound S0 k (sy_pool sys).
Proof.
  intros H. destruct (f_pool _ _ H) as (k & W & K). exists k. split; [exact W|]. split; [lia|exact (fit_total _ _ H)].
Qed.

(** Every request to a pool is for [pid]. *)
Lemma fit_pid j sys n q op cb : fit j sys -> nth_error (w_msgs (sy_lockup sys)) n = Some (MCall (RPool q op) cb) ->
  q = pid /\ exists cb', cb = Some cb' /\ cb_matches op cb' = true /\ phase_ok (get_termination_status (w_lockup (sy_lockup sys))) cb' = true.
Proof.
  intros H Hn. destruct (msg_at _ _ _ (f_inv _ _ H) Hn) as (d & cb' & Hs & -> & Hm & Hp).
  pose proof (f_sel _ _ H) as E. unfold get_staking_pool_account_id in E. rewrite Hs in E. injection E as ->.
  split; [reflexivity|]. eauto.
Qed.

Lemma serve_raw j sys op cb rest :
  fit j sys -> w_msgs (sy_lockup sys) = MCall (RPool pid op) cb :: rest ->
  let sys' := sstep g pid sys (SServe 0 (lk sys)) in
  w_lockup (sy_lockup sys') = w_lockup (sy_lockup sys) /\
  wealth sys' = wealth sys /\ epoch sys' = epoch sys /\
  (exists k, SH.winv S0 k (sy_pool sys') /\ k + total to_stake (w_msgs (sy_lockup sys')) + j <= fund) /\
  SM.owner_id (SS.w_pool (sy_pool sys')) = SM.owner_id (SS.w_pool (sy_pool sys)) /\
  ripens (sy_pool sys') (g_self g) <= epoch sys' + 4 /\
  ((match op with PUnstake _ | PUnstakeAll => False | _ => True end) -> ripe sys -> ripe sys').
Proof.
  intros F Hw sys'. subst sys'.
  assert (Hn : nth_error (w_msgs (sy_lockup sys)) 0 = Some (MCall (RPool pid op) cb)) by (rewrite Hw; reflexivity).
  assert (HR : request pid (sy_lockup sys) 0 = Some (op, cb)).
  { unfold request. rewrite Hn, String.eqb_refl. reflexivity. }
  destruct (fit_pid _ _ _ _ _ _ F Hn) as (_ & cb' & -> & Hcb & _).
  destruct (f_pool _ _ F) as (k & W & K). pose proof (f_ripe _ _ F) as R.
  unfold sstep. cbn [sstep_obs pool_event]. rewrite HR.
  unfold wealth, epoch, ripe in *. rewrite Hw in *. cbn [total fold_right] in K |- *.
  change (fold_right (fun m t => to_stake m + t) 0 rest) with (total to_stake rest) in K.
  change (fold_right (fun m t => carried m + t) 0 rest) with (total carried rest).
  assert (Tk : forall a, total to_stake (tokens a) = 0) by (intros a; unfold tokens; destruct (a =? 0); reflexivity).
  destruct (pool_call op) as [m|] eqn:Hm; cbn [option_map].
  - assert (Hb : forall r, to_stake (MBack cb' r) = 0).
    { intros r. destruct op; try discriminate Hm; destruct cb'; try discriminate Hcb; reflexivity. }
    destruct (SS.step pid (sy_pool sys) _) as [pw' [ps|]] eqn:HS;
      cbn [fst sy_lockup sy_pool served w_lockup w_msgs w_balance]; rewrite Hw; cbn [drop_nth].
    + pose proof (SH.step_inv _ _ _ _ _ _ _ W HS) as (W' & _ & _ & _ & HO & _). cbn [SH.event_count] in W'.
      pose proof (call_sends _ _ _ _ _ _ _ _ _ _ _ W HS) as E.
      destruct (ripens_step _ _ _ _ _ _ _ _ _ _ _ W HS) as (E1 & E2 & E3).
      assert (Hc : SP.stake_count m <= to_stake (MCall (RPool pid op) (Some cb'))).
      { destruct op; try discriminate Hm; injection Hm as <-; cbn; lia. }
      split; [reflexivity|]. split; [|split; [exact E1|split; [|split; [exact HO|split; [auto|]]]]].
      * rewrite !total_app, carried_tokens. cbn [back]. rewrite total_one. cbn [carried]. lia.
      * eexists. split; [exact W'|]. rewrite !total_app, Tk. cbn [back]. rewrite total_one, Hb. lia.
      * intros Hu. apply E3. destruct op; try discriminate Hm; injection Hm as <-; try contradiction; reflexivity.
    + apply SH.step_call_none in HS. subst pw'.
      split; [reflexivity|]. split; [|split; [reflexivity|split; [|split; [reflexivity|split; [exact R|auto]]]]].
      * rewrite !total_app, carried_tokens. cbn [back]. rewrite total_one. cbn [carried]. lia.
      * exists k. split; [exact W|]. rewrite !total_app, Tk. cbn [back]. rewrite total_one, Hb. lia.
  - assert (Hb : forall r, to_stake (MBack cb' r) <= to_stake (MCall (RPool pid op) (Some cb'))).
    { intros r. destruct op; try discriminate Hm; destruct cb'; try discriminate Hcb; cbn; lia. }
    assert (Ha : attached_to (RPool pid op) = 0) by (destruct op; try discriminate Hm; reflexivity).
    destruct (pool_view op _ _); cbn [fst sy_lockup sy_pool served w_lockup w_msgs w_balance]; rewrite Hw; cbn [drop_nth];
      (split; [reflexivity|]; split; [|split; [reflexivity|split; [|split; [reflexivity|split; [exact R|auto]]]]];
       [rewrite !total_app; cbn [back]; rewrite total_one; cbn [carried]; rewrite Ha; lia|
        exists k; split; [exact W|]; rewrite !total_app; cbn [back]; rewrite total_one;
        match goal with |- context[MBack cb' ?r] => specialize (Hb r) end; lia]).
Qed.

(** What the delivery of a message does in the lockup's world. *)
Lemma execute_controlled w r cb o pools new l p :
  get_staking_pool_account_id (w_lockup w) = Some p ->
  msg_ok (w_lockup w) (pool_total (w_pools w) (w_lockup w)) (MCall r cb) ->
  execute w r cb o = Some (pools, new, l) ->
  in_flight (MCall r cb) + (fst (w_pools w p) + snd (w_pools w p)) <= total in_flight new + (fst (pools p) + snd (pools p)).
Proof.
  intros Hp Hm Hx.
  assert (B : forall cb0 r0, total in_flight (back cb0 r0) = 0) by (intros [?|] r0; reflexivity).
  destruct o; cbn [execute] in Hx.
  - destruct r; try discriminate; injection Hx as <- <- _; rewrite ?total_app, ?flight_tokens, B; cbn; lia.
  - destruct r; try discriminate; injection Hx as <- <- _; rewrite B; cbn; lia.
  - destruct r; try discriminate; injection Hx as <- <- _; rewrite B; cbn; lia.
  - destruct r; try discriminate; injection Hx as <- <- _; rewrite B; cbn; lia.
  - destruct r; try discriminate. destruct (is_view op) eqn:E; [|discriminate]. injection Hx as <- <- _. rewrite B.
    destruct op; try discriminate; cbn; lia.
  - destruct r as [| |q op| |]; try discriminate. destruct (pool_keeps op (w_pools w q) (staked, unstaked)) eqn:E; [|discriminate].
    destruct Hm as (d & cb' & Hs & _). unfold get_staking_pool_account_id in Hp. rewrite Hs in Hp. injection Hp as ->.
    injection Hx as <- <- _. rewrite total_app, B, set_pool_same. unfold pool_keeps in E.
    destruct (w_pools w p) as [s u]. cbn [fst snd]. norm_bool.
    destruct op; norm_bool; rewrite ?flight_tokens; cbn [in_flight total fold_right]; try discriminate; lia.
Qed.

Definition arrives (e : event) : Prop := (exists o, e = EDeliver 0 o) \/ e = ERun 0.

Lemma arrival w e p :
  inv w -> get_staking_pool_account_id (w_lockup w) = Some p -> arrives e ->
  stays (w_lockup w) (w_lockup (step g w e)) /\ controlled w <= controlled (step g w e) /\
  w_time (step g w e) = w_time w.
Proof.
  intros HI Hp He. generalize (step_move g w e HI).
  generalize (step g w e) (snd (step_obs g w e)). intros w' l Hmv.
  destruct He as [(o & ->)| ->]; inversion Hmv; subst; try (split; [apply stays_refl|split; [apply N.le_refl|reflexivity]]).
  - match goal with H : nth_error _ _ = _ |- _ => rename H into Hn end.
    match goal with H : execute _ _ _ _ = _ |- _ => rename H into Hx end.
    pose proof (execute_controlled _ _ _ _ _ _ _ _ Hp (msg_at _ _ _ HI Hn) Hx) as E.
    split; [apply stays_refl|]. split; [|reflexivity]. unfold controlled, at_pool. wsimpl. rewrite Hp.
    rewrite (total_drop in_flight _ _ _ Hn), total_app. lia.
  - match goal with H : nth_error _ _ = _ |- _ => rename H into Hn end.
    split; [apply stays_refl|]. split; [|reflexivity]. unfold controlled, at_pool. wsimpl.
    rewrite (total_drop in_flight _ _ _ Hn). cbn [in_flight]. lia.
  - match goal with H : nth_error _ _ = _ |- _ => rename H into Hn end.
    split; [apply stays_refl|]. split; [|reflexivity]. unfold controlled, at_pool. wsimpl.
    rewrite (total_drop in_flight _ _ _ Hn). cbn [in_flight]. lia.
  - match goal with H : nth_error _ _ = _ |- _ => rename H into Hn end.
    match goal with H : effect _ _ _ _ _ |- _ => rename H into Hf end.
    destruct (back_stays _ _ _ _ _ _ _ HI Hn Hf) as (ST & _ & Z1 & Z2 & _).
    unfold after. wsimpl. split; [exact ST|]. split; [|reflexivity]. unfold controlled, at_pool. wsimpl.
    destruct ST as (_ & _ & _ & ST). rewrite Hp, (ST _ Hp), Z1.
    rewrite (total_drop in_flight _ _ _ Hn), total_app, Z2. cbn [in_flight]. lia.
Qed.

Lemma arrival_wt w e m rest :
  inv w -> steady w -> w_msgs w = m :: rest ->
  match m with
  | MCall r cb => exists o, e = EDeliver 0 o /\ execute w r cb o <> None
  | _ => e = ERun 0
  end ->
  total wt (w_msgs (step g w e)) < total wt (w_msgs w).
Proof.
  intros HI HS Hw He.
  assert (Hn : nth_error (w_msgs w) 0 = Some m) by (rewrite Hw; reflexivity).
  assert (Hd : drop_nth 0 (w_msgs w) = rest) by (rewrite Hw; reflexivity).
  replace (total wt (w_msgs w)) with (wt m + total wt rest) by (rewrite Hw; reflexivity). unfold step.
  destruct m as [r cb|cb r|a].
  - destruct He as (o & -> & Hx). cbn [step_obs]. rewrite Hn.
    destruct (execute w r cb o) as [[[pools new] l]|] eqn:E; [|congruence]. cbn [fst w_msgs]. rewrite Hd, total_app.
    pose proof (execute_wt _ _ _ _ _ _ _ (msg_at _ _ _ HI Hn) E). lia.
  - subst e. assert (Hpos : 1 <= wt (MBack cb r)) by (destruct cb; cbn; lia).
    cbn [step_obs]. rewrite Hn, Hd. cbv zeta.
    destruct (run g (mkWorld (w_lockup w) (w_balance w) (w_time w) (w_pools w) rest) (g_self g) 0 [r] cb) as [[w'|] l] eqn:Hr.
    + destruct (run_after _ _ _ _ _ _ _ _ Hr) as (_ & s & p & X). cbv zeta in X. wsimpl.
      destruct X as (_ & X & _ & -> & _). unfold after. wsimpl. rewrite total_app.
      destruct (back_wt g w 0 cb r s p HI Hn X) as (B1 & _). lia.
    + cbn [fst w_msgs]. lia.
  - subst e. cbn [step_obs]. rewrite Hn, Hd. cbn [fst w_msgs wt]. lia.
Qed.

(** An event of the lockup's world that concerns neither the pool nor the owner or the foundation. *)
Definition plain (w : world) (e : event) : Prop :=
  view_fails w e = false /\ keeps_apart w e /\ reveals_covered g w e.

(** A continuation: what happens to the system, and how it looks in the lockup's world. *)
Inductive leads : system -> list sevent -> list event -> system -> Prop :=
| leads_nil sys : leads sys [] [] sys
| leads_cons sys ev evs e es sys' :
    alone answers lk pid who methods sys ev -> plain (sy_lockup sys) e ->
    step_obs g (sy_lockup sys) e = (sy_lockup (sstep g pid sys ev), snd (sstep_obs g pid sys ev)) ->
    leads (sstep g pid sys ev) evs es sys' ->
    leads sys (ev :: evs) (e :: es) sys'.
Lemma leads_app a l l' b m m' c : leads a l l' b -> leads b m m' c -> leads a (l ++ m) (l' ++ m') c.
Proof. induction 1; intros H3; [exact H3|]. cbn. econstructor; eauto. Qed.
Lemma leads_one sys ev e :
  alone answers lk pid who methods sys ev -> plain (sy_lockup sys) e ->
  step_obs g (sy_lockup sys) e = (sy_lockup (sstep g pid sys ev), snd (sstep_obs g pid sys ev)) ->
  leads sys [ev] [e] (sstep g pid sys ev).
Proof. intros. econstructor; eauto. constructor. Qed.
Lemma leads_final a l l' b : leads a l l' b -> b = sfinal g pid a l.
Proof. induction 1; [reflexivity|assumption]. Qed.
Lemma leads_all a l l' b : leads a l l' b -> all_alone answers lk g pid who methods a l.
Proof. induction 1; [exact I|]. split; assumption. Qed.
Lemma leads_world a l l' b : leads a l l' b ->
  sy_lockup b = LockupWorld.final g (sy_lockup a) l' /\ slog g pid a l = log g (sy_lockup a) l' /\ all_events plain g (sy_lockup a) l'.
Proof.
  induction 1 as [|sys ev evs e es sys' A P S L (IH1 & IH2 & IH3)]; [repeat split|].
  cbn [LockupWorld.final slog log all_events]. unfold step. rewrite S. cbn [fst snd]. now rewrite IH1, IH2.
Qed.

(** How the first message is delivered. *)
Inductive delivers (sys : system) : msg -> sevent -> event -> Prop :=
| D_pool op cb o :
    (forall m, pool_call op = Some m -> o = OFail ->
      snd (SS.step pid (sy_pool sys) (SS.EvCall (g_self g) (attached_to (RPool pid op)) (lk sys) [] m)) = None) ->
    execute (sy_lockup sys) (RPool pid op) cb o <> None ->
    delivers sys (MCall (RPool pid op) cb) (SServe 0 (lk sys)) (EDeliver 0 o)
| D_other r cb :
    (forall q op, r <> RPool q op) ->
    delivers sys (MCall r cb) (SLockup (EDeliver 0 (answers (sy_lockup sys) r))) (EDeliver 0 (answers (sy_lockup sys) r))
| D_back cb r : delivers sys (MBack cb r) (SLockup (ERun 0)) (ERun 0)
| D_tokens a : delivers sys (MTokens a) (SLockup (ERun 0)) (ERun 0).

Lemma delivers_arrives sys m ev e : delivers sys m ev e -> arrives e.
Proof. intros H. inversion H; unfold arrives; eauto. Qed.

Lemma fit_lockup j sys e :
  fit j sys -> arrives e -> view_fails (sy_lockup sys) e = false -> involves pid (sy_lockup sys) e = false ->
  fit j (mkSystem (step g (sy_lockup sys) e) (sy_pool sys)).
Proof.
  intros F A HV HI. pose proof (f_inv _ _ F) as I0.
  destruct (arrival _ _ _ I0 (f_sel _ _ F) A) as (ST & _).
  assert (G : total carried (w_msgs (step g (sy_lockup sys) e)) + w_balance (step g (sy_lockup sys) e)
              <= total carried (w_msgs (sy_lockup sys)) + w_balance (sy_lockup sys) /\
            total to_stake (w_msgs (step g (sy_lockup sys) e)) <= total to_stake (w_msgs (sy_lockup sys))).
  { generalize (step_move g (sy_lockup sys) e I0).
    generalize (step g (sy_lockup sys) e) (snd (step_obs g (sy_lockup sys) e)). intros w' l Hmv.
    destruct A as [(o & ->)| ->]; inversion Hmv; subst; try (split; lia);
      match goal with H : nth_error _ _ = _ |- _ => rename H into Hn end;
      rewrite (total_drop carried _ _ _ Hn), (total_drop to_stake _ _ _ Hn); unfold after; wsimpl; rewrite ?total_app.
    - match goal with H : execute _ _ _ _ = _ |- _ => rename H into Hx end.
      assert (N : forall q op, r <> RPool q op).
      { intros q op ->. destruct (fit_pid _ _ _ _ _ _ F Hn) as (-> & _).
        cbn [involves] in HI. unfold request in HI. rewrite Hn, String.eqb_refl in HI. discriminate. }
      pose proof (msg_at _ _ _ I0 Hn) as Hm.
      assert (Tk : forall a, total to_stake (tokens a) = 0) by (intros a; unfold tokens; destruct (a =? 0); reflexivity).
      assert (total carried new <= carried (MCall r cb) /\ total to_stake new = 0); [|lia].
      destruct r as [wl p|poll|p op|rc a|pk]; [| |destruct (N _ _ eq_refl)| |]; cbn [msg_ok] in Hm.
      + subst cb. destruct o; cbn in Hx; try discriminate; injection Hx as <- <- _; cbn; lia.
      + subst cb. destruct o; cbn in Hx; try discriminate; injection Hx as <- <- _; cbn; lia.
      + destruct o; cbn [execute] in Hx; try discriminate; injection Hx as <- <- _;
          rewrite ?total_app, ?carried_tokens, ?Tk; destruct Hm as [->|[-> _]]; cbn; lia.
      + subst cb. destruct o; cbn in Hx; try discriminate; injection Hx as <- <- _; cbn; lia.
    - cbn [carried to_stake]. lia.
    - lia.
    - match goal with H : effect _ _ _ _ _ |- _ => rename H into Hf end.
      destruct (back_stays _ _ _ _ _ _ _ I0 Hn Hf) as (_ & Z1 & Z2 & _ & Z3). rewrite Z1, Z2. cbn [carried]. lia. }
  destruct F as [F1 F2 F3 (k & W & K) F5 F6 F7 F8].
  split; cbn [sy_lockup sy_pool].
  - now apply inv_step.
  - now apply steady_step.
  - unfold tied in *. cbn [sy_lockup sy_pool]. now rewrite untouched.
  - exists k. split; [exact W|]. lia.
  - unfold wealth in *. cbn [sy_lockup sy_pool]. lia.
  - exact F6.
  - exact F7.
  - destruct ST as (_ & _ & _ & ST). auto.
Qed.

Lemma tick j sys m rest :
  fit j sys -> w_msgs (sy_lockup sys) = m :: rest ->
  exists ev e, delivers sys m ev e /\
    alone answers lk pid who methods sys ev /\ plain (sy_lockup sys) e /\
    fit j (sstep g pid sys ev) /\ epoch (sstep g pid sys ev) = epoch sys /\
    step_obs g (sy_lockup sys) e = (sy_lockup (sstep g pid sys ev), snd (sstep_obs g pid sys ev)) /\
    ((forall cb op, m = MCall (RPool pid op) cb -> match op with PUnstake _ | PUnstakeAll => False | _ => True end) ->
     ripe sys -> ripe (sstep g pid sys ev)).
Proof.
  intros F Hw. assert (Hn : nth_error (w_msgs (sy_lockup sys)) 0 = Some m) by (rewrite Hw; reflexivity).
  assert (Pool : forall q op cb, m = MCall (RPool q op) cb -> q = pid).
  { intros q op cb ->. exact (proj1 (fit_pid _ _ _ _ _ _ F Hn)). }
  assert (Other : forall e, arrives e -> plain (sy_lockup sys) e -> involves pid (sy_lockup sys) e = false ->
    let ev := SLockup e in
    fit j (sstep g pid sys ev) /\ epoch (sstep g pid sys ev) = epoch sys /\
    step_obs g (sy_lockup sys) e = (sy_lockup (sstep g pid sys ev), snd (sstep_obs g pid sys ev)) /\
    (ripe sys -> ripe (sstep g pid sys ev))).
  { intros e A (P1 & P2 & P3) NI ev. subst ev. unfold sstep. cbn [sstep_obs]. rewrite NI. cbn [fst snd sy_lockup].
    split; [now apply fit_lockup|]. split; [reflexivity|]. split; [|auto].
    unfold step. now destruct (step_obs g (sy_lockup sys) e). }
  match goal with |- ?G => assert (Req : forall r cb, m = MCall r cb -> (forall q op, r <> RPool q op) -> G) end.
  { intros r cb Hm N. rewrite Hm in *. set (e := EDeliver 0 (answers (sy_lockup sys) r)).
    assert (HR : request pid (sy_lockup sys) 0 = None).
    { unfold request. rewrite Hn. destruct r; try reflexivity. destruct (N _ _ eq_refl). }
    assert (P : plain (sy_lockup sys) e).
    { unfold plain, view_fails, keeps_apart, e. rewrite Hn.
      destruct (answers _ _), r; repeat split; destruct (N _ _ eq_refl). }
    exists (SLockup e), e. destruct (Other e) as (A & B & C & D); [left; unfold e; eauto|exact P|cbn; now rewrite HR|].
    split; [now constructor|]. split; [cbn; eauto|]. auto. }
  destruct m as [[wl p|poll|q op|rc a|pk] cb|cb r|a].
  3:{ pose proof (Pool _ _ _ eq_refl) as ->.
      assert (HR : request pid (sy_lockup sys) 0 = Some (op, cb)).
      { unfold request. rewrite Hn, String.eqb_refl. reflexivity. }
      destruct (serve_raw _ _ _ _ _ F Hw) as (R1 & R2 & R3 & (k' & R4 & R4') & R5 & R6 & R7).
      destruct (fit_sound _ _ F) as (k & Hso).
      assert (Hso' : sound S0 k' (sy_pool (sstep g pid sys (SServe 0 (lk sys))))).
      { split; [exact R4|]. split; [lia|]. pose proof (f_wealth _ _ F) as X. rewrite <- R2 in X. unfold wealth in X. lia. }
      destruct (serve_step g pid sys 0 (lk sys) op cb S0 k k' (f_tied _ _ F) Hso HR Hso') as (T & o & L & Hx & Hacc).
      destruct L as (L1 & L2 & L3 & L4). cbn [other_event] in L2, L3, L4.
      exists (SServe 0 (lk sys)), (EDeliver 0 o).
      split; [now constructor|]. split; [reflexivity|]. split; [split; [|split]; auto|].
      assert (E : sy_lockup (sstep g pid sys (SServe 0 (lk sys))) = step g (sy_lockup sys) (EDeliver 0 o)).
      { unfold step. now rewrite L1. }
      split; [|split; [exact R3|split; [exact L1|]]].
      - split.
        + rewrite E. apply inv_step, (f_inv _ _ F).
        + rewrite E. apply steady_step; [apply (f_inv _ _ F)|apply (f_steady _ _ F)|auto].
        + exact T.
        + exists k'. auto.
        + rewrite R2. apply (f_wealth _ _ F).
        + exact R6.
        + rewrite R5. apply (f_owner _ _ F).
        + rewrite R1. apply (f_sel _ _ F).
      - intros H. apply R7. eapply H. reflexivity. }
  1-4: apply (Req _ cb eq_refl); discriminate.
  - exists (SLockup (ERun 0)), (ERun 0). destruct (Other (ERun 0)) as (A & B & C & D); [now right|repeat split|reflexivity|].
    split; [constructor|]. split; [exact I|]. split; [repeat split|]. auto.
  - exists (SLockup (ERun 0)), (ERun 0). destruct (Other (ERun 0)) as (A & B & C & D); [now right|repeat split|reflexivity|].
    split; [constructor|]. split; [exact I|]. split; [repeat split|]. auto.
Qed.

Lemma tick_wt j sys m rest ev e :
  fit j sys -> w_msgs (sy_lockup sys) = m :: rest -> delivers sys m ev e ->
  total wt (w_msgs (step g (sy_lockup sys) e)) < total wt (w_msgs (sy_lockup sys)).
Proof.
  intros F Hw D. apply (arrival_wt _ _ m rest (f_inv _ _ F) (f_steady _ _ F) Hw).
  inversion D; subst; eauto.
Qed.

(** What the pool does for the lockup. *)
Lemma lockup_calls m : SS.caller_possible pid (g_self g) m = true.
Proof.
  unfold SS.caller_possible. apply orb_true_iff. left. rewrite negb_true_iff. now apply String.eqb_neq.
Qed.
Lemma pool_unstakes j sys a :
  fit j sys -> 0 < a -> a <= fst (worth (SS.w_pool (sy_pool sys)) (g_self g)) -> epoch sys + 4 < U64_BOUND ->
  snd (SS.step pid (sy_pool sys) (SS.EvCall (g_self g) 0 (lk sys) [] (SM.Unstake a))) <> None.
Proof.
  intros F Ha Hle HE. destruct (fit_sound _ _ F) as (k & W & K & B). destruct (Hlk sys) as (L & _).
  destruct (SA.exec_unstake_accept _ _ _ pid (g_self g) (lk sys) [] a W K HS0 B L HE Ha Hle) as (p' & E).
  erewrite SH.step_call_intro; [discriminate|apply lockup_calls|exact L|exact E|]. rewrite SP.outgoing_restake. lia.
Qed.
Lemma pool_unstakes_all j sys :
  fit j sys -> 0 < fst (worth (SS.w_pool (sy_pool sys)) (g_self g)) -> epoch sys + 4 < U64_BOUND ->
  snd (SS.step pid (sy_pool sys) (SS.EvCall (g_self g) 0 (lk sys) [] SM.UnstakeAll)) <> None.
Proof.
  intros F Hle HE. destruct (fit_sound _ _ F) as (k & W & K & B). destruct (Hlk sys) as (L & _).
  destruct (SA.exec_unstake_all_accept _ _ _ pid (g_self g) (lk sys) [] W K HS0 B L HE Hle) as (p' & E).
  erewrite SH.step_call_intro; [discriminate|apply lockup_calls|exact L|exact E|]. rewrite SP.outgoing_restake. lia.
Qed.
Lemma pool_pays j sys a :
  fit j sys -> 0 < a -> a <= snd (worth (SS.w_pool (sy_pool sys)) (g_self g)) -> ripe sys ->
  snd (SS.step pid (sy_pool sys) (SS.EvCall (g_self g) 0 (lk sys) [] (SM.Withdraw a))) <> None.
Proof.
  intros F Ha Hle HR. destruct (fit_sound _ _ F) as (k & W & K & B). destruct (Hlk sys) as (L & L2). specialize (L2 HR).
  destruct (SA.exec_withdraw_accept _ _ _ pid (g_self g) (lk sys) [] a W K HS0 B L Ha Hle HR) as (p' & b & E).
  erewrite SH.step_call_intro; [discriminate|apply lockup_calls|exact L|exact E|].
  rewrite SP.outgoing_transfer, SP.outgoing_restake_if.
  pose proof (SA.covered_le _ _ (g_self g) (SH.wi_cov _ _ _ W) K) as C. pose proof (SH.wi_last _ _ _ W) as C2.
  rewrite worth_unstaked in *. lia.
Qed.

(** * Terminations *)

(** A withdrawal, or an unstaking, of the termination is to come. *)
Definition to_withdraw (m : msg) : Prop :=
  match m with
  | MCall (RPool _ PGetUnstaked) (Some OnGetAccountUnstakedBalanceToWithdraw)
  | MBack OnGetAccountUnstakedBalanceToWithdraw _
  | MCall (RPool _ (PWithdraw _)) (Some (OnStakingPoolWithdrawForTermination _)) => True
  | _ => False
  end.
Definition to_unstake (m : msg) : Prop :=
  match m with
  | MCall (RPool _ PGetStaked) _ | MBack OnGetAccountStakedBalanceToUnstake _
  | MCall (RPool _ (PUnstake _)) (Some (OnStakingPoolUnstakeForTermination _)) => True
  | _ => False
  end.
Definition positive (m : msg) : Prop :=
  match m with
  | MCall (RPool _ (PWithdraw a)) (Some (OnStakingPoolWithdrawForTermination _))
  | MCall (RPool _ (PUnstake a)) (Some (OnStakingPoolUnstakeForTermination _)) => 0 < a
  | _ => True
  end.
Record timely (sys : system) : Prop := mkTimely {
  t_clean : Forall clean (w_msgs (sy_lockup sys));
  t_positive : Forall positive (w_msgs (sy_lockup sys));
  t_withdraw : Exists to_withdraw (w_msgs (sy_lockup sys)) -> ripe sys;
  t_unstake : Exists to_unstake (w_msgs (sy_lockup sys)) -> epoch sys + 4 < U64_BOUND
}.
Definition deficit (s : contract) : Prop := get_termination_status s = Some VestingTerminatedWithDeficit.

Lemma to_withdraw_staking m : to_withdraw m -> scnt m = 1.
Proof. destruct m as [[| |p []| |] cb|[] r|a]; cbn; try contradiction; reflexivity. Qed.
Lemma to_unstake_staking m : to_unstake m -> scnt m = 1.
Proof. destruct m as [[| |p []| |] cb|[] r|a]; cbn; try contradiction; reflexivity. Qed.
Lemma none_staking (P : msg -> Prop) l : (forall m, P m -> scnt m = 1) -> total scnt l = 0 -> ~ Exists P l.
Proof.
  intros HP HZ HE. rewrite total_zero in HZ. apply Exists_exists in HE. destruct HE as (m & Hi & Hm).
  rewrite Forall_forall in HZ. specialize (HZ _ Hi). rewrite (HP _ Hm) in HZ. discriminate.
Qed.

Lemma back_timely w n cb r s p :
  inv w -> nth_error (w_msgs w) n = Some (MBack cb r) -> effect (back_ctx g w r) (w_lockup w) cb s p ->
  clean (MBack cb r) ->
  Forall positive (posted p) /\
  (Exists to_withdraw (posted p) -> to_withdraw (MBack cb r)) /\
  (Exists to_unstake (posted p) -> to_unstake (MBack cb r)) /\ (deficit s -> deficit (w_lockup w)).
Proof.
  intros HI Hn He Hc. pose proof (msg_at _ _ _ HI Hn) as Hm. cbn [msg_ok] in Hm.
  inversion He; subst; cbn [back_ctx ctx_predecessor ctx_current ctx_results] in *;
    try (destruct (staking_callback _) eqn:Hsc in Hm; cbn in Hsc; try discriminate Hsc; contradiction);
    try (exfalso; destruct cb; cbn in *; try discriminate; contradiction);
    try (match goal with |- context [if ?a <? ?b then _ else _] => destruct (a <? b) end);
    cbn [posted p_remote p_then option_map fst];
    (split; [repeat constructor; cbn; try assumption; exact I|]);
    (split; [intros X; inversion X as [? ? Y|? ? Y]; subst; try (inversion Y; fail); cbn in Y; try contradiction; exact I|]);
    (split; [intros X; inversion X as [? ? Y|? ? Y]; subst; try (inversion Y; fail); cbn in Y; try contradiction; exact I|]);
    unfold deficit, get_termination_status in *; wsimpl; auto; try discriminate.
  all: try match goal with H : [_] = [_] |- _ => injection H as -> end.
  all: try (destruct r0; cbn [is_some]; [discriminate|contradiction]).
  all: try (intros X; cbn in X; discriminate X).
Qed.

Lemma tick_timely j sys m rest ev e sys' :
  (forall w r a, answers w (RTransfer r a) = ODone) ->
  fit j sys -> prospects (sy_lockup sys) -> timely sys ->
  w_msgs (sy_lockup sys) = m :: rest -> delivers sys m ev e ->
  sy_lockup sys' = step g (sy_lockup sys) e -> epoch sys' = epoch sys ->
  ((forall cb op, m = MCall (RPool pid op) cb -> match op with PUnstake _ | PUnstakeAll => False | _ => True end) ->
   ripe sys -> ripe sys') ->
  timely sys' /\ phi (w_lockup (sy_lockup sys')) (pend (sy_lockup sys')) <= phi (w_lockup (sy_lockup sys)) (pend (sy_lockup sys)) /\
  (deficit (w_lockup (sy_lockup sys')) -> deficit (w_lockup (sy_lockup sys))).
Proof.
  intros HT F HP T Hw D Es Ee HR. pose proof (f_inv _ _ F) as HI. set (w := sy_lockup sys) in *.
  assert (Hn : nth_error (w_msgs w) 0 = Some m) by (rewrite Hw; reflexivity).
  assert (Hd : drop_nth 0 (w_msgs w) = rest) by (rewrite Hw; reflexivity).
  destruct T as [T1 T2 T3 T4]. fold w in T1, T2, T3, T4. rewrite Hw in T1, T2, T3, T4.
  apply Forall_cons_iff in T1, T2. destruct T1 as [T1 T1'], T2 as [T2 T2'].
  assert (Hone : scnt m = 1 -> total scnt rest = 0).
  { intros Hs. pose proof (i_one _ HI) as H1. rewrite Hw in H1. cbn [total fold_right] in H1.
    change (fold_right (fun m t => scnt m + t) 0 rest) with (total scnt rest) in H1. lia. }
  assert (Hpend : pend w = to_foundation_pending m + total to_foundation_pending rest).
  { unfold pend. rewrite Hw. reflexivity. }
  assert (Tok : forall a (P : msg -> Prop), P (MTokens a) -> Forall P (tokens a)) by (intros a P H; unfold tokens; destruct (a =? 0); auto).
  (* the message is replaced by [new] *)
  assert (Main : forall new, w_msgs (sy_lockup sys') = (rest ++ new)%list ->
    Forall clean new -> Forall positive new ->
    (Exists to_withdraw new -> to_withdraw m) -> (Exists to_unstake new -> to_unstake m) ->
    ((exists cb op, m = MCall (RPool pid op) cb) -> scnt m = 1) ->
    timely sys').
  { intros new Em C1 C2 C3 C4 C5. split; rewrite Em.
    - apply Forall_app; auto.
    - apply Forall_app; auto.
    - intros X. apply Exists_app in X.
      assert (Hr : ripe sys).
      { apply T3. destruct X as [X|X]; [now right|left; auto]. }
      apply HR; [|exact Hr]. intros cb op ->.
      destruct X as [X|X].
      + exfalso. refine (none_staking to_withdraw rest to_withdraw_staking _ X). apply Hone, C5. eauto.
      + specialize (C3 X). cbn in C3. destruct op; auto; contradiction.
    - intros X. rewrite Ee. apply T4. apply Exists_app in X. destruct X as [X|X]; [now right|left; auto]. }
  inversion D; clear D; subst m ev e.
  - (* the pool *)
    match goal with H : execute _ _ _ _ <> None |- _ => rename H into Hx end.
    match goal with H : forall m, pool_call op = Some m -> _ |- _ => rename H into Hacc end.
    destruct (execute w (RPool pid op) cb o) as [[[pools new] l]|] eqn:E; [|fold w in Hx; congruence].
    assert (Es' : sy_lockup sys' = mkWorld (w_lockup w) (w_balance w) (w_time w) pools (rest ++ new)).
    { rewrite Es. unfold step, step_obs. rewrite Hn, E, Hd. reflexivity. }
    destruct (fit_pid _ _ _ _ _ _ F Hn) as (_ & cb' & -> & Hcb & Hph).
    assert (Hs : scnt (MCall (RPool pid op) (Some cb')) = 1) by reflexivity.
    assert (Hpr : prospect (get_known_deposited_balance (w_lockup w)) (worth (SS.w_pool (sy_pool sys)) (g_self g)) (MCall (RPool pid op) (Some cb'))).
    { destruct (Forall_drop _ _ _ _ (pr_msgs w HP) Hn) as [Hpr _].
      unfold pool_now in Hpr. rewrite (f_sel _ _ F : get_staking_pool_account_id (w_lockup w) = _) in Hpr.
      rewrite (f_tied _ _ F : w_pools w pid = _) in Hpr. exact Hpr. }
    assert (Hp : forall r, to_foundation_pending (MBack cb' r) = 0).
    { intros r. destruct op, cb'; cbn in Hcb; try discriminate; reflexivity. }
    assert (G : Forall clean new /\ Forall positive new /\ (Exists to_withdraw new -> to_withdraw (MCall (RPool pid op) (Some cb'))) /\
      (Exists to_unstake new -> to_unstake (MCall (RPool pid op) (Some cb'))) /\ total to_foundation_pending new = 0).
    { assert (EX : forall (P : msg -> Prop) a r, ~ P (MTokens a) -> Exists P (tokens a ++ [MBack cb' r]) -> P (MBack cb' r)).
      { intros P a r NP X. apply Exists_app in X. destruct X as [X|X].
        - exfalso. unfold tokens in X. destruct (a =? 0); inversion X as [? ? Y|? ? Y]; subst; [contradiction|inversion Y].
        - inversion X as [? ? Y|? ? Y]; subst; [exact Y|inversion Y]. }
      assert (EX2 : forall (P : msg -> Prop) r, Exists P [MBack cb' r] -> P (MBack cb' r)).
      { intros P r X. inversion X as [? ? Y|? ? Y]; subst; [exact Y|inversion Y]. }
      assert (Hop : forall r, (to_withdraw (MBack cb' r) -> to_withdraw (MCall (RPool pid op) (Some cb'))) /\
                              (to_unstake (MBack cb' r) -> to_unstake (MCall (RPool pid op) (Some cb')))).
      { intros r. destruct op, cb'; cbn in Hcb; try discriminate; cbn; auto. }
      destruct o; cbn [execute] in E; try discriminate.
      - injection E as <- <- _.
        assert (C : clean (MBack cb' None)).
        { destruct op, cb'; cbn in Hcb; try discriminate; try exact I; exfalso.
          - refine (pool_pays _ _ amount F T2 _ _ (Hacc _ eq_refl eq_refl)); [exact (proj2 Hpr)|apply T3; left; exact I].
          - refine (pool_unstakes _ _ amount F T2 _ _ (Hacc _ eq_refl eq_refl)); [exact (proj1 Hpr)|apply T4; left; exact I]. }
        cbn [back]. split; [apply Forall_app; split; [apply Tok; exact I|now constructor]|].
        split; [apply Forall_app; split; [apply Tok; exact I|repeat constructor]|].
        split; [intros X; apply EX in X; [now apply Hop in X|exact (fun H => H)]|].
        split; [intros X; apply EX in X; [now apply Hop in X|exact (fun H => H)]|].
        rewrite total_app, tokens_pending, total_one. apply Hp.
      - destruct (is_view op) eqn:Ev; [|discriminate]. injection E as <- <- _. cbn [back].
        split; [constructor; [destruct cb'; exact I|constructor]|]. split; [repeat constructor|].
        split; [intros X; apply EX2 in X; now apply Hop in X|].
        split; [intros X; apply EX2 in X; now apply Hop in X|]. rewrite total_one. apply Hp.
      - destruct (pool_keeps op (w_pools w pid) (staked, unstaked)); [|discriminate]. injection E as <- <- _. cbn [back].
        assert (G : exists a, match op with PWithdraw amount => tokens amount | _ => [] end = tokens a).
        { destruct op; try (exists 0; reflexivity). eauto. }
        destruct G as (a & ->).
        split; [apply Forall_app; split; [apply Tok; exact I|constructor; [destruct cb'; exact I|constructor]]|].
        split; [apply Forall_app; split; [apply Tok; exact I|repeat constructor]|].
        split; [intros X; apply EX in X; [now apply Hop in X|exact (fun H => H)]|].
        split; [intros X; apply EX in X; [now apply Hop in X|exact (fun H => H)]|].
        rewrite total_app, tokens_pending, total_one. apply Hp. }
    destruct G as (G1 & G2 & G3 & G4 & G5).
    split; [apply (Main new); auto; now rewrite Es'|]. rewrite Es'. cbn [w_lockup]. split; [|auto].
    unfold pend at 1. cbn [w_msgs]. rewrite total_app, G5, Hpend. cbn [to_foundation_pending]. rewrite N.add_0_r. apply N.le_refl.
  - (* another receiver *)
    match goal with H : forall q op, r <> RPool q op |- _ => rename H into Hr end.
    assert (Hx : execute w r cb (answers w r) <> None) by apply Hposs.
    destruct (execute w r cb (answers w r)) as [[[pools new] l]|] eqn:E; [|congruence].
    assert (Es' : sy_lockup sys' = mkWorld (w_lockup w) (w_balance w) (w_time w) pools (rest ++ new)).
    { rewrite Es. unfold step, step_obs. fold w. rewrite Hn, E, Hd. reflexivity. }
    assert (G : Forall clean new /\ Forall positive new /\ ~ Exists to_withdraw new /\ ~ Exists to_unstake new /\
      total to_foundation_pending new = to_foundation_pending (MCall r cb)).
    { pose proof (msg_at _ _ _ HI Hn) as Hm.
      assert (N0 : forall P : msg -> Prop, ~ Exists P []) by (intros P X; inversion X).
      assert (N1 : forall (P : msg -> Prop) m, ~ P m -> ~ Exists P [m]) by (intros P m NP X; inversion X as [? ? Y|? ? Y]; subst; [auto|inversion Y]).
      destruct r as [wl p|poll|p op|rc a|pk]; cbn [msg_ok] in Hm.
      - subst cb. destruct (answers w (RIsWhitelisted wl p)); cbn in E; try discriminate; injection E as <- <- _; cbn;
          repeat split; repeat constructor; apply N1; exact (fun H => H).
      - subst cb. destruct (answers w (RGetResult poll)); cbn in E; try discriminate; injection E as <- <- _; cbn;
          repeat split; repeat constructor; apply N1; exact (fun H => H).
      - destruct (Hr _ _ eq_refl).
      - rewrite HT in E. cbn [execute] in E. injection E as <- <- _.
        destruct Hm as [->|[-> _]]; cbn; repeat split; repeat constructor; try apply N0; try apply N1; try exact (fun H => H); lia.
      - subst cb. destruct (answers w (RAddFullAccessKey pk)); cbn in E; try discriminate; injection E as <- <- _; cbn;
          repeat split; repeat constructor; apply N0. }
    destruct G as (G1 & G2 & G3 & G4 & G5).
    split.
    { apply (Main new); auto; try (intros; contradiction); [now rewrite Es'|]. intros (cb0 & op & X). injection X as X _. destruct (Hr _ _ X). }
    rewrite Es'. cbn [w_lockup]. split; [|auto].
    unfold pend at 1. cbn [w_msgs]. rewrite total_app, G5, Hpend, N.add_comm. apply N.le_refl.
  - (* a callback *)
    generalize (step_move g w (ERun 0) HI). fold w in Es. rewrite <- Es.
    generalize (snd (step_obs g w (ERun 0))). intros l Hmv.
    assert (Lost : w_lockup (sy_lockup sys') = w_lockup w -> w_msgs (sy_lockup sys') = rest -> to_foundation_pending (MBack cb r) = 0 ->
      timely sys' /\ phi (w_lockup (sy_lockup sys')) (pend (sy_lockup sys')) <= phi (w_lockup w) (pend w) /\
      (deficit (w_lockup (sy_lockup sys')) -> deficit (w_lockup w))).
    { intros E1 E2 E3. split.
      - apply (Main []); auto; [now rewrite app_nil_r| | |]; try (intros X; inversion X; fail). intros (cb0 & op & X). discriminate.
      - rewrite E1. split; [|auto]. unfold pend at 1. rewrite E2, Hpend, E3. apply N.le_refl. }
    assert (C : sy_lockup sys' = w \/
      may_fail cb r = true /\ sy_lockup sys' = mkWorld (w_lockup w) (w_balance w) (w_time w) (w_pools w) rest \/
      exists s p, effect (back_ctx g w r) (w_lockup w) cb s p /\ sy_lockup sys' = after w s rest p).
    { clear - Hmv Hw Hn. revert Hmv. generalize (sy_lockup sys'). intros w' Hmv.
      inversion Hmv; clear Hmv; auto;
        match goal with H : nth_error _ _ = Some _ |- _ => rewrite Hn in H; inversion H; subst end; rewrite ?Hw; eauto 6. }
    destruct C as [X|[(X1 & X)|(s & p & He & X)]].
    + split; [|rewrite X; split; [apply N.le_refl|auto]].
      split; rewrite X, Hw; try (constructor; assumption).
      * intros Y. apply HR; [discriminate|auto].
      * intros Y. rewrite Ee. auto.
    + apply Lost; rewrite ?X; auto.
      pose proof (s_answered w (f_steady _ _ F)) as Ha. rewrite Hw in Ha. inversion Ha as [|? ? Ha1 _]; subst. cbn [answered] in Ha1.
      unfold may_fail in X1. destruct cb; try reflexivity; congruence.
    + destruct (back_wt g w 0 cb r s p HI Hn He) as (_ & B2 & B3).
      destruct (back_timely w 0 cb r s p HI Hn He T1) as (B4 & B5 & B6 & B7).
      unfold after in X. split.
      { apply (Main (posted p)); auto; [now rewrite X|]. intros (cb0 & op & Y). discriminate. }
      rewrite X. cbn [w_lockup]. split; [|exact B7].
      unfold pend at 1. cbn [w_msgs]. rewrite total_app, Hpend. now apply B3.
  - (* tokens *)
    assert (Es' : sy_lockup sys' = mkWorld (w_lockup w) (w_balance w + a) (w_time w) (w_pools w) rest).
    { rewrite Es. unfold step, step_obs. fold w. rewrite Hn, Hd. reflexivity. }
    split.
    { apply (Main []); auto; [rewrite Es', app_nil_r; reflexivity| | |]; try (intros X; inversion X; fail). intros (cb0 & op & X). discriminate. }
    rewrite Es'. cbn [w_lockup]. split; [|auto]. unfold pend at 1. cbn [w_msgs]. rewrite Hpend. apply N.le_refl.
Qed.

(** Deliver all that is outstanding. *)
Lemma flush j sys :
  fit j sys ->
  exists evs es sys', leads sys evs es sys' /\ fit j sys' /\ w_msgs (sy_lockup sys') = [] /\ epoch sys' = epoch sys /\
    stays (w_lockup (sy_lockup sys)) (w_lockup (sy_lockup sys')) /\
    controlled (sy_lockup sys) <= controlled (sy_lockup sys') /\ w_time (sy_lockup sys') = w_time (sy_lockup sys) /\
    ((forall w r a, answers w (RTransfer r a) = ODone) -> prospects (sy_lockup sys) -> timely sys ->
     phi (w_lockup (sy_lockup sys')) 0 <= phi (w_lockup (sy_lockup sys)) (pend (sy_lockup sys)) /\
     (deficit (w_lockup (sy_lockup sys')) -> deficit (w_lockup (sy_lockup sys)))).
Proof.
  remember (total wt (w_msgs (sy_lockup sys))) as n eqn:En. revert sys En.
  induction n as [n IH] using (well_founded_induction N.lt_wf_0). intros sys -> F.
  destruct (w_msgs (sy_lockup sys)) as [|m rest] eqn:Hw.
  - exists [], [], sys. split; [constructor|]. split; [exact F|]. split; [exact Hw|]. split; [reflexivity|].
    split; [apply stays_refl|]. split; [apply N.le_refl|]. split; [reflexivity|].
    intros _ _ _. split; [|auto]. unfold pend. rewrite Hw. apply N.le_refl.
  - destruct (tick _ _ _ _ F Hw) as (ev & e & D & A & P & F' & Ee & Es & HR).
    assert (E : sy_lockup (sstep g pid sys ev) = step g (sy_lockup sys) e) by (unfold step; now rewrite Es).
    pose proof (tick_wt _ _ _ _ _ _ F Hw D) as Hlt. rewrite <- E, Hw in Hlt.
    destruct (arrival _ _ _ (f_inv _ _ F) (f_sel _ _ F) (delivers_arrives _ _ _ _ D)) as (A1 & A2 & A3).
    rewrite <- E in A1, A2, A3.
    destruct (IH _ Hlt _ eq_refl F') as (evs & es & sys' & L & F2 & M & Ep & ST & C & Ti & Y).
    exists (ev :: evs), (e :: es), sys'. split; [econstructor; eauto|]. split; [exact F2|]. split; [exact M|].
    split; [congruence|]. split; [eapply stays_trans; eauto|]. split; [lia|]. split; [congruence|].
    intros HT HP T. destruct (tick_timely _ _ _ _ _ _ _ HT F HP T Hw D E Ee HR) as (T' & Y1 & Y2).
    destruct (Y HT) as (Y3 & Y4); [|exact T'|].
    + rewrite E. apply prospects_step; [apply (f_inv _ _ F)|exact HP|apply P].
    + split; [lia|auto].
Qed.

(** Epochs pass. *)
Lemma epochs_pass j sys n :
  fit j sys ->
  let sys' := sstep g pid sys (SPool (SS.EvEpoch n)) in
  fit j sys' /\ epoch sys' = epoch sys + n /\ ripens (sy_pool sys') (g_self g) = ripens (sy_pool sys) (g_self g) /\
  SS.w_pool (sy_pool sys') = SS.w_pool (sy_pool sys) /\
  w_lockup (sy_lockup sys') = w_lockup (sy_lockup sys) /\ w_balance (sy_lockup sys') = w_balance (sy_lockup sys) /\
  w_time (sy_lockup sys') = w_time (sy_lockup sys) /\
  w_msgs (sy_lockup sys') = w_msgs (sy_lockup sys) /\ w_pools (sy_lockup sys') pid = w_pools (sy_lockup sys) pid /\
  exists e, leads sys [SPool (SS.EvEpoch n)] [e] sys'.
Proof.
  intros F sys'. pose proof (f_tied _ _ F) as T. unfold tied in T.
  set (b := worth (SS.w_pool (sy_pool sys)) (g_self g)) in *.
  set (e := EGrowth pid (fst b) (snd b)).
  assert (S : step_obs g (sy_lockup sys) e = (sy_lockup sys', [])).
  { unfold e. cbn [step_obs]. rewrite T. pose proof (i_pools _ (f_inv _ _ F) pid) as X. rewrite T in X.
    match goal with |- context[if ?c then _ else _] => replace c with true end.
    - rewrite <- surjective_pairing. reflexivity.
    - symmetry. rewrite andb_true_iff, N.leb_le, N.ltb_lt. lia. }
  assert (E : sy_lockup sys' = step g (sy_lockup sys) e) by (unfold step; now rewrite S).
  assert (P : plain (sy_lockup sys) e).
  { unfold plain, e. cbn. rewrite T. repeat split; apply N.le_refl. }
  assert (Ep : w_pools (sy_lockup sys') pid = b) by apply set_pool_same.
  split.
  { split.
    - rewrite E. apply inv_step, F.
    - rewrite E. apply steady_step; [apply F|apply F|apply P].
    - exact Ep.
    - destruct (f_pool _ _ F) as (k & [W1 W2 W3 W4] & K). exists k. split; [|exact K]. split; auto. cbn. lia.
    - exact (f_wealth _ _ F).
    - pose proof (f_ripe _ _ F) as R. unfold epoch, ripens in *. cbn. lia.
    - exact (f_owner _ _ F).
    - exact (f_sel _ _ F). }
  repeat (split; [reflexivity|]). split; [now rewrite Ep, T|].
  exists e. apply leads_one; [exact I|exact P|exact S].
Qed.

(** The account calls the lockup. *)
Lemma call_fit j j' sys m s p :
  fit j sys -> who <> g_self g -> methods m = true -> reveals_covered g (sy_lockup sys) (ECall who 0 m) ->
  exec (call_ctx g (sy_lockup sys) who) (w_lockup (sy_lockup sys)) m = Ok (s, p) ->
  spent p <= w_balance (sy_lockup sys) -> get_staking_pool_account_id s = Some pid ->
  j' + total to_stake (posted p) <= j ->
  let sys' := sstep g pid sys (SLockup (ECall who 0 m)) in
  fit j' sys' /\ sy_pool sys' = sy_pool sys /\
  sy_lockup sys' = after (sy_lockup sys) s (w_msgs (sy_lockup sys)) p /\
  leads sys [SLockup (ECall who 0 m)] [ECall who 0 m] sys'.
Proof.
  intros F Hw Hm Hrv Hx Hsp Hsel Hj sys'.
  pose proof (call_obs g _ _ _ _ _ Hw Hx Hsp) as S.
  assert (E : sy_lockup sys' = after (sy_lockup sys) s (w_msgs (sy_lockup sys)) p).
  { unfold sys', sstep. cbn [sstep_obs involves fst sy_lockup]. unfold step. now rewrite S. }
  assert (E' : sy_lockup sys' = step g (sy_lockup sys) (ECall who 0 m)) by reflexivity.
  assert (P : plain (sy_lockup sys) (ECall who 0 m)) by (repeat split; assumption).
  split; [|split; [reflexivity|split; [exact E|]]].
  - split.
    + rewrite E'. apply inv_step, F.
    + rewrite E'. apply steady_step; [apply F|apply F|reflexivity].
    + unfold tied. rewrite E'. rewrite untouched by reflexivity. exact (f_tied _ _ F).
    + destruct (f_pool _ _ F) as (k & W & K). exists k. split; [exact W|]. rewrite E. unfold after. cbn [w_msgs].
      rewrite total_app. lia.
    + pose proof (f_wealth _ _ F) as X. unfold wealth in *. change (sy_pool sys') with (sy_pool sys). rewrite E. unfold after. cbn [w_msgs w_balance].
      rewrite total_app. assert (total carried (posted p) = spent p) by (destruct p; cbn; lia). lia.
    + exact (f_ripe _ _ F).
    + exact (f_owner _ _ F).
    + rewrite E. exact Hsel.
  - apply leads_one; [split; [reflexivity|exact Hm]|exact P|].
    unfold sys', sstep. cbn [sstep_obs involves fst snd sy_lockup]. unfold step. now destruct (step_obs g (sy_lockup sys) (ECall who 0 m)).
Qed.

(** * The owner leaves the pool *)
Definition way (sys sys' : system) : Prop :=
  (exists evs es, leads sys evs es sys') /\
  stays (w_lockup (sy_lockup sys)) (w_lockup (sy_lockup sys')) /\
  controlled (sy_lockup sys) <= controlled (sy_lockup sys') /\ w_time (sy_lockup sys') = w_time (sy_lockup sys).
Lemma way_trans a b c : way a b -> way b c -> way a c.
Proof.
  intros ((l & l' & L) & A1 & A2 & A3) ((m & m' & M) & B1 & B2 & B3).
  split; [exists (l ++ m)%list, (l' ++ m')%list; eapply leads_app; eauto|].
  split; [eapply stays_trans; eauto|]. split; [lia|congruence].
Qed.

Lemma tick_way j sys m rest :
  fit j sys -> w_msgs (sy_lockup sys) = m :: rest ->
  exists ev e, delivers sys m ev e /\ plain (sy_lockup sys) e /\ way sys (sstep g pid sys ev) /\
    fit j (sstep g pid sys ev) /\ epoch (sstep g pid sys ev) = epoch sys /\
    sy_lockup (sstep g pid sys ev) = step g (sy_lockup sys) e /\
    ((forall cb op, m = MCall (RPool pid op) cb -> match op with PUnstake _ | PUnstakeAll => False | _ => True end) ->
     ripe sys -> ripe (sstep g pid sys ev)).
Proof.
  intros F Hw. destruct (tick _ _ _ _ F Hw) as (ev & e & D & A & P & F' & Ee & Es & HR).
  assert (E : sy_lockup (sstep g pid sys ev) = step g (sy_lockup sys) e) by (unfold step; now rewrite Es).
  exists ev, e. repeat (split; [assumption|]). split; [|auto].
  destruct (arrival _ _ _ (f_inv _ _ F) (f_sel _ _ F) (delivers_arrives _ _ _ _ D)) as (A1 & A2 & A3).
  rewrite <- E in A1, A2, A3. split; [|auto]. eexists. eexists. eapply leads_one; eassumption.
Qed.

(** The pool serves the only message. *)
Lemma tick_pool j sys op cb :
  fit j sys -> w_msgs (sy_lockup sys) = [MCall (RPool pid op) (Some cb)] ->
  exists o sys' pools new l, way sys sys' /\ fit j sys' /\ epoch sys' = epoch sys /\
    execute (sy_lockup sys) (RPool pid op) (Some cb) o = Some (pools, new, l) /\
    sy_lockup sys' = mkWorld (w_lockup (sy_lockup sys)) (w_balance (sy_lockup sys)) (w_time (sy_lockup sys)) pools new /\
    view_fails (sy_lockup sys) (EDeliver 0 o) = false /\
    (match op with PUnstake _ | PUnstakeAll => False | _ => True end -> ripe sys -> ripe sys') /\
    match pool_call op with
    | None => sy_pool sys' = sy_pool sys
    | Some m =>
        let e := SS.EvCall (g_self g) (attached_to (RPool pid op)) (lk sys) [] m in
        sy_pool sys' = fst (SS.step pid (sy_pool sys) e) /\ (o = OFail -> snd (SS.step pid (sy_pool sys) e) = None)
    end.
Proof.
  intros F Hw. destruct (tick_way _ _ _ _ F Hw) as (ev & e & D & P & Wy & F' & Ee & Es & HR).
  assert (HQ : request pid (sy_lockup sys) 0 = Some (op, Some cb)).
  { unfold request. rewrite Hw. cbn. now rewrite String.eqb_refl. }
  inversion D; subst; [|match goal with H : forall q op, _ <> _ |- _ => destruct (H _ _ eq_refl) end].
  destruct (execute (sy_lockup sys) (RPool pid op) (Some cb) o) as [[[pools new] l]|] eqn:E; [|congruence].
  eexists o, _, pools, new, l. split; [exact Wy|]. split; [exact F'|]. split; [exact Ee|]. split; [exact E|].
  split; [|split; [apply P|split]].
  - rewrite Es. unfold step, step_obs. rewrite Hw. cbn [nth_error]. rewrite E. reflexivity.
  - intros H. apply HR. intros cb0 op0 [= <- _]. exact H.
  - rewrite sstep_pool. cbn [pool_event]. rewrite HQ. destruct (pool_call op) as [m|]; cbn [option_map]; auto.
Qed.

(** The only message is a callback. *)
Lemma tick_back j sys cb r :
  fit j sys -> w_msgs (sy_lockup sys) = [MBack cb r] -> may_fail cb r = false ->
  exists sys' s p, way sys sys' /\ fit j sys' /\ sy_pool sys' = sy_pool sys /\
    effect (back_ctx g (sy_lockup sys) r) (w_lockup (sy_lockup sys)) cb s p /\
    sy_lockup sys' = after (sy_lockup sys) s [] p.
Proof.
  intros F Hw Hf. destruct (tick_way _ _ _ _ F Hw) as (ev & e & D & P & Wy & F' & Ee & Es & HR).
  pose proof (tick_wt _ _ _ _ _ _ F Hw D) as Hlt.
  inversion D; subst. exists (sstep g pid sys (SLockup (ERun 0))).
  assert (C : exists s p, effect (back_ctx g (sy_lockup sys) r) (w_lockup (sy_lockup sys)) cb s p /\
    step g (sy_lockup sys) (ERun 0) = after (sy_lockup sys) s [] p).
  { generalize (step_move g (sy_lockup sys) (ERun 0) (f_inv _ _ F)). revert Hlt.
    generalize (step g (sy_lockup sys) (ERun 0)) (snd (step_obs g (sy_lockup sys) (ERun 0))). intros w' l Hlt Hmv.
    inversion Hmv; subst; [lia| | |]; match goal with H : nth_error _ _ = _ |- _ => rewrite Hw in H; injection H; intros; subst end; try congruence.
    rewrite Hw. cbn [drop_nth]. eauto. }
  destruct C as (s & p & C1 & C2). exists s, p. split; [exact Wy|]. split; [exact F'|].
  split; [rewrite sstep_pool; reflexivity|]. split; [exact C1|]. now rewrite Es.
Qed.

Lemma tick_tokens j sys a rest :
  fit j sys -> w_msgs (sy_lockup sys) = MTokens a :: rest ->
  exists sys', way sys sys' /\ fit j sys' /\ sy_pool sys' = sy_pool sys /\ w_msgs (sy_lockup sys') = rest.
Proof.
  intros F Hw. destruct (tick_way _ _ _ _ F Hw) as (ev & e & D & P & Wy & F' & Ee & Es & HR).
  inversion D; subst. eexists. split; [exact Wy|]. split; [exact F'|]. split; [rewrite sstep_pool; reflexivity|].
  rewrite Es. unfold step, step_obs. rewrite Hw. reflexivity.
Qed.

Lemma idle_when_quiet j sys : fit j sys -> w_msgs (sy_lockup sys) = [] ->
  exists d, staking_information (w_lockup (sy_lockup sys)) = Some (mkStaking pid Idle d).
Proof.
  intros F Hw. pose proof (f_sel _ _ F) as Hs. unfold get_staking_pool_account_id in Hs.
  pose proof (s_one _ (f_steady _ _ F)) as H1. rewrite Hw in H1. unfold busy in H1.
  destruct (staking_information (w_lockup (sy_lockup sys))) as [[p st d]|]; [|discriminate].
  cbn in Hs, H1. injection Hs as ->. destruct st; [exists d; reflexivity|]. specialize (H1 eq_refl). discriminate.
Qed.

Lemma no_shares_no_stake S1 p u : SP.pinv S1 p -> S1 <> 0 ->
  (fst (worth p u) = 0 <-> SM.stake_shares (macct p u) = 0).
Proof.
  intros I Z. rewrite worth_staked. pose proof (SP.pi_price _ _ I) as HP. pose proof (SA.shares_le _ _ u I) as HS.
  split; intros H.
  - destruct (N.eq_dec (SM.stake_shares (macct p u)) 0) as [|NZ]; [assumption|exfalso].
    assert (1 <= SM.total_staked_balance p * SM.stake_shares (macct p u) / SM.total_stake_shares p); [|lia].
    apply N.div_le_lower_bound; nia.
  - rewrite H, N.mul_0_r. now destruct (SM.total_stake_shares p).
Qed.

Lemma quiet_call j j' sys m op cb g1 g2 d :
  fit j sys -> w_msgs (sy_lockup sys) = [] -> who <> g_self g -> methods m = true ->
  reveals_covered g (sy_lockup sys) (ECall who 0 m) ->
  not_terminating (w_lockup (sy_lockup sys)) ->
  exec (call_ctx g (sy_lockup sys) who) (w_lockup (sy_lockup sys)) m =
    Ok (with_pool (w_lockup (sy_lockup sys)) pid Busy d, Some (mkPromise (RPool pid op) g1 (Some (cb, g2)))) ->
  attached_to (RPool pid op) = 0 -> j' + to_stake (MCall (RPool pid op) (Some cb)) <= j ->
  exists sys', way sys sys' /\ fit j' sys' /\ sy_pool sys' = sy_pool sys /\
    w_msgs (sy_lockup sys') = [MCall (RPool pid op) (Some cb)].
Proof.
  intros F Hw Hne Hm Hrv HT Hx Ha Hj.
  destruct (call_fit j j' sys m _ _ F Hne Hm Hrv Hx) as (F' & E1 & E2 & L);
    [cbn [spent p_remote]; lia|reflexivity|cbn [posted p_remote p_then option_map fst total fold_right]; lia|].
  eexists. split; [|split; [exact F'|split; [exact E1|]]].
  - split; [eauto|]. rewrite E2. unfold after. cbn [w_lockup w_time spent p_remote]. rewrite Ha, N.sub_0_r.
    split; [|split; [|reflexivity]].
    + split; [reflexivity|]. split; [reflexivity|]. split; [reflexivity|]. intros p0. rewrite (f_sel _ _ F). auto.
    + unfold controlled, at_pool. cbn [w_balance w_msgs w_pools w_lockup]. rewrite Hw, (f_sel _ _ F).
      change (get_staking_pool_account_id (with_pool (w_lockup (sy_lockup sys)) pid Busy d)) with (Some pid).
      rewrite total_app. cbn [total fold_right]. lia.
  - rewrite E2. unfold after. cbn [w_msgs]. rewrite Hw. reflexivity.
Qed.

Lemma owner_starts w d :
  staking_information (w_lockup w) = Some (mkStaking pid Idle d) -> not_terminating (w_lockup w) ->
  who = owner_account_id (w_lockup w) ->
  (exists g1 g2, exec (call_ctx g w who) (w_lockup w) UnstakeAll =
     Ok (with_pool (w_lockup w) pid Busy d,
         Some (mkPromise (RPool pid PUnstakeAll) g1 (Some (OnStakingPoolUnstakeAll, g2))))) /\
  (exists g1 g2, exec (call_ctx g w who) (w_lockup w) WithdrawAllFromStakingPool =
     Ok (with_pool (w_lockup w) pid Busy d,
         Some (mkPromise (RPool pid PGetUnstaked) g1 (Some (OnGetAccountUnstakedBalanceToWithdrawByOwner, g2))))).
Proof.
  intros Hs HT Ho. unfold exec, unstake_all, withdraw_all_from_staking_pool, assert_owner, assert_staking_pool_is_idle,
    assert_no_termination, set_staking_pool_status, ask, call_ctx. cbn [ctx_predecessor].
  rewrite <- Ho, String.eqb_refl, Hs. unfold not_terminating in HT.
  destruct (vesting_information (w_lockup w)) eqn:Ev; try contradiction; cbn; rewrite ?Hs; cbn; split; eexists; eexists; reflexivity.
Qed.

Lemma quiet_worth j sys : fit j sys -> w_msgs (sy_lockup sys) = [] ->
  SM.stake_shares (macct (SS.w_pool (sy_pool sys)) (g_self g)) = 0 ->
  SM.unstaked (macct (SS.w_pool (sy_pool sys)) (g_self g)) = 0 ->
  worth (SS.w_pool (sy_pool sys)) (g_self g) = (0, 0) /\ controlled (sy_lockup sys) = w_balance (sy_lockup sys).
Proof.
  intros F Hw H1 H2. destruct (fit_sound _ _ F) as (k & W & _).
  pose proof (no_shares_no_stake _ _ (g_self g) (SH.wi_pool _ _ _ W) HS0) as Z. apply Z in H1.
  assert (E : worth (SS.w_pool (sy_pool sys)) (g_self g) = (0, 0)).
  { pose proof (worth_unstaked (SS.w_pool (sy_pool sys)) (g_self g)) as U. rewrite H2 in U.
    destruct (worth (SS.w_pool (sy_pool sys)) (g_self g)); cbn in *; congruence. }
  split; [exact E|]. unfold controlled, at_pool. rewrite Hw, (f_sel _ _ F), (f_tied _ _ F), E. cbn. lia.
Qed.

(** Unstaking everything: afterwards nothing is in flight and there are no shares. *)
Lemma leave_stake j sys :
  fit (j + 1) sys -> w_msgs (sy_lockup sys) = [] -> not_terminating (w_lockup (sy_lockup sys)) ->
  who = owner_account_id (w_lockup (sy_lockup sys)) -> who <> g_self g -> methods UnstakeAll = true ->
  epoch sys + 4 < U64_BOUND ->
  exists sys', way sys sys' /\ fit j sys' /\ epoch sys' = epoch sys /\ w_msgs (sy_lockup sys') = [] /\
    SM.stake_shares (macct (SS.w_pool (sy_pool sys')) (g_self g)) = 0.
Proof.
  intros F Hw HT Ho Hne Hm HE.
  destruct (idle_when_quiet _ _ F Hw) as (d & Hs).
  destruct (owner_starts _ _ Hs HT Ho) as ((g1 & g2 & Hx) & _).
  destruct (quiet_call (j + 1) j sys _ _ _ _ _ _ F Hw Hne Hm I HT Hx eq_refl) as (s1 & W1 & F1 & P1 & M1); [cbn; lia|].
  destruct (tick_pool _ _ _ _ F1 M1) as (o & s2 & pools & new & l & W2 & F2 & E2 & X2 & L2 & _ & _ & P2).
  cbn [pool_call attached_to] in P2. destruct P2 as (P2 & Q2).
  destruct (fit_sound _ _ F1) as (k & Wi & _).
  assert (Z2 : SM.stake_shares (macct (SS.w_pool (sy_pool s2)) (g_self g)) = 0).
  { rewrite P2. destruct (SS.step pid (sy_pool s1) _) as [pw' [ps|]] eqn:ST.
    - cbn [fst]. eapply unstake_all_empties; eauto.
    - cbn [fst]. assert (fst (worth (SS.w_pool (sy_pool s1)) (g_self g)) = 0) as Zw.
      { destruct (N.eq_dec (fst (worth (SS.w_pool (sy_pool s1)) (g_self g))) 0) as [|NZ]; [assumption|exfalso].
        apply (pool_unstakes_all _ _ F1); [lia|unfold epoch; rewrite P1; exact HE|now rewrite ST]. }
      pose proof (SH.step_call_none _ _ _ _ _ _ _ _ ST) as ->.
      now apply (no_shares_no_stake _ _ _ (SH.wi_pool _ _ _ Wi) HS0) in Zw. }
  assert (M2 : exists r, w_msgs (sy_lockup s2) = [MBack OnStakingPoolUnstakeAll r]).
  { rewrite L2. cbn [w_msgs]. destruct o; cbn in X2; try discriminate X2; [|destruct (pool_keeps _ _ _); [|discriminate X2]];
      injection X2 as <- <- <-; eexists; reflexivity. }
  destruct M2 as (r & M2).
  destruct (tick_back _ _ _ _ F2 M2 eq_refl) as (s3 & s & p & W3 & F3 & P3 & C3 & L3).
  exists s3. split; [eapply way_trans; [exact W1|eapply way_trans; eassumption]|]. split; [exact F3|].
  split; [unfold epoch; rewrite P3; fold (epoch s2); rewrite E2; unfold epoch; now rewrite P1|]. rewrite P3. split; [|exact Z2].
  rewrite L3. inversion C3; subst; try discriminate; try reflexivity;
    match goal with H : _ \/ _ |- _ => destruct H; discriminate | H : owner_op _ = _ |- _ => discriminate H end.
Qed.

(** Withdrawing everything. *)
Lemma leave_unstaked j sys :
  fit j sys -> w_msgs (sy_lockup sys) = [] -> not_terminating (w_lockup (sy_lockup sys)) ->
  who = owner_account_id (w_lockup (sy_lockup sys)) -> who <> g_self g -> methods WithdrawAllFromStakingPool = true ->
  ripe sys -> SM.stake_shares (macct (SS.w_pool (sy_pool sys)) (g_self g)) = 0 ->
  exists sys', way sys sys' /\ fit j sys' /\ w_msgs (sy_lockup sys') = [] /\
    SM.stake_shares (macct (SS.w_pool (sy_pool sys')) (g_self g)) = 0 /\
    SM.unstaked (macct (SS.w_pool (sy_pool sys')) (g_self g)) = 0.
Proof.
  intros F Hw HT Ho Hne Hm HR HZ.
  destruct (idle_when_quiet _ _ F Hw) as (d & Hs).
  destruct (owner_starts _ _ Hs HT Ho) as (_ & (g1 & g2 & Hx)).
  destruct (quiet_call j j sys _ _ _ _ _ _ F Hw Hne Hm I HT Hx eq_refl) as (s1 & W1 & F1 & P1 & M1); [cbn; lia|].
  destruct (tick_pool _ _ _ _ F1 M1) as (o & s2 & pools & new & l & W2 & F2 & E2 & X2 & L2 & V2 & R2 & P2).
  cbn [pool_call] in P2.
  set (x := snd (worth (SS.w_pool (sy_pool s1)) (g_self g))).
  assert (M2 : w_msgs (sy_lockup s2) = [MBack OnGetAccountUnstakedBalanceToWithdrawByOwner (Some (ABalance x))]).
  { rewrite L2. cbn [w_msgs]. cbn [view_fails] in V2. rewrite M1 in V2. cbn [nth_error is_view] in V2.
    destruct o; cbn in X2; try discriminate X2; try discriminate V2.
    - injection X2 as <- <- <-. unfold x. now rewrite <- (f_tied _ _ F1).
    - unfold pool_keeps in X2. destruct (w_pools (sy_lockup s1) pid). rewrite andb_false_r in X2. discriminate X2. }
  assert (R1 : ripe s1) by (unfold ripe, epoch in *; now rewrite P1). specialize (R2 I R1).
  destruct (tick_back _ _ _ _ F2 M2 eq_refl) as (s3 & s & p & W3 & F3 & P3 & C3 & L3).
  assert (W13 : way sys s3) by (eapply way_trans; [exact W1|eapply way_trans; eassumption]).
  assert (R3 : ripe s3) by (unfold ripe, epoch in *; now rewrite P3).
  assert (Ex : x = SM.unstaked (macct (SS.w_pool (sy_pool sys)) (g_self g))) by (unfold x; rewrite P1; apply worth_unstaked).
  assert (C : (x = 0 /\ w_msgs (sy_lockup s3) = []) \/
    (0 < x /\ w_msgs (sy_lockup s3) = [MCall (RPool pid (PWithdraw x)) (Some (OnStakingPoolWithdraw x))])).
  { rewrite L3. unfold after. cbn [w_msgs app].
    inversion C3; subst; cbn [back_ctx ctx_results] in *; try discriminate;
      try match goal with H : _ \/ _ |- _ => destruct H; discriminate | H : owner_op _ = _ |- _ => discriminate H end.
    - left. match goal with H : _ :: _ = _ :: _ |- _ => injection H as <- <- end. cbn in H1. apply N.eqb_eq in H1. auto.
    - right. match goal with H : _ :: _ = _ :: _ |- _ => injection H as <- <- end. split; [assumption|].
      pose proof (f_sel _ _ F2) as Sel. unfold get_staking_pool_account_id in Sel.
      match goal with H : staking_information _ = Some _ |- _ => rewrite H in Sel end. cbn in Sel. injection Sel as ->. reflexivity. }
  destruct C as [(Zx & M3)|(Px & M3)].
  - exists s3. split; [exact W13|]. split; [exact F3|]. split; [exact M3|]. rewrite P3, P2, P1. split; [exact HZ|]. congruence.
  - destruct (tick_pool _ _ _ _ F3 M3) as (o4 & s4 & pools4 & new4 & l4 & W4 & F4 & E4 & X4 & L4 & _ & _ & P4).
    cbn [pool_call attached_to] in P4. destruct P4 as (P4 & Q4).
    assert (A4 : snd (SS.step pid (sy_pool s3) (SS.EvCall (g_self g) 0 (lk s3) [] (SM.Withdraw x))) <> None).
    { apply (pool_pays _ _ _ F3 Px); [|exact R3]. rewrite P3, P2. unfold x. apply N.le_refl. }
    destruct (SS.step pid (sy_pool s3) _) as [pw' [ps|]] eqn:ST; [|now destruct A4].
    cbn [fst snd] in P4, Q4.
    destruct (fit_sound _ _ F3) as (k & Wi & _).
    destruct (withdraw_takes _ _ _ _ _ _ _ _ _ _ Wi (not_eq_sym (f_owner _ _ F3)) ST) as (Z1 & Z2).
    rewrite P3, P2, P1 in Z1, Z2.
    assert (M4 : w_msgs (sy_lockup s4) = (tokens x ++ [MBack (OnStakingPoolWithdraw x) (Some AVoid)])%list).
    { rewrite L4. cbn [w_msgs]. clearbody x. destruct o4; cbn [execute is_view] in X4; try discriminate X4; try discriminate (Q4 eq_refl).
      destruct (pool_keeps _ _ _) in X4; [|discriminate X4]. injection X4 as <- <- <-. reflexivity. }
    unfold tokens in M4. replace (x =? 0) with false in M4 by (symmetry; apply N.eqb_neq; lia). cbn [app] in M4.
    destruct (tick_tokens _ _ _ _ F4 M4) as (s5 & W5 & F5 & P5 & M5).
    destruct (tick_back _ _ _ _ F5 M5 eq_refl) as (s6 & s' & p' & W6 & F6 & P6 & C6 & L6).
    exists s6. split; [eapply way_trans; [exact W13|eapply way_trans; [exact W4|eapply way_trans; eassumption]]|].
    split; [exact F6|]. rewrite P6, P5, P4. split; [|split; [congruence|lia]].
    rewrite L6. inversion C6; subst; cbn [back_ctx ctx_results] in *; try discriminate; try reflexivity;
      match goal with H : _ \/ _ |- _ => destruct H; discriminate | H : owner_op _ = _ |- _ => discriminate H end.
Qed.

Lemma leave sys :
  fit 1 sys -> not_terminating (w_lockup (sy_lockup sys)) ->
  who = owner_account_id (w_lockup (sy_lockup sys)) -> who <> g_self g ->
  methods UnstakeAll = true -> methods WithdrawAllFromStakingPool = true ->
  epoch sys + 4 < U64_BOUND ->
  exists sys', way sys sys' /\ fit 0 sys' /\ w_msgs (sy_lockup sys') = [] /\
    worth (SS.w_pool (sy_pool sys')) (g_self g) = (0, 0) /\ controlled (sy_lockup sys') = w_balance (sy_lockup sys').
Proof.
  intros F HT Ho Hne M1 M2 HE.
  destruct (flush _ _ F) as (evs & es & s1 & L1 & F1 & Q1 & E1 & St & C1 & T1 & _).
  assert (W1 : way sys s1) by (split; [eauto|auto]).
  assert (N1 : forall s', way sys s' -> not_terminating (w_lockup (sy_lockup s')) /\ who = owner_account_id (w_lockup (sy_lockup s'))).
  { intros s' (_ & (A & B & _) & _). split; [unfold not_terminating in *; now rewrite (B HT)|congruence]. }
  destruct (N1 _ W1) as (HT1 & Ho1).
  destruct (leave_stake 0 s1 F1 Q1 HT1 Ho1 Hne M1) as (s2 & W2 & F2 & E2 & Q2 & Z2); [lia|].
  destruct (epochs_pass _ _ 4 F2) as (F3 & E3 & R3 & P3 & L3 & B3 & T3 & Q3 & Pl3 & e & Ld3).
  set (s3 := sstep g pid s2 (SPool (SS.EvEpoch 4))) in *.
  assert (W3 : way s2 s3).
  { split; [eauto|]. rewrite L3. split; [apply stays_refl|]. split; [|exact T3].
    unfold controlled, at_pool. rewrite L3, B3, Q3, (f_sel _ _ F2), Pl3. apply N.le_refl. }
  assert (R : ripe s3) by (unfold ripe; rewrite R3, E3; apply F2).
  assert (W13 : way sys s3) by (eapply way_trans; [exact W1|eapply way_trans; eassumption]).
  destruct (N1 _ W13) as (HT3 & Ho3).
  destruct (leave_unstaked 0 s3 F3) as (s4 & W4 & F4 & Q4 & Z4 & Z4'); auto; try congruence.
  exists s4. split; [eapply way_trans; eassumption|]. split; [exact F4|]. split; [exact Q4|].
  eapply quiet_worth; eassumption.
Qed.

(** * The foundation finishes a termination *)
Lemma good_leads j sys evs es sys' :
  LockupLive.good who (sy_lockup sys) -> leads sys evs es sys' -> fit j sys' -> LockupLive.good who (sy_lockup sys').
Proof.
  intros G L F. destruct (leads_world _ _ _ _ L) as (E & _ & P). split; [apply F|apply F| | |].
  all: destruct G as [H1 _ H3 H4 H5]; rewrite E; clear L F E evs sys'; revert P H1 H3 H4 H5; generalize (sy_lockup sys).
  all: induction es as [|e es IH]; intros w P H1 H3 H4 H5; [assumption|]; cbn [LockupWorld.final all_events] in *;
    destruct P as ((_ & P2 & P3) & P); apply IH; auto using inv_step, covered_step, prospects_step, founded_step.
Qed.

Lemma finish (r : account_id) :
  who <> g_self g -> is_valid_account_id r = true ->
  methods TerminationPrepareToWithdraw = true -> methods (TerminationWithdraw r) = true ->
  (forall w to a, answers w (RTransfer to a) = ODone) ->
  forall sys, LockupLive.good who (sy_lockup sys) -> fit 0 sys ->
    (deficit (w_lockup (sy_lockup sys)) -> fit 1 sys /\ epoch sys + 4 < U64_BOUND) ->
    w_msgs (sy_lockup sys) = [] ->
  exists evs es sys', leads sys evs es sys' /\ complete (sy_lockup sys').
Proof.
  intros Hf Hr Hm1 Hm2 Htr sys. remember (phi (w_lockup (sy_lockup sys)) 0) as k eqn:Ek. revert sys Ek.
  induction k as [k IH] using (well_founded_induction N.lt_wf_0). intros sys -> Hg F0 F1 Hw.
  assert (Go : forall (j j' : N) sys1 evs1 es1 m s p, leads sys evs1 es1 sys1 -> fit j sys1 -> w_lockup (sy_lockup sys1) = w_lockup (sy_lockup sys) ->
    w_msgs (sy_lockup sys1) = [] -> methods m = true -> reveals_covered g (sy_lockup sys1) (ECall who 0 m) ->
    exec (call_ctx g (sy_lockup sys1) who) (w_lockup (sy_lockup sys1)) m = Ok (s, p) -> spent p <= w_balance (sy_lockup sys1) ->
    get_staking_pool_account_id s = Some pid -> j' + total to_stake (posted p) <= j ->
    Forall positive (posted p) -> (Exists to_withdraw (posted p) -> ripe sys1) ->
    (Exists to_unstake (posted p) -> epoch sys1 + 4 < U64_BOUND) -> ~ deficit s ->
    phi s (total to_foundation_pending (posted p)) < phi (w_lockup (sy_lockup sys)) 0 ->
    exists evs es sys', leads sys evs es sys' /\ complete (sy_lockup sys')).
  { intros j j' sys1 evs1 es1 m s p L1 G1 El Hw1 Hm Hrv He Hsp Hsel Hj HP HTW HTU HD Hlt.
    destruct (call_fit j j' sys1 m s p G1 Hf Hm Hrv He Hsp Hsel Hj) as (G2 & P2 & L2 & LD2).
    set (sys2 := sstep g pid sys1 (SLockup (ECall who 0 m))) in *.
    assert (Hms : w_msgs (sy_lockup sys2) = posted p) by (rewrite L2; unfold after; cbn [w_msgs]; now rewrite Hw1).
    pose proof (good_leads _ _ _ _ _ Hg L1 G1) as Hg1. pose proof (good_leads _ _ _ _ _ Hg1 LD2 G2) as Hg2.
    destruct (flush _ _ G2) as (e3 & e3' & sys3 & L3 & G3 & M3 & _ & _ & _ & _ & Q).
    destruct Q as (Q1 & Q2); [exact Htr|apply Hg2| |].
    { split; rewrite Hms.
      - destruct p; cbn [posted]; repeat constructor.
      - exact HP.
      - unfold ripe, epoch. rewrite P2. exact HTW.
      - unfold epoch. rewrite P2. exact HTU. }
    assert (El2 : w_lockup (sy_lockup sys2) = s) by (rewrite L2; reflexivity).
    unfold pend in Q1. rewrite Hms, El2 in Q1. rewrite El2 in Q2.
    destruct (IH (phi (w_lockup (sy_lockup sys3)) 0) ltac:(lia) sys3 eq_refl) as (e4 & e4' & sys4 & L4 & C).
    - eapply good_leads; eassumption.
    - eapply fit_less; [|exact G3]. lia.
    - intros HDD. destruct (HD (Q2 HDD)).
    - exact M3.
    - exists (evs1 ++ [SLockup (ECall who 0 m)] ++ e3 ++ e4)%list, (es1 ++ [ECall who 0 m] ++ e3' ++ e4')%list, sys4.
      split; [|exact C]. eapply leads_app; [exact L1|]. eapply leads_app; [exact LD2|]. eapply leads_app; eassumption. }
  pose proof Hg as [HI HS HCov HPr [HT HF]]. unfold terminal in HT.
  destruct (vesting_information (w_lockup (sy_lockup sys))) as [| | |[u st]] eqn:Hv; try contradiction.
  { exists [], [], sys. split; [constructor|]. split; auto. }
  pose proof (HF (ex_intro _ _ eq_refl)) as Hfo.
  pose proof (pr_course _ HPr) as HC. unfold on_course in HC. rewrite Hv in HC. cbn [t_status unvested_amount] in HC.
  assert (Hst : get_termination_status (w_lockup (sy_lockup sys)) = Some st) by (unfold get_termination_status; rewrite Hv; reflexivity).
  destruct (idle_when_quiet _ _ F0 Hw) as (d & Hs).
  assert (Hidle : busy (w_lockup (sy_lockup sys)) = false) by (unfold busy; now rewrite Hs).
  pose proof (i_phase _ HI) as Hph. rewrite Hst, Hidle in Hph.
  pose proof (i_term _ HI) as Htm. rewrite Hst, Hw in Htm.
  assert (Hown : forall w, w_lockup w = w_lockup (sy_lockup sys) -> assert_called_by_foundation (call_ctx g w who) (w_lockup w) = Ok tt).
  { intros w E. unfold assert_called_by_foundation. cbn [call_ctx ctx_predecessor]. rewrite E, Hfo, String.eqb_refl. reflexivity. }
  destruct st; try (specialize (Hph eq_refl); discriminate); try discriminate Htm.
  - destruct (F1 Hst) as (F1' & HE).
    eapply (Go 1 0 sys [] [] TerminationPrepareToWithdraw); [constructor|exact F1'|reflexivity|exact Hw|exact Hm1|exact I| | | | | | | | |].
    + transitivity (termination_prepare_to_withdraw (call_ctx g (sy_lockup sys) who) (w_lockup (sy_lockup sys))); [reflexivity|].
      unfold termination_prepare_to_withdraw, set_termination_status, set_staking_pool_status, assert_staking_pool_is_idle, ask.
      rewrite (Hown _ eq_refl), Hs, Hst. cbn. rewrite Hv. cbn. rewrite Hs. cbn. reflexivity.
    + cbn. lia.
    + reflexivity.
    + cbn. lia.
    + cbn. repeat constructor.
    + cbn. intros X. exfalso. inversion X as [? ? Y|? ? Y]; [exact Y|inversion Y].
    + intros _. exact HE.
    + unfold deficit, get_termination_status. cbn. discriminate.
    + unfold phi. wsimpl. rewrite Hv. cbn [set_vesting set_staking vesting_information t_status unvested_amount rank]. cbn [posted total fold_right p_remote p_then option_map fst to_foundation_pending]. lia.
  - destruct (epochs_pass _ _ 4 F0) as (F3 & E3 & R3 & P3 & L3 & B3 & T3 & Q3 & Pl3 & e & Ld3).
    set (s3 := sstep g pid sys (SPool (SS.EvEpoch 4))) in *.
    eapply (Go 0 0 s3 _ _ TerminationPrepareToWithdraw); [exact Ld3|exact F3|exact L3|congruence|exact Hm1|exact I| | | | | | | | |].
    + transitivity (termination_prepare_to_withdraw (call_ctx g (sy_lockup s3) who) (w_lockup (sy_lockup s3))); [reflexivity|].
      unfold termination_prepare_to_withdraw, set_termination_status, set_staking_pool_status, assert_staking_pool_is_idle, ask.
      rewrite (Hown _ L3), L3, Hs, Hst. cbn. rewrite Hv. cbn. rewrite Hs. cbn. reflexivity.
    + cbn. lia.
    + reflexivity.
    + cbn. lia.
    + cbn. repeat constructor.
    + intros _. unfold ripe. rewrite R3, E3. apply F0.
    + cbn. intros X. exfalso. inversion X as [? ? Y|? ? Y]; [exact Y|inversion Y].
    + unfold deficit, get_termination_status. cbn. discriminate.
    + unfold phi. wsimpl. rewrite Hv. cbn [set_vesting set_staking vesting_information t_status unvested_amount rank]. cbn [posted total fold_right p_remote p_then option_map fst to_foundation_pending]. lia.
  - destruct (N.leb_spec (w_balance (sy_lockup sys)) MIN_BALANCE_FOR_STORAGE) as [Hle|Hgt].
    { exists [], [], sys. split; [constructor|]. split; [exact Hw|]. right. exists (mkTermination u ReadyToWithdraw). split; [exact Hv|].
      cbn [unvested_amount]. destruct HC as [[HC _]|HC].
      { pose proof (c_tokens _ HCov) as Hc. rewrite Hw, HC in Hc. cbn [total fold_right] in Hc.
        pose proof (held_le_locked (w_lockup (sy_lockup sys)) (w_time (sy_lockup sys)) (c_wf _ HCov)) as Hh.
        unfold held_by_vesting in Hh. rewrite Hv in Hh. cbn [unvested_amount] in Hh. lia. }
      rewrite Hw in HC. cbn [total fold_right] in HC. lia. }
    destruct (N.eq_dec u 0) as [->|Hu].
    { exists [], [], sys. split; [constructor|]. split; [exact Hw|]. right. exists (mkTermination 0 ReadyToWithdraw). split; [exact Hv|]. cbn. lia. }
    assert (Ha : 0 < N.min u (get_account_balance (w_balance (sy_lockup sys)))).
    { unfold get_account_balance, sat_sub. lia. }
    eapply (Go 0 0 sys [] [] (TerminationWithdraw r)); [constructor|exact F0|reflexivity|exact Hw|exact Hm2|exact I| | | | | | | | |].
    + transitivity (termination_withdraw (call_ctx g (sy_lockup sys) who) (w_lockup (sy_lockup sys)) r); [reflexivity|].
      unfold termination_withdraw, set_termination_status, ask.
      rewrite (Hown _ eq_refl), Hr, Hst, Hv. cbn [bind]. cbn [call_ctx ctx_balance].
      unfold get_terminated_unvested_balance. rewrite Hv. cbn [unvested_amount].
      apply N.ltb_lt in Ha. rewrite Ha. cbn. reflexivity.
    + cbn. unfold get_account_balance, sat_sub. lia.
    + unfold get_staking_pool_account_id, set_vesting. cbn. now rewrite Hs.
    + cbn. lia.
    + cbn. repeat constructor.
    + cbn. intros X. exfalso. inversion X as [? ? Y|? ? Y]; [exact Y|inversion Y].
    + cbn. intros X. exfalso. inversion X as [? ? Y|? ? Y]; [exact Y|inversion Y].
    + unfold deficit, get_termination_status. cbn. discriminate.
    + unfold phi. wsimpl. rewrite Hv. cbn [posted total fold_right p_remote p_then option_map fst to_foundation_pending with_term set_vesting vesting_information rank t_status unvested_amount].
      lia.
Qed.
End Path.

(** * From reachable states *)
Lemma fit_reachable g pid sys evs :
  sstarts g pid sys -> pool_within_limits g pid sys evs ->
  0 < SM.total_stake_shares (SS.w_pool (sy_pool sys)) -> all_other view_ok g pid sys evs ->
  let sys' := sfinal g pid sys evs in
  get_staking_pool_account_id (w_lockup (sy_lockup sys')) = Some pid ->
  SM.owner_id (SS.w_pool (sy_pool sys')) <> g_self g -> roomy g pid sys evs ->
  fit g pid (SM.total_stake_shares (SS.w_pool (sy_pool sys))) 1 sys' /\ epoch sys' + 4 < U64_BOUND.
Proof.
  intros H L Z V sys' Sel Ow (R1 & R2 & R3). split; [|exact R3].
  destruct (guarantees _ _ _ _ H L) as (levs & E1 & _ & _ & E4 & _).
  assert (I : inv (sy_lockup sys')) by now apply system_inv.
  pose proof (limits_now _ _ _ _ L) as L1.
  destruct (SF.within_winv _ _ _ (proj1 (proj2 H)) L1) as (W & K & B). rewrite <- pool_sees in W.
  split.
  - exact I.
  - unfold sys'. rewrite E1. apply steady_final; [apply (inv_start g _ (proj1 H))|apply (steady_start g _ (proj1 H))|].
    apply E4; [lia|exact V].
  - exact (proj1 (refine _ _ _ _ H L)).
  - eexists. split; [exact W|]. pose proof (to_stake_scnt (w_msgs (sy_lockup sys'))) as T. pose proof (i_one _ I) as O.
    change fund with SM.STAKE_SHARE_PRICE_GUARANTEE_FUND. lia.
  - exact R2.
  - unfold ripens, epoch, sys'. rewrite pool_sees.
    destruct (SF.avail_history pid (sy_pool sys) (pool_history g pid sys evs) (g_self g) (proj1 (proj2 H)))
      as (A1 & [A2|(en & A2 & A3 & A4)]).
    + rewrite A2. lia.
    + rewrite A4. destruct (A1 _ A2 A3) as (A5 & _). change SM.NUM_EPOCHS_TO_UNLOCK with 4. lia.
  - exact Ow.
  - exact Sel.
Qed.

Lemma leaves_from g pid S0 sys answers lk :
  fit g pid S0 1 sys -> epoch sys + 4 < U64_BOUND -> S0 <> 0 ->
  let w := sy_lockup sys in
  let owner := owner_account_id (w_lockup w) in
  get_termination_status (w_lockup w) = None -> g_self g <> pid -> owner <> g_self g ->
  possible answers -> unlocks g lk ->
  exists evs2, all_alone answers lk g pid owner owner_method sys evs2 /\
    let sys2 := sfinal g pid sys evs2 in
    w_msgs (sy_lockup sys2) = [] /\ busy (w_lockup (sy_lockup sys2)) = false /\
    worth (SS.w_pool (sy_pool sys2)) (g_self g) = (0, 0) /\
    controlled w <= w_balance (sy_lockup sys2) /\ fit g pid S0 0 sys2.
Proof.
  intros F HE NZ w owner HT Hs Ho P U.
  destruct (leave g pid answers lk _ owner owner_method P U NZ Hs sys F) as (s2 & W & F2 & M & X & C); auto.
  { unfold not_terminating, get_termination_status in *. fold w. now destruct (vesting_information (w_lockup w)). }
  destruct W as ((e & e' & Ld) & _ & W2 & _). exists e. split; [eapply leads_all; eassumption|].
  rewrite <- (leads_final _ _ _ _ _ _ _ _ _ _ Ld). cbv zeta. split; [exact M|].
  destruct (idle_when_quiet _ _ _ _ _ F2 M) as (d & D). split; [unfold busy; now rewrite D|]. split; [exact X|].
  split; [|exact F2]. fold w in W2. lia.
Qed.

Theorem owner_leaves g pid sys evs answers lk :
  sstarts g pid sys -> pool_within_limits g pid sys evs ->
  0 < SM.total_stake_shares (SS.w_pool (sy_pool sys)) -> all_other view_ok g pid sys evs ->
  let sys' := sfinal g pid sys evs in
  let w := sy_lockup sys' in
  let owner := owner_account_id (w_lockup w) in
  get_staking_pool_account_id (w_lockup w) = Some pid -> get_termination_status (w_lockup w) = None ->
  g_self g <> pid -> owner <> g_self g -> SM.owner_id (SS.w_pool (sy_pool sys')) <> g_self g ->
  roomy g pid sys evs -> possible answers -> unlocks g lk ->
  exists evs2, all_alone answers lk g pid owner owner_method sys' evs2 /\
    let sys2 := sfinal g pid sys' evs2 in
    w_msgs (sy_lockup sys2) = [] /\ busy (w_lockup (sy_lockup sys2)) = false /\
    worth (SS.w_pool (sy_pool sys2)) (g_self g) = (0, 0) /\
    controlled w <= w_balance (sy_lockup sys2).
Proof.
  intros H L Z V sys' w owner Sel HT Hs Ho Hp R P U.
  destruct (fit_reachable _ _ _ _ H L Z V Sel Hp R) as (F & HE). fold sys' in F, HE.
  assert (S0 : SM.total_stake_shares (SS.w_pool (sy_pool sys)) <> 0) by lia.
  destruct (leaves_from _ _ _ _ answers lk F HE S0 HT Hs Ho P U) as (e & A & M & B & X & C & _). exists e. auto 10.
Qed.

Lemma cashes_out_from g pid S0 sys' answers lk locked (r : account_id) :
  fit g pid S0 1 sys' -> epoch sys' + 4 < U64_BOUND -> S0 <> 0 ->
  let w := sy_lockup sys' in
  covered w ->
  let owner := owner_account_id (w_lockup w) in
  get_termination_status (w_lockup w) = None -> g_self g <> pid -> owner <> g_self g ->
  possible answers -> (forall w to a, answers w (RTransfer to a) = ODone) -> unlocks g lk ->
  are_transfers_enabled (w_lockup w) = true -> get_locked_amount (w_lockup w) (w_time w) = Ok locked ->
  N.max locked MIN_BALANCE_FOR_STORAGE < controlled w -> is_valid_account_id r = true ->
  exists evs2 a, all_alone answers lk g pid owner owner_method sys' evs2 /\
    In (BPaid r a false) (slog g pid sys' evs2) /\
    controlled w <= a + N.max locked MIN_BALANCE_FOR_STORAGE.
Proof.
  intros F HE S0' w Cov0 owner HT Hs Ho P Tr U En Lo Hlt Hr.
  assert (NT : not_terminating (w_lockup w)).
  { unfold not_terminating, get_termination_status in *. now destruct (vesting_information (w_lockup w)). }
  destruct (leave g pid answers lk _ owner owner_method P U S0' Hs sys' F) as (s2 & W & F2 & M & X & C); auto.
  destruct W as ((e & e' & Ld) & (T1 & T2 & T3 & T4) & W2 & W3). fold w in T1, T2, T3, T4, W2, W3.
  destruct (leads_world _ _ _ _ _ _ _ _ _ _ Ld) as (Q1 & Q2 & Q3). fold w in Q1, Q2, Q3.
  assert (Cov : covered (sy_lockup s2)).
  { rewrite Q1. apply covered_final; [apply F|exact Cov0|]. apply reveals_events.
    clear -Q3. revert Q3. generalize w. induction e' as [|ev e' IH]; intros w' Q; [exact I|]. destruct Q as (Q1 & Q2).
    split; [apply Q1|now apply IH]. }
  specialize (T3 En NT). specialize (T2 NT).
  set (w2 := sy_lockup s2) in *.
  assert (Lo2 : get_locked_amount (w_lockup w2) (w_time w2) = Ok locked).
  { unfold get_locked_amount, get_unvested_amount in *. now rewrite T3, T2, W3. }
  pose proof (get_locked_ok _ (w_time w2) (c_wf _ Cov)) as Lx. rewrite Lo2 in Lx. injection Lx as Lx.
  assert (Kn : get_known_deposited_balance (w_lockup w2) = 0).
  { pose proof (i_pool _ (f_inv _ _ _ _ _ F2)) as IP. fold w2 in IP. rewrite M in IP. unfold pool_total in IP.
    pose proof (f_sel _ _ _ _ _ F2) as Se. fold w2 in Se. unfold account_id in *. rewrite Se in IP. pose proof (f_tied _ _ _ _ _ F2) as T. unfold tied in T. fold w2 in T.
    rewrite T, X in IP. cbn in IP. lia. }
  set (a := N.min (w_balance w2 - locked) (w_balance w2 - MIN_BALANCE_FOR_STORAGE)).
  assert (Hb : w_balance w2 < U128_BOUND).
  { pose proof (f_wealth _ _ _ _ _ F2) as Y. unfold wealth in Y. fold w2 in Y. lia. }
  assert (Hx : exec (call_ctx g w2 owner) (w_lockup w2) (Transfer a r) = Ok (w_lockup w2, Some (mkPromise (RTransfer r a) 0 None))).
  { apply transfer_accepted; [exact (c_wf _ Cov)|cbn; lia|]. cbn [call_ctx ctx_attached ctx_predecessor ctx_timestamp ctx_balance].
    split; [reflexivity|]. split; [symmetry; exact T1|]. split; [unfold a; lia|]. split; [exact Hr|].
    split; [unfold are_transfers_enabled in *; now rewrite T3|].
    destruct (idle_when_quiet _ _ _ _ _ F2 M) as (d & D). split; [unfold busy; unfold w2; now rewrite D|].
    split; [unfold get_termination_status in *; now rewrite T2|].
    unfold liquid. rewrite Kn, <- Lx. lia. }
  destruct (call_fit g pid answers lk S0 owner owner_method S0'
     0 0 s2 (Transfer a r) _ _ F2 Ho eq_refl I Hx) as (F3 & P3 & L3 & Ld3).
  { cbn [spent p_remote attached_to]. fold w2. lia. }
  { exact (f_sel _ _ _ _ _ F2). }
  { cbn. lia. }
  set (s3 := sstep g pid s2 (SLockup (ECall owner 0 (Transfer a r)))) in *.
  fold w2 in L3.
  assert (M3 : w_msgs (sy_lockup s3) = [MCall (RTransfer r a) None]) by (rewrite L3; unfold after; cbn [w_msgs]; now rewrite M).
  pose (ev := SLockup (EDeliver 0 ODone)).
  assert (A4 : alone answers lk pid owner owner_method s3 ev).
  { exists (RTransfer r a), None. rewrite M3. split; [reflexivity|]. split; [now rewrite Tr|discriminate]. }
  exists (e ++ [SLockup (ECall owner 0 (Transfer a r)); ev])%list, a.
  assert (AA : all_alone answers lk g pid owner owner_method s2 [SLockup (ECall owner 0 (Transfer a r)); ev]).
  { split; [split; reflexivity|]. fold s3. split; [exact A4|exact I]. }
  split; [|split].
  - pose proof (leads_all _ _ _ _ _ _ _ _ _ _ Ld) as A. pose proof (leads_final _ _ _ _ _ _ _ _ _ _ Ld) as Ef.
    rewrite Ef in AA. clear -A AA. revert A AA. generalize sys'.
    induction e as [|x e IH]; intros q A AA; [exact AA|]. destruct A as (A1 & A2). split; [exact A1|now apply IH].
  - rewrite slog_app. apply in_or_app. right. rewrite <- (leads_final _ _ _ _ _ _ _ _ _ _ Ld). cbn [slog]. fold s3.
    apply in_or_app. right. apply in_or_app. left. unfold ev. cbn [sstep_obs involves]. unfold request. rewrite M3.
    cbn [nth_error]. cbn [snd step_obs]. rewrite M3. cbn. now left.
  - unfold a. lia.
Qed.

Theorem owner_cashes_out g pid sys evs answers lk locked (r : account_id) :
  sstarts g pid sys -> pool_within_limits g pid sys evs ->
  0 < SM.total_stake_shares (SS.w_pool (sy_pool sys)) -> all_other view_ok g pid sys evs ->
  public_schedule_sane (w_lockup (sy_lockup sys)) -> all_other (reveals_covered g) g pid sys evs ->
  let sys' := sfinal g pid sys evs in
  let w := sy_lockup sys' in
  let owner := owner_account_id (w_lockup w) in
  get_staking_pool_account_id (w_lockup w) = Some pid -> get_termination_status (w_lockup w) = None ->
  g_self g <> pid -> owner <> g_self g -> SM.owner_id (SS.w_pool (sy_pool sys')) <> g_self g ->
  roomy g pid sys evs -> possible answers -> (forall w to a, answers w (RTransfer to a) = ODone) -> unlocks g lk ->
  are_transfers_enabled (w_lockup w) = true -> get_locked_amount (w_lockup w) (w_time w) = Ok locked ->
  N.max locked MIN_BALANCE_FOR_STORAGE < controlled w -> is_valid_account_id r = true ->
  exists evs2 a, all_alone answers lk g pid owner owner_method sys' evs2 /\
    In (BPaid r a false) (slog g pid sys' evs2) /\
    controlled w <= a + N.max locked MIN_BALANCE_FOR_STORAGE.
Proof.
  intros H L Z V Sn Rv sys' w owner Sel HT Hs Ho Hp R P Tr U En Lo Hlt Hr.
  destruct (fit_reachable _ _ _ _ H L Z V Sel Hp R) as (F & HE). fold sys' in F, HE.
  destruct (guarantees _ _ _ _ H L) as (levs & E1 & _ & _ & _ & E5). fold sys' w in E1.
  eapply cashes_out_from; try eassumption; [lia|]. fold w. rewrite E1.
  apply covered_final; [apply (inv_start g _ (proj1 H))|apply (covered_start g _ (proj1 H) Sn)|now apply E5].
Qed.

(** The abstract history of a continued one. *)
Lemma refine_more g pid sys a levs b :
  sstarts g pid sys -> pool_within_limits g pid sys (a ++ b) ->
  sy_lockup (sfinal g pid sys a) = final g (sy_lockup sys) levs ->
  let m := sfinal g pid sys a in
  exists levs2, sy_lockup (sfinal g pid m b) = final g (sy_lockup m) levs2 /\
    slog g pid m b = log g (sy_lockup m) levs2 /\
    (all_other keeps_apart g pid m b -> all_events keeps_apart g (sy_lockup m) levs2) /\
    (all_other (reveals_covered g) g pid m b -> all_events (reveals_covered g) g (sy_lockup m) levs2).
Proof.
  intros H0 L E m. revert L. induction b as [|ev b IH] using rev_ind; intros L.
  - exists []. cbn. auto.
  - rewrite app_assoc in L.
    destruct (IH (limits_prefix _ _ _ _ _ L)) as (levs2 & E1 & E2 & E3 & E4).
    destruct (sound_at g pid sys (a ++ b) (proj1 (proj2 H0)) (limits_prefix _ _ _ _ _ L)) as (k & W).
    destruct (sound_at g pid sys ((a ++ b) ++ [ev]) (proj1 (proj2 H0)) L) as (k' & W').
    destruct (refine _ _ _ _ H0 (limits_prefix _ _ _ _ _ L)) as (T & _).
    rewrite (sfinal_app _ _ _ (a ++ b)) in W'. cbn [sfinal] in W'.
    destruct (refine_step g pid _ ev _ _ _ T W W') as (_ & R). rewrite sfinal_app in R. fold m in R.
    rewrite sfinal_app, slog_app. cbn [sfinal slog]. rewrite app_nil_r.
    destruct R as [(R1 & R2)|(e & R1 & R2 & R3 & R4)].
    + exists levs2. unfold sstep in *. rewrite R1, R2, app_nil_r. rewrite !all_other_app. tauto.
    + exists (levs2 ++ [e])%list. rewrite final_app, log_app, !all_other_app, !all_events_app, <- E1, E2.
      cbn [final log all_other all_events]. rewrite app_nil_r. unfold step, sstep in *. rewrite R1. cbn [fst snd].
      tauto.
Qed.

Lemma collects_from g pid S0 sys' answers lk w0 l1 e l2 u (r : account_id) :
  starts g w0 -> terminates g (final g w0 l1) e u -> sy_lockup sys' = final g w0 (l1 ++ e :: l2) ->
  fit g pid S0 1 sys' -> epoch sys' + 4 < U64_BOUND -> S0 <> 0 -> g_self g <> pid ->
  possible answers -> (forall w to a, answers w (RTransfer to a) = ODone) -> unlocks g lk ->
  is_valid_account_id r = true ->
  forall f, f <> g_self g -> LockupLive.good f (sy_lockup sys') ->
  exists evs2, all_alone answers lk g pid f foundation_method sys' evs2 /\
    u <= received (log g w0 (l1 ++ e :: l2) ++ slog g pid sys' evs2) + MIN_BALANCE_FOR_STORAGE.
Proof.
  intros H0 Te Ew F HE NZ Hs P Tr U Hr f Hfs Hgood.
  destruct (flush g pid answers lk _ f foundation_method P U NZ Hs _ _ F) as (e1 & e1' & s1 & L1 & F1 & M1 & Ep & _).
  destruct (finish g pid answers lk _ f foundation_method P U NZ Hs r Hfs Hr eq_refl eq_refl Tr s1) as (e2 & e2' & s2 & L2 & C).
  { eapply good_leads; [exact Hgood|exact L1|exact F1]. }
  { refine (fit_less _ _ _ NZ 1 0 _ _ F1). lia. }
  { intros _. split; [exact F1|lia]. }
  { exact M1. }
  pose proof (leads_app _ _ _ _ _ _ _ _ _ _ _ _ _ L1 L2) as LL.
  exists (e1 ++ e2)%list. split; [exact (leads_all _ _ _ _ _ _ _ _ _ _ LL)|].
  destruct (leads_world _ _ _ _ _ _ _ _ _ _ LL) as (Q1 & Q2 & _).
  pose proof (paying_history g w0 l1 e u (l2 ++ e1' ++ e2') H0 Te) as HP.
  replace (l1 ++ e :: l2 ++ e1' ++ e2')%list with ((l1 ++ e :: l2) ++ e1' ++ e2')%list in HP by (rewrite <- app_assoc; reflexivity).
  rewrite Q2, Ew, <- log_app.
  rewrite final_app, <- Ew, <- Q1 in HP. destruct C as (M2 & C). unfold paying_out in HP. rewrite M2 in HP. cbn [total fold_right] in HP.
  destruct C as [C|(ti & C & C2)]; rewrite C in HP; lia.
Qed.

(** Who terminates is the foundation, and its claim stands. *)
Lemma terminator g w e u : inv w -> terminates g w e u ->
  exists f, foundation_account_id (w_lockup w) = Some f /\ f <> g_self g /\ founded f (w_lockup (step g w e)).
Proof.
  intros I1 Te. pose proof (terminates_spec _ _ _ _ I1 Te) as (_ & _ & st & Ess & _).
  destruct Te as (f & o & vs & l & -> & Hst & _). exists f.
  revert Hst. generalize (step_move g _ (ECall f 0 (TerminateVesting o)) I1). rewrite Ess. intros Hmv Hst. rewrite Hst in Hmv. cbn [snd] in Hmv.
  inversion Hmv; subst.
  match goal with H : effect _ _ _ _ _ |- _ => inversion H; subst; try discriminate; cbn [call_ctx ctx_predecessor ctx_current] in *; try congruence end.
  split; [assumption|]. split; [assumption|]. split; [exact I|]. intros _. assumption.
Qed.

(** The abstract history in which the foundation's claim is good. *)
Lemma good_history g w0 l1 e u l2 :
  starts g w0 -> public_schedule_sane (w_lockup w0) -> terminates g (final g w0 l1) e u ->
  all_events keeps_apart g w0 (l1 ++ e :: l2) -> all_events view_ok g w0 (l1 ++ e :: l2) ->
  all_events (reveals_covered g) g w0 (l1 ++ e :: l2) ->
  exists f, foundation_account_id (w_lockup (final g w0 l1)) = Some f /\ f <> g_self g /\
    LockupLive.good f (final g w0 (l1 ++ e :: l2)).
Proof.
  intros H0 Sn Te K V R. pose proof (inv_start g w0 H0) as I0.
  destruct (terminator _ _ _ _ (inv_final g w0 l1 I0) Te) as (f & Hf & Hfs & Hfd). exists f. split; [exact Hf|]. split; [exact Hfs|].
  split.
  - now apply inv_final.
  - apply steady_final; auto; [apply (steady_start g w0 H0)|now apply views_answer_events].
  - apply covered_final; auto; [now apply (covered_start g)|now apply reveals_events].
  - apply prospects_final; auto; [apply (prospects_start g w0 H0)|now apply all_keep_apart_events].
  - rewrite final_cons. apply founded_final; [|exact Hfd]. apply inv_step, inv_final, I0.
Qed.

Theorem foundation_collects_here g pid sys evs e u evs1 answers lk (r : account_id) :
  sstarts g pid sys -> public_schedule_sane (w_lockup (sy_lockup sys)) ->
  0 < SM.total_stake_shares (SS.w_pool (sy_pool sys)) ->
  let all := (evs ++ SLockup e :: evs1)%list in
  pool_within_limits g pid sys all ->
  all_other (reveals_covered g) g pid sys all -> all_other view_ok g pid sys all -> all_other keeps_apart g pid sys all ->
  terminates g (sy_lockup (sfinal g pid sys evs)) e u ->
  let sys' := sfinal g pid sys all in
  get_staking_pool_account_id (w_lockup (sy_lockup sys')) = Some pid ->
  g_self g <> pid -> SM.owner_id (SS.w_pool (sy_pool sys')) <> g_self g ->
  roomy g pid sys all -> possible answers -> (forall w to a, answers w (RTransfer to a) = ODone) -> unlocks g lk ->
  is_valid_account_id r = true ->
  exists f evs2, foundation_account_id (w_lockup (sy_lockup (sfinal g pid sys evs))) = Some f /\
    all_alone answers lk g pid f foundation_method sys' evs2 /\
    u <= received (slog g pid sys (all ++ evs2)) + MIN_BALANCE_FOR_STORAGE.
Proof.
  intros H Sn Z all L Rv V Ka Te sys' Sel Hs Hp R P Tr U Hr.
  pose proof (proj1 H) as H0. set (w0 := sy_lockup sys) in *.
  assert (I0 : inv w0) by exact (inv_start g w0 H0).
  unfold all in L, Rv, V, Ka. rewrite all_other_app in Rv, Ka. cbn [all_other] in Rv, Ka.
  destruct Rv as (Rv1 & Rv2 & Rv3), Ka as (Ka1 & Ka2 & Ka3).
  destruct (guarantees _ _ _ _ H (limits_prefix _ _ _ _ _ L)) as (l1 & E1 & G1 & K1 & _ & R1).
  fold w0 in E1, G1, K1, R1. specialize (K1 Ka1). specialize (R1 Rv1).
  set (m := sfinal g pid sys evs) in *.
  assert (Em : exists f o, e = ECall f 0 (TerminateVesting o)) by (destruct Te as (f & o & _ & _ & -> & _); eauto).
  assert (Es : sstep_obs g pid m (SLockup e) = (mkSystem (step g (sy_lockup m) e) (sy_pool m), snd (step_obs g (sy_lockup m) e))).
  { destruct Em as (f & o & ->). reflexivity. }
  assert (E2 : sy_lockup (sfinal g pid sys (evs ++ [SLockup e])) = final g w0 (l1 ++ [e])).
  { rewrite sfinal_app, final_app. fold m. cbn [sfinal final]. unfold sstep. rewrite Es. cbn. now rewrite E1. }
  destruct (refine_more g pid sys (evs ++ [SLockup e]) (l1 ++ [e]) evs1 H) as (l2 & E3 & G3 & K3 & R3).
  { rewrite <- app_assoc. exact L. }
  { exact E2. }
  rewrite !sfinal_app in K3, R3. cbn [sfinal] in K3, R3. fold m in K3, R3. specialize (K3 Ka3). specialize (R3 Rv3).
  assert (Em' : sfinal g pid sys (evs ++ [SLockup e]) = sstep g pid m (SLockup e)) by (rewrite sfinal_app; reflexivity).
  set (m' := sfinal g pid sys (evs ++ [SLockup e])) in *.
  assert (Eall : sys' = sfinal g pid m' evs1).
  { unfold sys', all, m'. rewrite <- sfinal_app. now rewrite <- app_assoc. }
  assert (Ew : sy_lockup sys' = final g w0 (l1 ++ e :: l2)).
  { rewrite Eall, E3, E2. rewrite <- final_app, <- app_assoc. reflexivity. }
  assert (Eg : slog g pid sys all = log g w0 (l1 ++ e :: l2)).
  { unfold all. rewrite slog_app, log_app, G1. f_equal. cbn [slog log]. fold m. rewrite Es. cbn [snd]. rewrite <- E1. f_equal.
    rewrite <- Em', G3. rewrite Em'. unfold sstep. rewrite Es. reflexivity. }
  rewrite E1 in Te.
  destruct (terminator _ _ _ _ (inv_final g w0 l1 I0) Te) as (f & Hf & Hfs & Hfd).
  assert (S0 : SM.total_stake_shares (SS.w_pool (sy_pool sys)) <> 0) by lia.
  destruct (fit_reachable _ _ _ _ H L Z V Sel Hp R) as (F & HE). fold all in F, HE. fold sys' in F, HE.
  assert (Mid : sy_lockup m' = step g (final g w0 l1) e) by (rewrite E2, final_app; reflexivity).
  rewrite <- Em' in K3, R3. rewrite Mid in K3, R3. unfold other_event in Ka2, Rv2. rewrite E1 in Ka2, Rv2.
  assert (Hgood : LockupLive.good f (sy_lockup sys')).
  { split; [apply F|apply F| | |]; rewrite Ew.
    - apply covered_final; auto; [now apply (covered_start g)|]. apply reveals_events. apply all_events_app.
      split; [now apply reveals_events|]. split; assumption.
    - apply prospects_final; auto; [apply (prospects_start g w0 H0)|]. apply all_keep_apart_events. apply all_events_app.
      split; [now apply all_keep_apart_events|]. split; assumption.
    - rewrite final_cons. apply founded_final; [|exact Hfd]. apply inv_step, inv_final, I0. }
  destruct (collects_from g pid _ sys' answers lk w0 l1 e l2 u r H0 Te Ew F HE S0 Hs P Tr U Hr f Hfs Hgood) as (e2 & A & B).
  exists f, e2. split; [now rewrite E1|]. split; [exact A|]. rewrite slog_app. fold sys'. now rewrite Eg.
Qed.
