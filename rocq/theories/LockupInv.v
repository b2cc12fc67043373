(** The invariant of the lockup world that does not depend on the schedules: messages in flight fit the state,
    at most one staking operation is outstanding, and the recorded deposit is covered at the pool. *)
From Coq Require Import NArith List Bool String Lia.
From Verif Require Import Prelude PreludeFacts MapFacts LockupModel LockupWorld LockupSpec LockupEffects.
Import ListNotations.
Open Scope N_scope.

(** * Sums over messages *)
Section Total.
  Context {A : Type} (f : A -> N).
  Lemma total_app l1 l2 : total f (l1 ++ l2) = total f l1 + total f l2.
  Proof. induction l1 as [|a l1 IH]; cbn; [reflexivity|]. fold (total f (l1 ++ l2)) (total f l1). lia. Qed.
  Lemma total_one a : total f [a] = f a.
  Proof. cbn. lia. Qed.
  Lemma total_drop n l a : nth_error l n = Some a -> total f l = f a + total f (drop_nth n l).
  Proof.
    revert n. induction l as [|b l IH]; intros [|n] H; try discriminate.
    - injection H as ->. reflexivity.
    - cbn in H. apply IH in H. cbn. fold (total f l) (total f (drop_nth n l)). lia.
  Qed.
  Lemma total_zero l : total f l = 0 <-> Forall (fun a => f a = 0) l.
  Proof.
    induction l as [|a l IH]; cbn; [split; auto|]. fold (total f l). split.
    - intros H. constructor; [lia|]. apply IH. lia.
    - intros H. inversion H; subst. apply IH in H3. lia.
  Qed.
  Lemma total_in a l : In a l -> f a <= total f l.
  Proof.
    induction l as [|b l IH]; cbn; [contradiction|]. fold (total f l).
    intros [->|H]; [|specialize (IH H)]; lia.
  Qed.
End Total.

Lemma Forall_drop {A} (P : A -> Prop) n l a :
  Forall P l -> nth_error l n = Some a -> P a /\ Forall P (drop_nth n l).
Proof.
  revert n. induction l as [|b l IH]; intros [|n] HF H; try discriminate; inversion HF; subst.
  - injection H as ->. auto.
  - destruct (IH n H3 H). cbn. auto.
Qed.

Definition scnt (m : msg) : N := if staking_msg m then 1 else 0.
Definition tcnt (m : msg) : N :=
  match m with
  | MCall (RTransfer _ _) (Some _) => 1
  | MBack (OnWithdrawUnvestedAmount _ _) _ => 1
  | _ => 0
  end.
(** A deposit the pool has credited and the lockup does not know about yet. *)
Definition plus (m : msg) : N :=
  match m with
  | MBack (OnStakingPoolDeposit a) (Some _) | MBack (OnStakingPoolDepositAndStake a) (Some _) => a
  | _ => 0
  end.
(** A withdrawal the pool has paid and the lockup does not know about yet. *)
Definition minus (m : msg) : N :=
  match m with
  | MBack (OnStakingPoolWithdraw a) (Some _) | MBack (OnStakingPoolWithdrawForTermination a) (Some _) => a
  | _ => 0
  end.

Lemma outstanding_total w : N.of_nat (outstanding w) = total scnt (w_msgs w).
Proof.
  unfold outstanding. induction (w_msgs w) as [|m l IH]; [reflexivity|].
  cbn [filter total fold_right]. fold (total scnt l). unfold scnt at 1.
  destruct (staking_msg m); cbn [List.length]; lia.
Qed.

(** * Messages that fit the state *)
Definition cb_matches (op : pool_op) (cb : call) : bool :=
  match op, cb with
  | PDeposit a, OnStakingPoolDeposit b => a =? b
  | PDepositAndStake a, OnStakingPoolDepositAndStake b => a =? b
  | PWithdraw a, OnStakingPoolWithdraw b => a =? b
  | PWithdraw a, OnStakingPoolWithdrawForTermination b => a =? b
  | PStake a, OnStakingPoolStake b => a =? b
  | PUnstake a, OnStakingPoolUnstake b => a =? b
  | PUnstake a, OnStakingPoolUnstakeForTermination b => a =? b
  | PUnstakeAll, OnStakingPoolUnstakeAll => true
  | PGetTotal, OnGetAccountTotalBalance => true
  | PGetUnstaked, OnGetAccountUnstakedBalanceToWithdrawByOwner => true
  | PGetUnstaked, OnGetAccountUnstakedBalanceToWithdraw => true
  | PGetStaked, OnGetAccountStakedBalanceToUnstake => true
  | _, _ => false
  end.

Definition pool_phase (o : option termination_status) : bool :=
  match o with Some UnstakingInProgress | Some WithdrawingFromStakingPoolInProgress => true | _ => false end.

Definition phase_ok (o : option termination_status) (cb : call) : bool :=
  match cb with
  | OnGetAccountStakedBalanceToUnstake | OnStakingPoolUnstakeForTermination _ =>
      match o with Some UnstakingInProgress => true | _ => false end
  | OnGetAccountUnstakedBalanceToWithdraw | OnStakingPoolWithdrawForTermination _ =>
      match o with Some WithdrawingFromStakingPoolInProgress => true | _ => false end
  | _ => negb (pool_phase o)
  end.

Definition answer_ok (cb : call) (r : option answer) (d total_at_pool : N) : Prop :=
  match cb with
  | OnGetAccountTotalBalance =>
      r = None \/ exists x, r = Some (ABalance x) /\ d <= x /\ x <= total_at_pool
  | OnGetAccountUnstakedBalanceToWithdrawByOwner | OnGetAccountStakedBalanceToUnstake
  | OnGetAccountUnstakedBalanceToWithdraw => r = None \/ exists x, r = Some (ABalance x)
  | _ => True
  end.

Definition paying (s : contract) (a : N) : Prop :=
  exists u, vesting_information s = VTerminating (mkTermination u WithdrawingFromAccountInProgress) /\ a <= u.

Definition msg_ok (s : contract) (tp : N) (m : msg) : Prop :=
  match m with
  | MCall (RPool p op) cbo =>
      exists d cb, staking_information s = Some (mkStaking p Busy d) /\ cbo = Some cb /\
        cb_matches op cb = true /\ phase_ok (get_termination_status s) cb = true
  | MCall (RIsWhitelisted _ p) cbo => cbo = Some (OnWhitelistIsWhitelisted p)
  | MCall (RGetResult _) cbo => cbo = Some OnGetResultFromTransferPoll
  | MCall (RTransfer r a) cbo => cbo = None \/ cbo = Some (OnWithdrawUnvestedAmount a r) /\ paying s a
  | MCall (RAddFullAccessKey _) cbo => cbo = None
  | MBack cb r =>
      if staking_callback cb
      then exists p d, staking_information s = Some (mkStaking p Busy d) /\
             phase_ok (get_termination_status s) cb = true /\ answer_ok cb r d tp
      else match cb with
           | OnWhitelistIsWhitelisted p => r = None \/ exists b, r = Some (ABool b)
           | OnGetResultFromTransferPoll => r = None \/ exists x, r = Some (APollResult x)
           | OnWithdrawUnvestedAmount a _ => paying s a
           | _ => False
           end
  | MTokens _ => True
  end.

Definition pool_total (pools : account_id -> N * N) (s : contract) : N :=
  match get_staking_pool_account_id s with Some p => fst (pools p) + snd (pools p) | None => 0 end.

Record inv (w : world) : Prop := mkInv {
  i_msgs : Forall (msg_ok (w_lockup w) (pool_total (w_pools w) (w_lockup w))) (w_msgs w);
  i_one : total scnt (w_msgs w) <= 1;
  i_term : total tcnt (w_msgs w) =
           match get_termination_status (w_lockup w) with
           | Some WithdrawingFromAccountInProgress => 1 | _ => 0 end;
  i_phase : pool_phase (get_termination_status (w_lockup w)) = true -> busy (w_lockup w) = true;
  i_pool : get_known_deposited_balance (w_lockup w) + total plus (w_msgs w)
           <= pool_total (w_pools w) (w_lockup w) + total minus (w_msgs w);
  i_pools : forall p, fst (w_pools w p) + snd (w_pools w p) < U128_BOUND;
  i_sum : get_terminated_unvested_balance (w_lockup w) +
          termination_withdrawn_tokens (lockup_information (w_lockup w)) < U128_BOUND;
  i_fresh : match vesting_information (w_lockup w) with
            | VHash _ | VSchedule _ => termination_withdrawn_tokens (lockup_information (w_lockup w)) = 0
            | _ => True end;
  i_found : vesting_information (w_lockup w) <> VNone -> exists f, foundation_account_id (w_lockup w) = Some f;
  i_amount : lockup_amount (lockup_information (w_lockup w)) < U128_BOUND;
  i_time : w_time w < U64_BOUND
}.

(** Messages keep fitting when the parts of the state they depend on do not change. *)
Lemma msgs_keep s tp s' tp' l :
  Forall (msg_ok s tp) l ->
  (total scnt l = 0 \/
   staking_information s' = staking_information s /\ tp <= tp' /\
   (forall cb, phase_ok (get_termination_status s) cb = true -> phase_ok (get_termination_status s') cb = true)) ->
  (total tcnt l = 0 \/ vesting_information s' = vesting_information s) ->
  Forall (msg_ok s' tp') l.
Proof.
  intros H Hs Ht. rewrite Forall_forall in *. intros m Hm. specialize (H m Hm).
  assert (Hs' : scnt m = 0 \/
   staking_information s' = staking_information s /\ tp <= tp' /\
   (forall cb, phase_ok (get_termination_status s) cb = true -> phase_ok (get_termination_status s') cb = true)).
  { destruct Hs as [Hs|Hs]; [left|right; exact Hs]. pose proof (total_in scnt m l Hm). lia. }
  assert (Ht' : tcnt m = 0 \/ vesting_information s' = vesting_information s).
  { destruct Ht as [Ht|Ht]; [left|right; exact Ht]. pose proof (total_in tcnt m l Hm). lia. }
  clear Hs Ht Hm l.
  destruct m as [r cb|cb r|a]; cbn in *.
  - destruct r as [| |p op|r a|]; auto.
    + destruct Hs' as [Hs|(Hs & Hp & Hph)]; [discriminate|].
      destruct H as (d & cb' & H1 & H2 & H3 & H4). exists d, cb'. rewrite Hs. auto.
    + destruct H as [H|[H (u & Hu & Ha)]]; [left; exact H|right; split; [exact H|]].
      subst cb. destruct Ht' as [Ht|Ht]; [discriminate|]. exists u. rewrite Ht. auto.
  - unfold scnt in Hs'. cbn in Hs'. destruct (staking_callback cb) eqn:Ec.
    + destruct Hs' as [Hs|(Hs & Hp & Hph)]; [discriminate|].
      destruct H as (p & d & H1 & H2 & H3). exists p, d. rewrite Hs. split; [exact H1|]. split; [auto|].
      destruct cb; cbn in *; auto. destruct H3 as [H3|(x & H3 & H4 & H5)]; [auto|].
      right. exists x. split; [exact H3|]. lia.
    + destruct cb; auto. destruct H as (u & Hu & Ha). destruct Ht' as [Ht|Ht]; [discriminate|].
      exists u. rewrite Ht. auto.
  - exact I.
Qed.

Lemma phase_keep o o' cb : pool_phase o = false -> pool_phase o' = false ->
  phase_ok o cb = true -> phase_ok o' cb = true.
Proof.
  intros H H'. destruct cb; cbn [phase_ok]; rewrite ?H, ?H'; auto;
  destruct o as [[]|]; try discriminate; auto.
Qed.

Lemma plus_scnt m : scnt m = 0 -> plus m = 0.
Proof.
  unfold scnt. destruct m as [r cb|cb r|a]; cbn; auto. destruct cb; cbn; try discriminate; auto.
Qed.
Lemma minus_scnt m : scnt m = 0 -> minus m = 0.
Proof.
  unfold scnt. destruct m as [r cb|cb r|a]; cbn; auto. destruct cb; cbn; try discriminate; auto.
Qed.
Lemma no_staking l : total scnt l = 0 -> total plus l = 0 /\ total minus l = 0.
Proof.
  rewrite !total_zero. intros H. split; eapply Forall_impl; [|exact H| |exact H]; cbn;
  intros m Hm; [now apply plus_scnt|now apply minus_scnt].
Qed.

(** What is known about an outstanding staking message: the status is busy. *)
Lemma staking_busy s tp l : Forall (msg_ok s tp) l -> total scnt l <> 0 -> busy s = true.
Proof.
  intros HF H. induction HF as [|m l Hm HF IH]; [contradiction|].
  cbn in H. fold (total scnt l) in H.
  destruct (N.eq_dec (scnt m) 0) as [E|E]; [apply IH; lia|].
  unfold scnt in E. destruct m as [r cb|cb r|a]; cbn in *; try contradiction.
  - destruct r; cbn in *; try contradiction. destruct Hm as (d & cb' & H1 & _).
    unfold busy. rewrite H1. reflexivity.
  - destruct (staking_callback cb); [|contradiction]. destruct Hm as (p & d & H1 & _).
    unfold busy. rewrite H1. reflexivity.
Qed.

(** * One call *)
Lemma run_spec g w who att res m w' l :
  run g w who att res m = (Some w', l) ->
  exists s' p,
    effect (mkCtx (g_self g) who att (w_time w) (w_balance w + att) res (g_hash g)) (w_lockup w) m s' p /\
    match p with
    | None => w' = mkWorld s' (w_balance w) (w_time w) (w_pools w) (w_msgs w) /\ l = []
    | Some p => attached_to (p_remote p) <= w_balance w /\
        w' = mkWorld s' (w_balance w - attached_to (p_remote p)) (w_time w) (w_pools w)
               (w_msgs w ++ [MCall (p_remote p) (option_map fst (p_then p))]) /\ l = [BSent (p_remote p)]
    end.
Proof.
  unfold run. destruct (exec _ _ m) as [[s' p]|] eqn:E; [|discriminate].
  apply exec_effect in E. destruct p as [p|].
  - destruct (N.leb_spec (attached_to (p_remote p)) (w_balance w)); [|discriminate].
    intros [= <- <-]. exists s', (Some p). auto.
  - intros [= <- <-]. exists s', None. auto.
Qed.

Lemma not_terminating_status s : not_terminating s -> get_termination_status s = None.
Proof. unfold not_terminating, get_termination_status. destruct (vesting_information s); tauto. Qed.
Lemma not_terminating_balance s : not_terminating s -> get_terminated_unvested_balance s = 0.
Proof. unfold not_terminating, get_terminated_unvested_balance. destruct (vesting_information s); tauto. Qed.

Ltac wsimpl :=
  cbn [w_lockup w_balance w_time w_pools w_msgs p_remote p_then option_map fst snd attached_to
       with_pool with_term set_staking set_vesting set_lockup set_foundation staking_information
       vesting_information lockup_information foundation_account_id owner_account_id
       lockup_amount termination_withdrawn_tokens transfers_information
       staking_pool_account_id status deposit_amount unvested_amount t_status] in *.

(** No staking operation is outstanding while the status is not busy. *)
Lemma idle_no_staking w : inv w -> busy (w_lockup w) = false -> total scnt (w_msgs w) = 0.
Proof.
  intros HI Hb. destruct (N.eq_dec (total scnt (w_msgs w)) 0) as [|E]; [assumption|].
  rewrite (staking_busy _ _ _ (i_msgs w HI) E) in Hb. discriminate.
Qed.

Lemma get_unvested_lt s now vs u :
  lockup_amount (lockup_information s) < U128_BOUND -> not_terminating s ->
  get_unvested_amount s now vs = Ok u -> u < U128_BOUND.
Proof.
  intros HL Hn H. pose proof U128_pos. unfold get_unvested_amount in H. unfold not_terminating in Hn.
  destruct (vesting_information s); try contradiction; try (injection H as <-; assumption).
  - destruct (now <? cliff_timestamp vs); [injection H as <-; assumption|].
    destruct (end_timestamp vs <=? now); [injection H as <-; assumption|].
    inv_all. assumption.
  - destruct (now <? cliff_timestamp vs); [injection H as <-; assumption|].
    destruct (end_timestamp vs <=? now); [injection H as <-; assumption|].
    inv_all. assumption.
Qed.
Lemma assert_vesting_ok c s o vs : assert_vesting c s o = Ok vs ->
  (exists h salt, vesting_information s = VHash h /\ o = Some (vs, salt) /\ ctx_hash c vs salt = h) \/
  vesting_information s = VSchedule vs /\ o = None.
Proof.
  unfold assert_vesting. destruct (vesting_information s) as [|h|vs'|ti]; try discriminate.
  - destruct o as [[vs' salt]|]; [|discriminate]. intros H. inv_all. left. eauto.
  - destruct o; intros H; inv_all; [discriminate|]. right. auto.
Qed.

Lemma owner_op_spec m op cb : owner_op m = Some (op, cb) ->
  cb_matches op cb = true /\ phase_ok None cb = true /\ staking_callback cb = true.
Proof. destruct m; cbn; intros H; try discriminate; injection H as <- <-; cbn; rewrite ?N.eqb_refl; auto. Qed.

Ltac pool_eqs :=
  repeat match goal with
  | H : staking_information ?s = _ |- context[staking_information ?s] => rewrite H
  | H : staking_information ?s = _, H2 : context[staking_information ?s] |- _ =>
      lazymatch H2 with H => fail | _ => rewrite H in H2 end
  end.
Ltac views :=
  unfold get_known_deposited_balance, pool_total, get_staking_pool_account_id, get_termination_status,
    get_terminated_unvested_balance, busy in *; wsimpl.
Ltac zero_counts := cbn [scnt tcnt plus minus staking_msg staking_callback]; try lia.

Lemma inv_call g w who att m w' l :
  inv w -> who <> g_self g -> run g w who att [] m = (Some w', l) -> inv w'.
Proof.
  intros HI Hwho Hr. apply run_spec in Hr. destruct Hr as (s' & p & He & Hw).
  pose proof (idle_no_staking w HI) as Hidle.
  destruct HI as [Hm H1 Ht Hph Hp Hps Hs Hf Hfd Htm].
  inversion He; subst; cbn [ctx_predecessor ctx_current ctx_results] in *; try congruence.
  - (* select *)
    destruct Hw as (Ha & -> & ->). wsimpl.
    split; wsimpl; rewrite ?total_app, ?total_one; auto.
    + apply Forall_app; split; [exact Hm|]. repeat constructor.
    + cbn [scnt staking_msg]. lia.
    + cbn [tcnt]. lia.
    + cbn [plus minus]. lia.
  - (* unselect *)
    destruct Hw as (-> & ->).
    match goal with H : not_terminating _ |- _ => pose proof (not_terminating_status _ H) as Hnt end.
    assert (Hb : busy (w_lockup w) = false) by (unfold busy; now rewrite H0).
    specialize (Hidle Hb). destruct (no_staking _ Hidle) as [Z1 Z2].
    rewrite Hnt in Ht.
    split; wsimpl; auto.
    + eapply msgs_keep; [exact Hm| |]; [left; assumption|left; exact Ht].
    + unfold get_termination_status in *; wsimpl. rewrite Hnt. exact Ht.
    + unfold get_termination_status in *; wsimpl. rewrite Hnt. discriminate.
    + unfold get_known_deposited_balance, pool_total, get_staking_pool_account_id. wsimpl. cbn. lia.
  - (* an operation of the owner starts *)
    destruct Hw as (Ha & -> & ->).
    match goal with H : not_terminating _ |- _ => pose proof (not_terminating_status _ H) as Hnt end.
    match goal with H : staking_information _ = Some _ |- _ => rename H into Hst end.
    match goal with H : owner_op _ = _ |- _ => destruct (owner_op_spec _ _ _ H) as (Hcb & Hpk & Hsc) end.
    assert (Hb : busy (w_lockup w) = false) by (unfold busy; now rewrite Hst).
    specialize (Hidle Hb). destruct (no_staking _ Hidle) as [Z1 Z2].
    rewrite Hnt in Ht.
    split; wsimpl; rewrite ?total_app, ?total_one; auto.
    + apply Forall_app; split; [eapply msgs_keep; [exact Hm|left; exact Hidle|left; exact Ht]|].
      constructor; [|constructor]. cbn. exists d, cb. views. rewrite Hnt. auto.
    + zero_counts.
    + zero_counts. views. rewrite Hnt. lia.
    + zero_counts. views. rewrite Hst in Hp. cbn in *. lia.
  - (* vote *)
    destruct Hw as (Ha & -> & ->). wsimpl.
    split; wsimpl; rewrite ?total_app, ?total_one; auto; zero_counts.
    + apply Forall_app; split; [exact Hm|]. repeat constructor.
  - (* transfer *)
    destruct Hw as (Ha & -> & ->). wsimpl.
    split; wsimpl; rewrite ?total_app, ?total_one; auto; zero_counts.
    apply Forall_app; split; [exact Hm|]. repeat constructor.
  - (* full access key *)
    destruct Hw as (Ha & -> & ->). wsimpl.
    split; wsimpl; rewrite ?total_app, ?total_one; auto; zero_counts.
    apply Forall_app; split; [exact Hm|]. repeat constructor.
  - (* terminate *)
    destruct Hw as (-> & ->).
    match goal with H : assert_vesting _ _ _ = _ |- _ => apply assert_vesting_ok in H; rename H into Hv end.
    assert (Hn : not_terminating (w_lockup w)).
    { unfold not_terminating. destruct Hv as [(h & salt & -> & _)|(-> & _)]; exact I. }
    assert (Hz : termination_withdrawn_tokens (lockup_information (w_lockup w)) = 0).
    { destruct Hv as [(h & salt & Ev & _)|(Ev & _)]; rewrite Ev in Hf; exact Hf. }
    match goal with H : get_unvested_amount _ _ _ = _ |- _ =>
      apply get_unvested_lt in H; [|assumption|assumption]; rename H into Hu end.
    pose proof (not_terminating_status _ Hn) as Hnt. rewrite Hnt in *.
    set (st := if get_account_balance _ <? u then _ else _) in *.
    assert (Hst : st = VestingTerminatedWithDeficit \/ st = ReadyToWithdraw).
    { subst st. destruct (_ <? u); [destruct (is_some _)|]; auto. }
    clearbody st. clear He.
    split; wsimpl; auto.
    + eapply msgs_keep; [exact Hm| |left; exact Ht]. right. split; [reflexivity|]. split; [reflexivity|].
      intros cb. rewrite Hnt. apply phase_keep; [reflexivity|]. views. destruct Hst as [-> | ->]; reflexivity.
    + views. destruct Hst as [-> | ->]; exact Ht.
    + views. destruct Hst as [-> | ->]; discriminate.
    + views. lia.
    + exists (ctx_predecessor {|
         ctx_current := g_self g; ctx_predecessor := who; ctx_attached := att; ctx_timestamp := w_time w;
         ctx_balance := w_balance w + att; ctx_results := []; ctx_hash := g_hash g |}). assumption.
  - (* unstake for the termination *)
    destruct Hw as (Ha & -> & ->).
    match goal with H : staking_information _ = Some _ |- _ => rename H into Hst end.
    match goal with H : vesting_information _ = VTerminating _ |- _ => rename H into Hv end.
    assert (Hb : busy (w_lockup w) = false) by (unfold busy; now rewrite Hst).
    specialize (Hidle Hb). destruct (no_staking _ Hidle) as [Z1 Z2].
    assert (Ht0 : total tcnt (w_msgs w) = 0) by (views; rewrite Hv in Ht; exact Ht).
    split; wsimpl; rewrite ?total_app, ?total_one; auto; zero_counts.
    + apply Forall_app; split; [eapply msgs_keep; [exact Hm|left; exact Hidle|left; exact Ht0]|].
      constructor; [|constructor]. cbn. exists d, OnGetAccountStakedBalanceToUnstake. views. auto.
    + views. lia.
    + views. rewrite Hst in Hp. cbn in *. lia.
    + views. rewrite Hv in Hs. exact Hs.
    + intros _. apply Hfd. rewrite Hv. discriminate.
  - (* withdraw for the termination *)
    destruct Hw as (Ha & -> & ->).
    match goal with H : staking_information _ = Some _ |- _ => rename H into Hst end.
    match goal with H : vesting_information _ = VTerminating _ |- _ => rename H into Hv end.
    assert (Hb : busy (w_lockup w) = false) by (unfold busy; now rewrite Hst).
    specialize (Hidle Hb). destruct (no_staking _ Hidle) as [Z1 Z2].
    assert (Ht0 : total tcnt (w_msgs w) = 0) by (views; rewrite Hv in Ht; exact Ht).
    split; wsimpl; rewrite ?total_app, ?total_one; auto; zero_counts.
    + apply Forall_app; split; [eapply msgs_keep; [exact Hm|left; exact Hidle|left; exact Ht0]|].
      constructor; [|constructor]. cbn. exists d, OnGetAccountUnstakedBalanceToWithdraw. views. auto.
    + views. lia.
    + views. rewrite Hst in Hp. cbn in *. lia.
    + views. rewrite Hv in Hs. exact Hs.
    + intros _. apply Hfd. rewrite Hv. discriminate.
  - (* payment to the foundation *)
    destruct Hw as (Ha & -> & ->).
    match goal with H : vesting_information _ = VTerminating _ |- _ => rename H into Hv end.
    assert (Ht0 : total tcnt (w_msgs w) = 0) by (views; rewrite Hv in Ht; exact Ht).
    assert (Hgs : get_termination_status (w_lockup w) = Some ReadyToWithdraw) by (views; rewrite Hv; reflexivity).
    split; wsimpl; rewrite ?total_app, ?total_one; auto; zero_counts.
    + apply Forall_app; split; [eapply msgs_keep; [exact Hm| |left; exact Ht0]|].
      * right. split; [reflexivity|]. split; [reflexivity|]. intros cb. rewrite Hgs.
        apply phase_keep; reflexivity.
      * constructor; [|constructor]. cbn. right. split; [reflexivity|]. exists u. wsimpl. split; [reflexivity|lia].
    + views. lia.
    + views. discriminate.
    + views. lia.
    + views. rewrite Hv in Hs. exact Hs.
    + intros _. apply Hfd. rewrite Hv. discriminate.
Qed.

(** A message that carries no information disappears. *)
Lemma inv_drop w n m :
  inv w -> nth_error (w_msgs w) n = Some m -> plus m = 0 -> minus m = 0 -> tcnt m = 0 ->
  inv (mkWorld (w_lockup w) (w_balance w) (w_time w) (w_pools w) (drop_nth n (w_msgs w))).
Proof.
  intros [Hm H1 Ht Hph Hp Hps Hs Hf Hfd HL Htm] Hn E1 E2 E3.
  destruct (Forall_drop _ _ _ _ Hm Hn) as [Hmm Hrest].
  pose proof (total_drop scnt _ _ _ Hn). pose proof (total_drop tcnt _ _ _ Hn).
  pose proof (total_drop plus _ _ _ Hn). pose proof (total_drop minus _ _ _ Hn).
  split; wsimpl; auto; lia.
Qed.

Definition self_ctx (g : genesis) (w : world) (r : option answer) : ctx :=
  mkCtx (g_self g) (g_self g) 0 (w_time w) (w_balance w + 0) [r] (g_hash g).

(** A failed view of the pool. *)
Definition failed_view (cb : call) (r : option answer) : bool :=
  match cb, r with
  | OnGetAccountTotalBalance, None | OnGetAccountUnstakedBalanceToWithdrawByOwner, None
  | OnGetAccountStakedBalanceToUnstake, None | OnGetAccountUnstakedBalanceToWithdraw, None => true
  | _, _ => false
  end.

Lemma phase_terminating s cb st : phase_ok (get_termination_status s) cb = true ->
  match cb with
  | OnGetAccountStakedBalanceToUnstake | OnStakingPoolUnstakeForTermination _ => st = UnstakingInProgress
  | OnGetAccountUnstakedBalanceToWithdraw | OnStakingPoolWithdrawForTermination _ =>
      st = WithdrawingFromStakingPoolInProgress
  | _ => False
  end -> exists u, vesting_information s = VTerminating (mkTermination u st).
Proof.
  unfold get_termination_status. intros H Hc.
  destruct cb; try contradiction; subst st; cbn [phase_ok] in H;
  destruct (vesting_information s) as [| | |[u st]]; try discriminate; destruct st; try discriminate; eauto.
Qed.

Ltac done_run := eexists _, _; split; [reflexivity|first [exact I | reflexivity]].

(** Callbacks of staking operations never fail, but for failed views. *)
Lemma staking_callback_runs g w cb r p d tp :
  staking_callback cb = true -> failed_view cb r = false ->
  staking_information (w_lockup w) = Some (mkStaking p Busy d) ->
  phase_ok (get_termination_status (w_lockup w)) cb = true ->
  answer_ok cb r d tp ->
  (minus (MBack cb r) = 0 -> d + plus (MBack cb r) < U128_BOUND) ->
  exists s' o, exec (self_ctx g w r) (w_lockup w) cb = Ok (s', o) /\
    match o with Some pr => attached_to (p_remote pr) = 0 | None => True end.
Proof.
  intros Hc Hf Hst Hph Ha Hlt. unfold exec, self_ctx. cbn [ctx_attached]. rewrite N.eqb_refl. cbn [require bind].
  assert (Hset : forall s st, staking_information s = Some (mkStaking p Busy d) ->
            set_staking_pool_status s st = Ok (with_pool s p st d)).
  { intros s st Hs. unfold set_staking_pool_status. rewrite Hs. reflexivity. }
  assert (Hself : assert_self (self_ctx g w r) = Ok tt).
  { unfold assert_self. cbn. rewrite String.eqb_refl. reflexivity. }
  assert (Hterm : forall s u st0 st, vesting_information s = VTerminating (mkTermination u st0) ->
            set_termination_status s st = Ok (with_term s u st)).
  { intros s u st0 st Hs. unfold set_termination_status. rewrite Hs. reflexivity. }
  assert (Hupd : forall p st d f d', f d = Ok d' ->
            update_deposit (with_pool (w_lockup w) p st d) f = Ok (with_pool (w_lockup w) p st d')).
  { intros p0 st d0 f d' Hs. unfold update_deposit. cbn. rewrite Hs. reflexivity. }
  assert (Hpool : the_pool (w_lockup w) = Ok p) by (unfold the_pool; rewrite Hst; reflexivity).
  destruct cb; try discriminate Hc; cbv beta iota; fold (self_ctx g w r).
  - unfold on_staking_pool_deposit. rewrite Hself. cbn [bind]. rewrite Hset by assumption.
    destruct r as [v|]; cbn [is_promise_success self_ctx ctx_results bind]; [|done_run].
    erewrite Hupd; [cbn; done_run|]. apply add_chk_intro. exact (Hlt eq_refl).
  - unfold on_staking_pool_deposit_and_stake. rewrite Hself. cbn [bind]. rewrite Hset by assumption.
    destruct r as [v|]; cbn [is_promise_success self_ctx ctx_results bind]; [|done_run].
    erewrite Hupd; [cbn; done_run|]. apply add_chk_intro. exact (Hlt eq_refl).
  - unfold on_staking_pool_withdraw. rewrite Hself. cbn [bind]. rewrite Hset by assumption.
    destruct r as [v|]; cbn [is_promise_success self_ctx ctx_results bind]; [|done_run].
    erewrite Hupd; [cbn; done_run|]. reflexivity.
  - unfold on_staking_pool_stake. rewrite Hself, Hset by assumption. cbn. done_run.
  - unfold on_staking_pool_unstake. rewrite Hself, Hset by assumption. cbn. done_run.
  - unfold on_staking_pool_unstake_all. rewrite Hself, Hset by assumption. cbn. done_run.
  - cbn in Ha. destruct Ha as [->|(x & -> & Hx)]; [discriminate|].
    unfold on_get_account_total_balance. cbn [callback_balance callback_arg self_ctx ctx_results bind].
    fold (self_ctx g w (Some (ABalance x))). rewrite Hself, Hset by assumption. cbn [bind].
    erewrite Hupd by reflexivity. cbn. done_run.
  - cbn in Ha. destruct Ha as [->|(x & ->)]; [discriminate|].
    unfold on_get_account_unstaked_balance_to_withdraw_by_owner.
    cbn [callback_balance callback_arg self_ctx ctx_results bind].
    fold (self_ctx g w (Some (ABalance x))). rewrite Hself, Hpool, Hset by assumption. cbn [bind ask].
    destruct (0 <? x); done_run.
  - cbn in Ha. destruct Ha as [->|(x & ->)]; [discriminate|].
    destruct (phase_terminating _ _ UnstakingInProgress Hph eq_refl) as [u Hu].
    unfold on_get_account_staked_balance_to_unstake.
    cbn [callback_balance callback_arg self_ctx ctx_results bind].
    fold (self_ctx g w (Some (ABalance x))). rewrite Hself, Hpool, Hset by assumption. cbn [bind ask].
    destruct (0 <? x); [eexists _, _; split; reflexivity|].
    erewrite Hterm by exact Hu. cbn. done_run.
  - destruct (phase_terminating _ _ UnstakingInProgress Hph eq_refl) as [u Hu].
    unfold on_staking_pool_unstake_for_termination. rewrite Hself. cbn [bind]. rewrite Hset by assumption.
    cbn [is_promise_success self_ctx ctx_results bind]. erewrite Hterm by exact Hu. cbn. done_run.
  - cbn in Ha. destruct Ha as [->|(x & ->)]; [discriminate|].
    destruct (phase_terminating _ _ WithdrawingFromStakingPoolInProgress Hph eq_refl) as [u Hu].
    unfold on_get_account_unstaked_balance_to_withdraw.
    cbn [callback_balance callback_arg self_ctx ctx_results bind].
    fold (self_ctx g w (Some (ABalance x))). rewrite Hself, Hpool, Hset by assumption. cbn [bind ask].
    destruct (0 <? x); [eexists _, _; split; reflexivity|].
    erewrite Hterm by exact Hu. cbn. done_run.
  - destruct (phase_terminating _ _ WithdrawingFromStakingPoolInProgress Hph eq_refl) as [u Hu].
    unfold on_staking_pool_withdraw_for_termination. rewrite Hself. cbn [bind]. rewrite Hset by assumption.
    cbn [is_promise_success self_ctx ctx_results bind].
    destruct r as [v|]; cbn [bind]; erewrite Hterm by exact Hu; cbn; done_run.
Qed.

(** Callbacks of payments never fail. *)
Lemma payment_callback_runs g w a rc r :
  paying (w_lockup w) a ->
  get_terminated_unvested_balance (w_lockup w) +
    termination_withdrawn_tokens (lockup_information (w_lockup w)) < U128_BOUND ->
  exists s', exec (self_ctx g w r) (w_lockup w) (OnWithdrawUnvestedAmount a rc) = Ok (s', None).
Proof.
  intros (u & Hu & Ha) Hs. unfold exec, self_ctx. cbn [ctx_attached]. rewrite N.eqb_refl. cbn [require bind].
  assert (Hself : assert_self (self_ctx g w r) = Ok tt).
  { unfold assert_self. cbn. rewrite String.eqb_refl. reflexivity. }
  unfold on_withdraw_unvested_amount. fold (self_ctx g w r). rewrite Hself.
  unfold get_terminated_unvested_balance in *. rewrite Hu in *. wsimpl.
  cbn [is_promise_success self_ctx ctx_results bind].
  destruct r as [v|].
  - unfold add128. rewrite add_chk_intro by lia. cbn [bind]. wsimpl. rewrite ?Hu. wsimpl.
    destruct (a <? u) eqn:E; [|eauto]. norm_bool. rewrite sub_chk_intro by lia. cbn. eauto.
  - unfold set_termination_status. rewrite Hu. cbn. eauto.
Qed.

Lemma run_of_exec g w r cb s' o :
  exec (self_ctx g w r) (w_lockup w) cb = Ok (s', o) ->
  match o with Some pr => attached_to (p_remote pr) = 0 | None => True end ->
  exists w' l, run g w (g_self g) 0 [r] cb = (Some w', l).
Proof.
  intros He Ho. unfold run. unfold self_ctx in He. rewrite He. destruct o as [pr|]; [|eauto].
  rewrite Ho. destruct (N.leb_spec 0 (w_balance w)); [eauto|lia].
Qed.

(** A staking operation ends. *)
Lemma inv_finish w n cb r p d s' d' :
  inv w -> nth_error (w_msgs w) n = Some (MBack cb r) -> staking_callback cb = true ->
  staking_information (w_lockup w) = Some (mkStaking p Busy d) ->
  staking_information s' = Some (mkStaking p Idle d') ->
  lockup_information s' = lockup_information (w_lockup w) ->
  foundation_account_id s' = foundation_account_id (w_lockup w) ->
  d' <= fst (w_pools w p) + snd (w_pools w p) ->
  (vesting_information s' = vesting_information (w_lockup w) /\
     pool_phase (get_termination_status (w_lockup w)) = false \/
   exists u st0 st, vesting_information (w_lockup w) = VTerminating (mkTermination u st0) /\
     st0 <> WithdrawingFromAccountInProgress /\
     vesting_information s' = VTerminating (mkTermination u st) /\
     pool_phase (Some st) = false /\ st <> WithdrawingFromAccountInProgress) ->
  inv (mkWorld s' (w_balance w) (w_time w) (w_pools w) (drop_nth n (w_msgs w))).
Proof.
  intros [Hm H1 Ht Hph Hp Hps Hs Hf Hfd HL Htm] Hn Hc Hst Hst' Hli Hfo Hd Hv.
  destruct (Forall_drop _ _ _ _ Hm Hn) as [Hmm Hrest].
  pose proof (total_drop scnt _ _ _ Hn) as D1. pose proof (total_drop tcnt _ _ _ Hn) as D2.
  assert (E1 : scnt (MBack cb r) = 1) by (unfold scnt; cbn; rewrite Hc; reflexivity).
  assert (E2 : tcnt (MBack cb r) = 0) by (destruct cb; try discriminate; reflexivity).
  assert (Z : total scnt (drop_nth n (w_msgs w)) = 0) by lia.
  destruct (no_staking _ Z) as [Z1 Z2]. rewrite E2 in D2.
  split; wsimpl; rewrite ?Hli; auto; try lia.
  - eapply msgs_keep; [exact Hrest|left; exact Z|].
    destruct Hv as [[Hv Hpp]|(u & st0 & st & Hv & Hne & Hv' & Hpp & Hne')]; [right; exact Hv|left].
    unfold get_termination_status in Ht. rewrite Hv in Ht. cbn in Ht. destruct st0; try lia; congruence.
  - unfold get_termination_status in *.
    destruct Hv as [[Hv Hpp]|(u & st0 & st & Hv & Hne & Hv' & Hpp & Hne')].
    + rewrite Hv. lia.
    + rewrite Hv', Hv in *. cbn in *. destruct st0, st; try lia; congruence.
  - intros Hx. exfalso. unfold get_termination_status in *.
    destruct Hv as [[Hv Hpp]|(u & st0 & st & Hv & Hne & Hv' & Hpp & Hne')].
    + rewrite Hv in Hx. congruence.
    + rewrite Hv' in Hx. cbn [t_status] in Hx. congruence.
  - unfold get_known_deposited_balance, pool_total, get_staking_pool_account_id. rewrite Hst'. cbn. lia.
  - unfold get_terminated_unvested_balance in *.
    destruct Hv as [[Hv Hpp]|(u & st0 & st & Hv & Hne & Hv' & Hpp & Hne')]; [now rewrite Hv|].
    rewrite Hv', Hv in *. exact Hs.
  - destruct Hv as [[Hv Hpp]|(u & st0 & st & Hv & Hne & Hv' & Hpp & Hne')]; [now rewrite Hv|].
    rewrite Hv'. exact I.
  - rewrite Hfo. intros Hnn. apply Hfd.
    destruct Hv as [[Hv Hpp]|(u & st0 & st & Hv & Hne & Hv' & Hpp & Hne')].
    + rewrite <- Hv. exact Hnn.
    + rewrite Hv. discriminate.
Qed.

(** A staking operation goes on with a second call. *)
Lemma inv_continue w n cb r p d op cb2 :
  inv w -> nth_error (w_msgs w) n = Some (MBack cb r) -> staking_callback cb = true ->
  staking_information (w_lockup w) = Some (mkStaking p Busy d) ->
  plus (MBack cb r) = 0 -> minus (MBack cb r) = 0 ->
  cb_matches op cb2 = true -> phase_ok (get_termination_status (w_lockup w)) cb2 = true ->
  inv (mkWorld (w_lockup w) (w_balance w - 0) (w_time w) (w_pools w)
         (drop_nth n (w_msgs w) ++ [MCall (RPool p op) (Some cb2)])).
Proof.
  intros [Hm H1 Ht Hph Hp Hps Hs Hf Hfd HL Htm] Hn Hc Hst E3 E4 Hcb Hpk.
  destruct (Forall_drop _ _ _ _ Hm Hn) as [Hmm Hrest].
  pose proof (total_drop scnt _ _ _ Hn) as D1. pose proof (total_drop tcnt _ _ _ Hn) as D2.
  pose proof (total_drop plus _ _ _ Hn) as D3. pose proof (total_drop minus _ _ _ Hn) as D4.
  assert (E1 : scnt (MBack cb r) = 1) by (unfold scnt; cbn; rewrite Hc; reflexivity).
  assert (E2 : tcnt (MBack cb r) = 0) by (destruct cb; try discriminate; reflexivity).
  rewrite E1 in D1. rewrite E2 in D2. rewrite E3 in D3. rewrite E4 in D4.
  split; wsimpl; rewrite ?total_app, ?total_one; auto; zero_counts.
  apply Forall_app. split; [exact Hrest|]. constructor; [|constructor].
  cbn. exists d, cb2. auto.
Qed.

Lemma inv_staking_back g w n cb r w' l :
  inv w -> nth_error (w_msgs w) n = Some (MBack cb r) -> staking_callback cb = true ->
  run g (mkWorld (w_lockup w) (w_balance w) (w_time w) (w_pools w) (drop_nth n (w_msgs w)))
    (g_self g) 0 [r] cb = (Some w', l) ->
  inv w'.
Proof.
  intros HI Hn Hc Hr. pose proof HI as [Hm H1 Ht Hph Hp Hps Hs Hf Hfd HL Htm].
  destruct (Forall_drop _ _ _ _ Hm Hn) as [Hmm Hrest].
  pose proof (total_drop scnt _ _ _ Hn) as D1. pose proof (total_drop tcnt _ _ _ Hn) as D2.
  pose proof (total_drop plus _ _ _ Hn) as D3. pose proof (total_drop minus _ _ _ Hn) as D4.
  cbn [msg_ok] in Hmm. rewrite Hc in Hmm. destruct Hmm as (p & d & Hst & Hpk & Hans).
  assert (E1 : scnt (MBack cb r) = 1) by (unfold scnt; cbn; rewrite Hc; reflexivity).
  assert (E2 : tcnt (MBack cb r) = 0) by (destruct cb; try discriminate; reflexivity).
  assert (Z : total scnt (drop_nth n (w_msgs w)) = 0) by lia.
  destruct (no_staking _ Z) as [Z1 Z2].
  rewrite D3, D4, Z1, Z2 in Hp. rewrite E2 in D2.
  apply run_spec in Hr. destruct Hr as (s' & o & He & Hw). cbn [w_lockup w_balance w_time w_pools w_msgs] in *.
  assert (Hpt : forall x, pool_total (w_pools w) (w_lockup w) = x -> x = fst (w_pools w p) + snd (w_pools w p)).
  { intros x <-. unfold pool_total, get_staking_pool_account_id. rewrite Hst. reflexivity. }
  specialize (Hpt _ eq_refl). rewrite Hpt in Hp.
  unfold get_known_deposited_balance in Hp. rewrite Hst in Hp. cbn [deposit_amount] in Hp.
  inversion He; subst; try discriminate Hc; try (exfalso; destruct cb; discriminate);
  cbn [ctx_predecessor ctx_current ctx_results] in *;
  try match goal with H : _ :: _ = _ :: _ |- _ => injection H; clear H; intros; subst end;
  match goal with H : staking_information (w_lockup w) = Some (mkStaking _ _ _) |- _ =>
    lazymatch H with Hst => fail | _ => rewrite Hst in H; injection H; clear H; intros; subst end end.
  - (* deposited *)
    destruct Hw as [-> ->]. eapply inv_finish; eauto; try reflexivity.
    + cbn [plus minus] in Hp. match goal with H : _ \/ _ |- _ => destruct H; subst; cbn in Hp end; lia.
    + left. split; [reflexivity|]. match goal with H : _ \/ _ |- _ => destruct H; subst end; cbn in Hpk;
      now apply negb_true_iff.
  - (* withdrawn *)
    destruct Hw as [-> ->]. eapply inv_finish; eauto; try reflexivity.
    + cbn in Hp. lia.
    + left. split; [reflexivity|]. cbn in Hpk. now apply negb_true_iff.
  - (* only the status *)
    destruct Hw as [-> ->]. eapply inv_finish; eauto; try reflexivity.
    + match goal with H : only_status _ ?r = true |- _ => destruct cb, r; try discriminate; cbn in Hp; lia end.
    + left. split; [reflexivity|]. destruct cb; try discriminate; cbn in Hpk; now apply negb_true_iff.
  - (* refreshed *)
    destruct Hw as [-> ->]. eapply inv_finish; eauto; try reflexivity.
    + cbn in Hans. destruct Hans as [|(y & [= <-] & Hy1 & Hy2)]; [discriminate|]. lia.
    + left. split; [reflexivity|]. cbn in Hpk. now apply negb_true_iff.
  - (* the owner's withdrawal goes on *)
    destruct Hw as (_ & -> & ->). eapply inv_continue; eauto; try reflexivity. cbn. apply N.eqb_refl.
  - destruct Hw as (_ & -> & ->). eapply inv_continue; eauto; try reflexivity. cbn. apply N.eqb_refl.
  - destruct Hw as [-> ->].
    destruct (phase_terminating _ _ UnstakingInProgress Hpk eq_refl) as [u' Hu].
    match goal with H : vesting_information (w_lockup w) = VTerminating _ |- _ =>
      rewrite Hu in H; injection H; clear H; intros; subst end.
    eapply inv_finish; eauto; try reflexivity.
    + cbn in Hp. lia.
    + right. exists u, UnstakingInProgress, EverythingUnstaked. repeat split; auto; discriminate.
  - destruct Hw as [-> ->].
    destruct (phase_terminating _ _ UnstakingInProgress Hpk eq_refl) as [u' Hu].
    match goal with H : vesting_information (w_lockup w) = VTerminating _ |- _ =>
      lazymatch H with Hu => fail | _ => rewrite Hu in H; injection H; clear H; intros; subst end end.
    eapply inv_finish; eauto; try reflexivity.
    + cbn in Hp. lia.
    + right. eexists u, UnstakingInProgress, _. split; [exact Hu|]. split; [discriminate|].
      split; [reflexivity|]. destruct (is_some _); (split; [reflexivity|discriminate]).
  - destruct Hw as (_ & -> & ->). eapply inv_continue; eauto; try reflexivity. cbn. apply N.eqb_refl.
  - destruct Hw as [-> ->].
    destruct (phase_terminating _ _ WithdrawingFromStakingPoolInProgress Hpk eq_refl) as [u' Hu].
    match goal with H : vesting_information (w_lockup w) = VTerminating _ |- _ =>
      lazymatch H with Hu => fail | _ => rewrite Hu in H; injection H; clear H; intros; subst end end.
    eapply inv_finish; eauto; try reflexivity.
    + cbn in Hp. lia.
    + right. exists u, WithdrawingFromStakingPoolInProgress, ReadyToWithdraw. repeat split; auto; discriminate.
  - destruct Hw as [-> ->].
    destruct (phase_terminating _ _ WithdrawingFromStakingPoolInProgress Hpk eq_refl) as [u' Hu].
    match goal with H : vesting_information (w_lockup w) = VTerminating _ |- _ =>
      lazymatch H with Hu => fail | _ => rewrite Hu in H; injection H; clear H; intros; subst end end.
    eapply inv_finish; eauto; try reflexivity.
    + cbn in Hp. lia.
    + right. exists u, WithdrawingFromStakingPoolInProgress, ReadyToWithdraw. repeat split; auto; discriminate.
  - destruct Hw as [-> ->].
    destruct (phase_terminating _ _ WithdrawingFromStakingPoolInProgress Hpk eq_refl) as [u' Hu].
    match goal with H : vesting_information (w_lockup w) = VTerminating _ |- _ =>
      lazymatch H with Hu => fail | _ => rewrite Hu in H; injection H; clear H; intros; subst end end.
    eapply inv_finish; eauto; try reflexivity.
    + cbn in Hp. lia.
    + right. exists u, WithdrawingFromStakingPoolInProgress, EverythingUnstaked. repeat split; auto; discriminate.
Qed.

Lemma inv_other_back g w n cb r w' l :
  inv w -> nth_error (w_msgs w) n = Some (MBack cb r) -> staking_callback cb = false ->
  run g (mkWorld (w_lockup w) (w_balance w) (w_time w) (w_pools w) (drop_nth n (w_msgs w)))
    (g_self g) 0 [r] cb = (Some w', l) ->
  inv w'.
Proof.
  intros HI Hn Hc Hr. pose proof HI as [Hm H1 Ht Hph Hp Hps Hs Hf Hfd HL Htm].
  pose proof (idle_no_staking w HI) as Hidle.
  destruct (Forall_drop _ _ _ _ Hm Hn) as [Hmm Hrest].
  pose proof (total_drop scnt _ _ _ Hn) as D1. pose proof (total_drop tcnt _ _ _ Hn) as D2.
  pose proof (total_drop plus _ _ _ Hn) as D3. pose proof (total_drop minus _ _ _ Hn) as D4.
  cbn [msg_ok] in Hmm. rewrite Hc in Hmm.
  assert (E1 : scnt (MBack cb r) = 0) by (unfold scnt; cbn; rewrite Hc; reflexivity).
  rewrite (plus_scnt _ E1) in D3. rewrite (minus_scnt _ E1) in D4. rewrite E1 in D1.
  apply run_spec in Hr. destruct Hr as (s' & o & He & Hw). cbn [w_lockup w_balance w_time w_pools w_msgs] in *.
  inversion He; subst; try discriminate Hc; try contradiction;
  try (exfalso; match goal with H : owner_op ?m = _ |- _ => destruct m; first [discriminate|contradiction] end);
  try (exfalso; match goal with H : only_status ?m _ = _ |- _ => destruct m; discriminate end);
  try (exfalso; match goal with H : _ \/ _ |- _ => destruct H; subst; discriminate end);
  cbn [ctx_predecessor ctx_current ctx_results] in *;
  try match goal with H : _ :: _ = _ :: _ |- _ => injection H; clear H; intros; subst end.
  - (* a pool is selected *)
    destruct Hw as [-> ->]. cbn [tcnt] in D2.
    match goal with H : staking_information _ = None |- _ => rename H into Hst end.
    match goal with H : not_terminating _ |- _ => pose proof (not_terminating_status _ H) as Hnt end.
    assert (Hb : busy (w_lockup w) = false) by (unfold busy; now rewrite Hst).
    specialize (Hidle Hb). assert (Z : total scnt (drop_nth n (w_msgs w)) = 0) by lia.
    destruct (no_staking _ Z) as [Z1 Z2].
    split; wsimpl; auto.
    + eapply msgs_keep; [exact Hrest|left; exact Z|right; reflexivity].
    + lia.
    + views. lia.
    + views. rewrite Hnt. discriminate.
    + views. lia.
  - (* transfers get enabled *)
    destruct Hw as [-> ->]. cbn [tcnt] in D2.
    split; wsimpl; auto.
    + lia.
    + views. lia.
    + views. lia.
  - (* the poll is open *)
    destruct Hw as [-> ->]. cbn [tcnt] in D2. split; wsimpl; auto; lia.
  - (* paid *)
    destruct Hw as [-> ->]. cbn [tcnt] in D2. destruct Hmm as (u & Hu & Ha).
    assert (Hgs : get_termination_status (w_lockup w) = Some WithdrawingFromAccountInProgress).
    { unfold get_termination_status. rewrite Hu. reflexivity. }
    rewrite Hgs in Ht.
    assert (Hgu : get_terminated_unvested_balance (w_lockup w) = u).
    { unfold get_terminated_unvested_balance. rewrite Hu. reflexivity. }
    rewrite Hgu in *.
    destruct (N.ltb_spec a u).
    + split; wsimpl; auto.
      * eapply msgs_keep; [exact Hrest| |left; lia]. right. split; [reflexivity|]. split; [reflexivity|].
        intros cb. rewrite Hgs. apply phase_keep; reflexivity.
      * lia.
      * views. lia.
      * views. discriminate.
      * views. lia.
      * views. lia.
      * intros _. apply Hfd. rewrite Hu. discriminate.
    + split; wsimpl; auto.
      * eapply msgs_keep; [exact Hrest| |left; lia]. right. split; [reflexivity|]. split; [reflexivity|].
        intros cb. rewrite Hgs. apply phase_keep; reflexivity.
      * lia.
      * views. lia.
      * views. discriminate.
      * views. lia.
      * congruence.
  - (* not paid *)
    destruct Hw as [-> ->]. cbn [tcnt] in D2. destruct Hmm as (u' & Hu & Ha).
    match goal with H : vesting_information (w_lockup w) = VTerminating (mkTermination ?x ?y) |- _ =>
      lazymatch H with Hu => fail | _ => rewrite Hu in H; injection H; clear H; intros; subst end end.
    assert (Hgs : get_termination_status (w_lockup w) = Some WithdrawingFromAccountInProgress).
    { unfold get_termination_status. rewrite Hu. reflexivity. }
    rewrite Hgs in Ht.
    split; wsimpl; auto.
    + eapply msgs_keep; [exact Hrest| |left; lia]. right. split; [reflexivity|]. split; [reflexivity|].
      intros cb. rewrite Hgs. apply phase_keep; reflexivity.
    + lia.
    + views. lia.
    + views. discriminate.
    + views. lia.
    + views. rewrite Hu in Hs. exact Hs.
    + intros _. apply Hfd. rewrite Hu. discriminate.
Qed.

Lemma inv_tokens w n a :
  inv w -> nth_error (w_msgs w) n = Some (MTokens a) ->
  inv (mkWorld (w_lockup w) (w_balance w + a) (w_time w) (w_pools w) (drop_nth n (w_msgs w))).
Proof.
  intros HI Hn. destruct (inv_drop w n _ HI Hn eq_refl eq_refl eq_refl) as [? ? ? ? ? ? ? ? ? ? ?].
  split; auto.
Qed.

Lemma inv_run g w n : inv w -> inv (step g w (ERun n)).
Proof.
  intros HI. unfold step, step_obs.
  destruct (nth_error (w_msgs w) n) as [[r cb|cb r|a]|] eqn:Hn; try exact HI; cbn [fst].
  2:{ apply inv_tokens; assumption. }
  set (w1 := mkWorld _ _ _ _ _).
  destruct (run g w1 (g_self g) 0 [r] cb) as [[w'|] l] eqn:Hr; cbn [fst].
  { destruct (staking_callback cb) eqn:Hc; [eapply inv_staking_back|eapply inv_other_back]; eauto. }
  destruct (Forall_drop _ _ _ _ (i_msgs w HI) Hn) as [Hmm Hrest].
  destruct (staking_callback cb) eqn:Hc.
  - destruct (failed_view cb r) eqn:Hfv.
    { apply (inv_drop w n (MBack cb r)); auto; destruct cb, r; try discriminate; reflexivity. }
    exfalso. cbn [msg_ok] in Hmm. rewrite Hc in Hmm. destruct Hmm as (p & d & Hst & Hpk & Hans).
    assert (Hlt : minus (MBack cb r) = 0 -> d + plus (MBack cb r) < U128_BOUND).
    { intros E. pose proof (i_one w HI). pose proof (i_pool w HI) as Hp. pose proof (i_pools w HI p) as Hps.
      unfold pool_total, get_known_deposited_balance, get_staking_pool_account_id in Hp. rewrite Hst in Hp. cbn in Hp.
      pose proof (total_drop scnt _ _ _ Hn) as D1. 
      pose proof (total_drop plus _ _ _ Hn) as D3. pose proof (total_drop minus _ _ _ Hn) as D4.
      assert (E1 : scnt (MBack cb r) = 1) by (unfold scnt; cbn; rewrite Hc; reflexivity).
      destruct (no_staking (drop_nth n (w_msgs w)) ltac:(lia)) as [Z1 Z2].
      lia. }
    destruct (staking_callback_runs g w1 cb r p d _ Hc Hfv Hst Hpk Hans Hlt) as (s' & o & He & Ho).
    destruct (run_of_exec g w1 r cb s' o He Ho) as (w' & l' & Hrun). congruence.
  - destruct cb; try discriminate Hc; try contradiction.
    + apply (inv_drop w n (MBack (OnWhitelistIsWhitelisted pool) r)); auto.
    + apply (inv_drop w n (MBack OnGetResultFromTransferPoll r)); auto.
    + exfalso. cbn in Hmm. destruct (payment_callback_runs g w1 amount receiver r Hmm (i_sum w HI)) as (s' & He).
      destruct (run_of_exec g w1 r _ s' None He I) as (w' & l' & Hrun). congruence.
Qed.

Lemma total_tokens f a : (forall x, f (MTokens x) = 0) -> total f (tokens a) = 0.
Proof. intros H. unfold tokens. destruct (a =? 0); cbn; rewrite ?H; reflexivity. Qed.

Lemma tokens_ok s tp a : Forall (msg_ok s tp) (tokens a).
Proof. unfold tokens. destruct (a =? 0); repeat constructor. Qed.

Lemma set_pool_same f p b : set_pool f p b p = b.
Proof. unfold set_pool. rewrite String.eqb_refl. reflexivity. Qed.

Lemma set_pool_bound f p b :
  (forall q, fst (f q) + snd (f q) < U128_BOUND) -> fst b + snd b < U128_BOUND ->
  forall q, fst (set_pool f p b q) + snd (set_pool f p b q) < U128_BOUND.
Proof. intros H Hb q. unfold set_pool. destruct (String.eqb q p); auto. Qed.

Lemma matches_staking op cb : cb_matches op cb = true -> staking_callback cb = true.
Proof. destruct op, cb; cbn; intros; try discriminate; reflexivity. Qed.

Lemma back_ok s tp p op cb d r :
  staking_information s = Some (mkStaking p Busy d) -> cb_matches op cb = true ->
  phase_ok (get_termination_status s) cb = true ->
  (is_view op = true -> r = None \/ exists x, r = Some (ABalance x) /\ (op = PGetTotal -> d <= x /\ x <= tp)) ->
  msg_ok s tp (MBack cb r).
Proof.
  intros Hst Hcb Hpk Hv. cbn [msg_ok]. rewrite (matches_staking op cb Hcb).
  exists p, d. split; [exact Hst|]. split; [exact Hpk|].
  destruct op, cb; cbn in Hcb; try discriminate; cbn [answer_ok]; auto;
  (destruct (Hv eq_refl) as [->|(x & -> & Hx)]; [left; reflexivity|right]);
  exists x; auto.
Qed.

Lemma matches_plus op cb r : cb_matches op cb = true ->
  plus (MBack cb (Some r)) = (match op with PDeposit a | PDepositAndStake a => a | _ => 0 end) /\
  minus (MBack cb (Some r)) = (match op with PWithdraw a => a | _ => 0 end).
Proof.
  destruct op, cb; cbn; intros H; try discriminate; try (apply N.eqb_eq in H; subst); auto.
Qed.

(** A request to a staking pool is executed. *)
Lemma inv_pool_delivered w n p op cbo pools new :
  inv w -> nth_error (w_msgs w) n = Some (MCall (RPool p op) cbo) ->
  (exists o l, execute w (RPool p op) cbo o = Some (pools, new, l)) ->
  inv (mkWorld (w_lockup w) (w_balance w) (w_time w) pools (drop_nth n (w_msgs w) ++ new)).
Proof.
  intros HI Hn (o & l & Hx). pose proof HI as [Hm H1 Ht Hph Hp Hps Hs Hf Hfd HL Htm].
  destruct (Forall_drop _ _ _ _ Hm Hn) as [Hmm Hrest].
  pose proof (total_drop scnt _ _ _ Hn) as D1. pose proof (total_drop tcnt _ _ _ Hn) as D2.
  pose proof (total_drop plus _ _ _ Hn) as D3. pose proof (total_drop minus _ _ _ Hn) as D4.
  cbn [msg_ok] in Hmm. destruct Hmm as (d & cb & Hst & -> & Hcb & Hpk).
  change (scnt (MCall (RPool p op) (Some cb))) with 1 in D1. cbn [tcnt plus minus] in D2, D3, D4.
  assert (Z : total scnt (drop_nth n (w_msgs w)) = 0) by lia.
  destruct (no_staking _ Z) as [Z1 Z2].
  assert (Es : forall r, scnt (MBack cb r) = 1).
  { intros r. unfold scnt. cbn. now rewrite (matches_staking _ _ Hcb). }
  assert (Et : forall r, tcnt (MBack cb r) = 0).
  { intros r. pose proof (matches_staking _ _ Hcb). destruct cb; try discriminate; reflexivity. }
  assert (Hpt : forall f, pool_total f (w_lockup w) = fst (f p) + snd (f p)).
  { intros f. unfold pool_total, get_staking_pool_account_id. rewrite Hst. reflexivity. }
  assert (HD : get_known_deposited_balance (w_lockup w) = d).
  { unfold get_known_deposited_balance. rewrite Hst. reflexivity. }
  rewrite Hpt, HD, D3, D4, Z1, Z2 in Hp.
  assert (Hend : forall pools' r toks,
    (forall q, fst (pools' q) + snd (pools' q) < U128_BOUND) ->
    (is_view op = true -> r = None \/ exists x, r = Some (ABalance x) /\ (op = PGetTotal ->
        d <= x /\ x <= fst (pools' p) + snd (pools' p))) ->
    d + plus (MBack cb r) <= fst (pools' p) + snd (pools' p) + minus (MBack cb r) ->
    inv (mkWorld (w_lockup w) (w_balance w) (w_time w) pools'
           (drop_nth n (w_msgs w) ++ tokens toks ++ [MBack cb r]))).
  { intros pools' r toks Hb Hv Hle.
    split; cbn [w_lockup w_balance w_time w_pools w_msgs]; rewrite ?total_app, ?total_one, ?Es, ?Et;
    try (rewrite !total_tokens by reflexivity); auto; try lia.
    - rewrite !Forall_app. split; [eapply msgs_keep; [exact Hrest|left; exact Z|right; reflexivity]|].
      split; [apply tokens_ok|]. constructor; [|constructor]. eapply back_ok; eauto. now rewrite Hpt.
    - rewrite Hpt, HD. lia. }
  destruct o; cbn [execute] in Hx; try discriminate.
  - injection Hx as <- <- _. apply Hend; auto.
    destruct (plus (MBack cb None)) eqn:E1; [|destruct cb; discriminate]. lia.
  - destruct (is_view op) eqn:Ev; [|discriminate]. injection Hx as <- <- _.
    apply (Hend (w_pools w) (Some (ABalance (view_answer op (w_pools w p)))) 0); auto.
    + intros _. right. eexists. split; [reflexivity|]. intros ->. cbn. lia.
    + destruct (matches_plus op cb (ABalance (view_answer op (w_pools w p))) Hcb) as [-> ->].
      destruct op; try discriminate; lia.
  - destruct (pool_keeps op (w_pools w p) (staked, unstaked)) eqn:Ek; [|discriminate]. injection Hx as <- <- _.
    unfold pool_keeps in Ek. destruct (w_pools w p) as [s0 u0] eqn:Ep.
    apply andb_true_iff in Ek. destruct Ek as [Ek1 Ek2]. apply N.ltb_lt in Ek1. cbn [fst snd] in Hp.
    assert (G : inv (mkWorld (w_lockup w) (w_balance w) (w_time w) (set_pool (w_pools w) p (staked, unstaked))
           (drop_nth n (w_msgs w) ++ tokens (match op with PWithdraw a => a | _ => 0 end) ++ [MBack cb (Some AVoid)]))).
    { apply Hend.
      - apply set_pool_bound; auto.
      - intros Hv. destruct op; discriminate.
      - rewrite set_pool_same. cbn [fst snd]. destruct (matches_plus op cb AVoid Hcb) as [-> ->].
        destruct op; try discriminate; norm_bool; lia. }
    destruct op; exact G.
Qed.

Lemma inv_deliver g w n o : inv w -> inv (step g w (EDeliver n o)).
Proof.
  intros HI. unfold step, step_obs.
  destruct (nth_error (w_msgs w) n) as [[r cb|cb r|a]|] eqn:Hn; try exact HI; cbn [fst].
  destruct (execute w r cb o) as [[[pools new] l]|] eqn:Hx; [|exact HI]. cbn [fst].
  destruct r as [wl p|poll|p op|rc a|pk].
  3:{ eapply inv_pool_delivered; eauto. }
  all: pose proof HI as [Hm H1 Ht Hph Hp Hps Hs Hf Hfd HL Htm];
    destruct (Forall_drop _ _ _ _ Hm Hn) as [Hmm Hrest];
    pose proof (total_drop scnt _ _ _ Hn) as D1; pose proof (total_drop tcnt _ _ _ Hn) as D2;
    pose proof (total_drop plus _ _ _ Hn) as D3; pose proof (total_drop minus _ _ _ Hn) as D4;
    cbn [msg_ok] in Hmm.
  - subst cb. cbn [scnt staking_msg tcnt plus minus] in D1, D2, D3, D4.
    destruct o; cbn in Hx; try discriminate; injection Hx as <- <- _;
    (split; cbn [w_lockup w_balance w_time w_pools w_msgs]; rewrite ?total_app, ?total_one; auto; zero_counts;
     apply Forall_app; split; [exact Hrest|]; constructor; [cbn; eauto|constructor]).
  - subst cb. cbn [scnt staking_msg tcnt plus minus] in D1, D2, D3, D4.
    destruct o; cbn in Hx; try discriminate; injection Hx as <- <- _;
    (split; cbn [w_lockup w_balance w_time w_pools w_msgs]; rewrite ?total_app, ?total_one; auto; zero_counts;
     apply Forall_app; split; [exact Hrest|]; constructor; [cbn; eauto|constructor]).
  - assert (exists toks r', pools = w_pools w /\ new = (tokens toks ++ back cb r')%list) as (toks & r' & -> & ->).
    { destruct o; cbn in Hx; try discriminate; injection Hx as <- <- _.
      - exists a, None. auto.
      - exists 0, (Some AVoid). auto. }
    cbn [scnt staking_msg plus minus] in D1, D3, D4.
    destruct Hmm as [->|[-> Hpay]]; cbn [tcnt] in D2; cbn [back];
    (split; cbn [w_lockup w_balance w_time w_pools w_msgs]; rewrite ?total_app, ?total_one;
     try (rewrite total_tokens by reflexivity); auto; cbn [total fold_right]; zero_counts).
    + rewrite !Forall_app. repeat split; [exact Hrest|apply tokens_ok|constructor].
    + rewrite !Forall_app. split; [exact Hrest|]. split; [apply tokens_ok|]. constructor; [exact Hpay|constructor].
  - subst cb. cbn [scnt staking_msg tcnt plus minus] in D1, D2, D3, D4.
    destruct o; cbn in Hx; try discriminate; injection Hx as <- <- _. rewrite app_nil_r.
    apply (inv_drop w n _ HI Hn); reflexivity.
Qed.

Lemma inv_step g w ev : inv w -> inv (step g w ev).
Proof.
  intros HI. destruct ev as [t|x|p s u|who att m|n o|n].
  - unfold step, step_obs. destruct ((w_time w <=? t) && (t <? U64_BOUND)) eqn:E; [|exact HI].
    norm_bool. destruct HI. split; auto.
  - unfold step, step_obs. destruct HI. split; auto.
  - unfold step, step_obs.
    destruct ((fst (w_pools w p) + snd (w_pools w p) <=? s + u) && (s + u <? U128_BOUND)) eqn:E; [|exact HI].
    norm_bool. cbn [fst].
    assert (Hle : pool_total (w_pools w) (w_lockup w) <= pool_total (set_pool (w_pools w) p (s, u)) (w_lockup w)).
    { unfold pool_total. destruct (get_staking_pool_account_id (w_lockup w)) as [q|]; [|lia].
      unfold set_pool. destruct (String.eqb_spec q p); [subst; cbn; lia|lia]. }
    destruct HI as [Hm H1 Ht Hph Hp Hps Hs Hf Hfd HL Htm]. split; wsimpl; auto.
    + eapply msgs_keep; [exact Hm| |right; reflexivity]. right. auto.
    + lia.
    + apply set_pool_bound; auto.
  - unfold step, step_obs. destruct (String.eqb_spec who (g_self g)); [exact HI|].
    destruct (run g w who att [] m) as [[w'|] l] eqn:Hr; [|exact HI]. cbn [fst]. eapply inv_call; eauto.
  - now apply inv_deliver.
  - now apply inv_run.
Qed.

Lemma inv_final g w evs : inv w -> inv (final g w evs).
Proof. revert w. induction evs as [|ev evs IH]; intros w H; [exact H|]. apply IH. now apply inv_step. Qed.

Lemma new_ok c b ow du ti tr ve re wl fo s :
  new c b ow du ti tr ve re wl fo = Ok s ->
  s = mkContract ow (mkLockup (ctx_balance c) 0 du re ti tr)
        match ve with None => VNone | Some (ArgHash h) => VHash h | Some (ArgSchedule vs) => VSchedule vs end
        wl None fo /\ ctx_attached c = 0 /\ b = false /\
  is_valid_account_id ow = true /\ is_valid_account_id wl = true /\
  match tr with TransfersDisabled p => is_valid_account_id p = true | _ => True end /\
  match ve, fo with
  | None, None => True
  | None, Some _ => False
  | Some _, Some f => is_valid_account_id f = true
  | Some _, None => False
  end.
Proof.
  unfold new. intros H. inv_all.
  destruct ve as [[h|vs]|], fo as [f|]; cbn [expect bind require] in *; inv_all; try discriminate;
  (split; [reflexivity|]); do 4 (split; [solve [auto]|]); (split; [destruct tr; auto|]); auto.
Qed.

Lemma inv_start g w : starts g w -> inv w.
Proof.
  intros [(ow & du & ti & tr & ve & re & wl & fo & pr & Hnew & _) HB HT HP HM].
  apply new_ok in Hnew. destruct Hnew as (Es & _ & _ & _ & _ & _ & Hfo). cbn [ctx_balance] in Es.
  pose proof U128_pos.
  split; rewrite ?HM, ?Es; cbn; auto; try lia.
  - destruct ve as [[]|]; reflexivity.
  - destruct ve as [[]|]; discriminate.
  - unfold get_terminated_unvested_balance. destruct ve as [[]|]; cbn; exact H.
  - destruct ve as [[]|]; auto.
  - destruct ve as [[]|], fo as [f|]; try contradiction; eauto.
Qed.
