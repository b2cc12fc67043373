(** A new fee is used from the next distribution on (C124). *)
From Coq Require Import NArith List Bool String Lia.
From Verif Require Import Prelude PreludeFacts StakingPoolModel StakingPoolSpec StakingPoolProofs
  StakingPoolHistory StakingPoolFacts.
Import ListNotations.
Open Scope string_scope.
Open Scope N_scope.

(** Anything but the end of the epoch. *)
Definition same_epoch (e : event) : Prop := match e with EvEpoch _ => False | _ => True end.

(** All views but that of the fee answer the same. *)
Definition same_but_fee (p q : pool) : Prop :=
  get_owner_id p = get_owner_id q /\ get_staking_key p = get_staking_key q /\
  is_staking_paused p = is_staking_paused q /\ get_total_staked_balance p = get_total_staked_balance q /\
  get_number_of_accounts p = get_number_of_accounts q /\
  (forall epoch u, get_account epoch p u = get_account epoch q u) /\
  (forall epoch from limit, get_accounts epoch p from limit = get_accounts epoch q from limit).

Definition lift {A} (f : fraction) (r : res (pool * A)) : res (pool * A) :=
  match r with Ok (p, x) => Ok (set_fraction f p, x) | Panic s => Panic s end.
Definition lift1 (f : fraction) (r : res pool) : res pool :=
  match r with Ok p => Ok (set_fraction f p) | Panic s => Panic s end.

Lemma set_set f g p : set_fraction f (set_fraction g p) = set_fraction f p.
Proof. reflexivity. Qed.
Lemma save_fee f p a acc : internal_save_account (set_fraction f p) a acc = set_fraction f (internal_save_account p a acc).
Proof. unfold internal_save_account. now destruct (_ || _). Qed.
Lemma down_fee f p n : staked_amount_from_num_shares_rounded_down (set_fraction f p) n = staked_amount_from_num_shares_rounded_down p n.
Proof. reflexivity. Qed.
Lemma up_fee f p n : staked_amount_from_num_shares_rounded_up (set_fraction f p) n = staked_amount_from_num_shares_rounded_up p n.
Proof. reflexivity. Qed.
Lemma ndown_fee f p n : num_shares_from_staked_amount_rounded_down (set_fraction f p) n = num_shares_from_staked_amount_rounded_down p n.
Proof. reflexivity. Qed.
Lemma nup_fee f p n : num_shares_from_staked_amount_rounded_up (set_fraction f p) n = num_shares_from_staked_amount_rounded_up p n.
Proof. reflexivity. Qed.
Lemma acc_fee f p a : internal_get_account (set_fraction f p) a = internal_get_account p a.
Proof. reflexivity. Qed.
Lemma lt_fee f p : last_total_balance (set_fraction f p) = last_total_balance p.
Proof. reflexivity. Qed.
Lemma T_fee f p : total_staked_balance (set_fraction f p) = total_staked_balance p.
Proof. reflexivity. Qed.
Lemma S_fee f p : total_stake_shares (set_fraction f p) = total_stake_shares p.
Proof. reflexivity. Qed.
Lemma setT_fee x f p : set_total_staked x (set_fraction f p) = set_fraction f (set_total_staked x p).
Proof. reflexivity. Qed.
Ltac fee_step :=
  rewrite ?save_fee, ?setT_fee, ?down_fee, ?up_fee, ?ndown_fee, ?nup_fee, ?acc_fee, ?lt_fee, ?T_fee, ?S_fee;
  match goal with
  | |- bind ?r _ = _ => destruct r; cbn [bind lift lift1]; [|reflexivity]
  end.
Lemma deposit_fee c f p : internal_deposit c (set_fraction f p) = lift f (internal_deposit c p).
Proof. unfold internal_deposit. cbv zeta. repeat fee_step. reflexivity. Qed.
Lemma withdraw_fee c f p a : internal_withdraw c (set_fraction f p) a = lift f (internal_withdraw c p a).
Proof. unfold internal_withdraw. cbv zeta. repeat fee_step. reflexivity. Qed.
Lemma stake_fee c f p a : internal_stake c (set_fraction f p) a = lift1 f (internal_stake c p a).
Proof. unfold internal_stake. cbv zeta. repeat fee_step. reflexivity. Qed.
Lemma unstake_fee c f p a : inner_unstake c (set_fraction f p) a = lift1 f (inner_unstake c p a).
Proof. unfold inner_unstake. cbv zeta. repeat fee_step. reflexivity. Qed.

Lemma ping_now c p : last_epoch_height p = ctx_epoch c -> internal_ping c p = Ok (p, false).
Proof. intros H. unfold internal_ping. rewrite H, N.eqb_refl. reflexivity. Qed.
Lemma restake_fee f p : internal_restake (set_fraction f p) = internal_restake p.
Proof. reflexivity. Qed.

Definition sets_fee (m : call) : bool := match m with UpdateRewardFeeFraction _ => true | _ => false end.

(** Within an epoch nothing depends on the fee. *)
Lemma exec_fee c p f m : last_epoch_height p = ctx_epoch c ->
  exec c (set_fraction f p) m = if sets_fee m then exec c p m else lift f (exec c p m).
Proof.
  intros H. assert (H' : last_epoch_height (set_fraction f p) = ctx_epoch c) by exact H.
  unfold exec. destruct (require (args_fit m) _); cbn [bind lift]; [|now destruct (sets_fee m)].
  destruct (require (payable m || _) _); cbn [bind lift]; [|now destruct (sets_fee m)].
  destruct m; cbn [sets_fee].
  - unfold ping. rewrite !ping_now by auto. reflexivity.
  - unfold deposit. rewrite !ping_now by auto. cbn [bind]. rewrite deposit_fee.
    destruct (internal_deposit c p) as [[q x]|]; reflexivity.
  - unfold deposit_and_stake. rewrite !ping_now by auto. cbn [bind]. rewrite deposit_fee.
    destruct (internal_deposit c p) as [[q x]|]; cbn [bind lift]; [|reflexivity]. rewrite stake_fee.
    destruct (internal_stake c q x); reflexivity.
  - unfold withdraw_all. rewrite !ping_now by auto. cbn [bind]. rewrite acc_fee, withdraw_fee.
    destruct (internal_withdraw c p _) as [[q x]|]; reflexivity.
  - unfold withdraw. rewrite !ping_now by auto. cbn [bind]. rewrite withdraw_fee.
    destruct (internal_withdraw c p _) as [[q x]|]; reflexivity.
  - unfold stake_all. rewrite !ping_now by auto. cbn [bind]. rewrite acc_fee, stake_fee.
    destruct (internal_stake c p _); reflexivity.
  - unfold stake. rewrite !ping_now by auto. cbn [bind]. rewrite stake_fee.
    destruct (internal_stake c p _); reflexivity.
  - unfold unstake_all. rewrite !ping_now by auto. cbn [bind]. rewrite acc_fee, down_fee.
    destruct (staked_amount_from_num_shares_rounded_down p _); cbn [bind lift]; [|reflexivity]. rewrite unstake_fee.
    destruct (inner_unstake c p _); reflexivity.
  - unfold unstake. rewrite !ping_now by auto. cbn [bind]. rewrite unstake_fee.
    destruct (inner_unstake c p _); reflexivity.
  - unfold on_stake_action. destruct (require _ _); cbn [bind lift]; [|reflexivity].
    destruct (ctx_results c) as [|x [|]]; reflexivity.
  - unfold update_staking_key. rewrite !ping_now by auto. change (assert_owner c (set_fraction f p)) with (assert_owner c p).
    destruct (assert_owner c p); reflexivity.
  - unfold update_reward_fee_fraction. rewrite !ping_now by auto.
    change (assert_owner c (set_fraction f p)) with (assert_owner c p).
    destruct (assert_owner c p); cbn [bind]; [|reflexivity]. destruct (fraction_assert_valid f0); reflexivity.
  - unfold vote. change (assert_owner c (set_fraction f p)) with (assert_owner c p).
    destruct (assert_owner c p); cbn [bind lift]; [|reflexivity]. destruct (require _ _); reflexivity.
  - unfold pause_staking. rewrite !ping_now by auto. change (assert_owner c (set_fraction f p)) with (assert_owner c p).
    destruct (assert_owner c p); cbn [bind lift]; [|reflexivity].
    change (paused (set_fraction f p)) with (paused p). destruct (require _ _); reflexivity.
  - unfold resume_staking. rewrite !ping_now by auto. change (assert_owner c (set_fraction f p)) with (assert_owner c p).
    destruct (assert_owner c p); cbn [bind lift]; [|reflexivity].
    change (paused (set_fraction f p)) with (paused p). destruct (require _ _); reflexivity.
Qed.

(** Two worlds in which only the fee differs, and rewards were distributed in this epoch. *)
Definition alike (w w' : world) : Prop :=
  (exists f, w_pool w = set_fraction f (w_pool w')) /\ w_total w = w_total w' /\ w_epoch w = w_epoch w' /\
  last_epoch_height (w_pool w') = w_epoch w'.

Lemma alike_step self w w' e : same_epoch e -> alike w w' ->
  snd (step self w e) = snd (step self w' e) /\ alike (fst (step self w e)) (fst (step self w' e)).
Proof.
  intros SE ((f & P) & T & E & L). destruct e as [who att loc rs m|x|n]; [| |destruct SE].
  2: { cbn. split; [reflexivity|]. repeat split; cbn; eauto. lia. }
  unfold step. rewrite P, T, E. destruct (_ && _); cbn [fst snd]; [|split; [reflexivity|]; repeat split; eauto].
  rewrite exec_fee by exact L. set (c := mkCtx _ _ _ _ _ _ _).
  pose proof (exec_epoch c (w_pool w') m) as X.
  destruct (exec c (w_pool w') m) as [[q ps]|] eqn:Q.
  - assert (Lq : last_epoch_height q = w_epoch w').
    { rewrite (X _ _ eq_refl). cbn. now destruct (is_plain m). }
    assert (G : exists g, (if sets_fee m then Ok (q, ps) else lift f (Ok (q, ps))) = Ok (set_fraction g q, ps)).
    { destruct (sets_fee m); [exists (reward_fee_fraction q); now destruct q|now exists f]. }
    destruct G as (g & ->). destruct (_ <=? _); cbn [fst snd].
    + split; [reflexivity|]. repeat split; cbn; eauto.
    + split; [reflexivity|]. repeat split; eauto.
  - assert (G : (if sets_fee m then Panic msg else lift f (Panic msg)) = (Panic msg : res (pool * list promise)))
      by (destruct (sets_fee m); reflexivity).
    rewrite G. cbn [fst snd]. split; [reflexivity|]. repeat split; eauto.
Qed.

Lemma alike_history self es : Forall same_epoch es -> forall w w', alike w w' ->
  map en_promises (history self w es) = map en_promises (history self w' es) /\
  alike (final self w es) (final self w' es).
Proof.
  induction 1 as [|e es He _ IH]; intros w w' A; [now split|].
  destruct (alike_step self w w' e He A) as (S & A'). cbn [history final].
  destruct (step self w e) as [w1 o1]. destruct (step self w' e) as [w1' o1']. cbn [fst snd] in S, A'.
  destruct (IH _ _ A') as (H & F). split; [|exact F]. cbn [map en_promises]. now rewrite S, H.
Qed.

Lemma views_alike f p : same_but_fee (set_fraction f p) p.
Proof. repeat split. Qed.

Lemma ping_by_all c c' p : ctx_epoch c = ctx_epoch c' -> ctx_attached c = ctx_attached c' ->
  ctx_locked c + ctx_balance c = ctx_locked c' + ctx_balance c' -> internal_ping c p = internal_ping c' p.
Proof.
  intros E A B. unfold internal_ping, add128, add_chk. now rewrite E, A, B.
Qed.

Lemma fee_is_set_later self w o locked results f w1 ps1 v l r w2 ps2 es :
  step self w (EvCall o 0 locked results (UpdateRewardFeeFraction f)) = (w1, Some ps1) ->
  step self w (EvCall v 0 l r Ping) = (w2, Some ps2) ->
  Forall same_epoch es ->
  ps1 = ps2 /\ map en_promises (history self w1 es) = map en_promises (history self w2 es) /\
  same_but_fee (w_pool (final self w1 es)) (w_pool (final self w2 es)) /\
  w_total (final self w1 es) = w_total (final self w2 es).
Proof.
  intros H1 H2 ES. apply step_call_some in H1, H2.
  destruct H1 as (_ & L1 & p1 & E1 & _ & ->). destruct H2 as (_ & L2 & p2 & E2 & _ & ->).
  destruct (exec_split _ _ _ _ _ E1 eq_refl) as (_ & _ & q1 & n1 & HP1 & _ & _ & _ & -> & ->).
  destruct (exec_split _ _ _ _ _ E2 eq_refl) as (_ & _ & q2 & n2 & HP2 & -> & ->).
  rewrite (ping_by_all _ (call_ctx self w v 0 l r)) in HP1 by (cbn; lia). rewrite HP2 in HP1. injection HP1 as <- <-.
  assert (EP : restake_if n2 (set_fraction f q2) = restake_if n2 q2) by reflexivity.
  rewrite EP. split; [reflexivity|].
  match goal with |- map _ (history _ ?a _) = map _ (history _ ?b _) /\ _ => assert (A : alike a b) end.
  { repeat split; cbn; eauto. apply exec_epoch in E2. exact E2. }
  destruct (alike_history self es ES _ _ A) as (H & (g & P) & T & _). split; [exact H|]. split; [|exact T].
  rewrite P. apply views_alike.
Qed.

(** No call to set the fee. *)
Definition keeps_fee (e : event) : Prop := match e with EvCall _ _ _ _ (UpdateRewardFeeFraction _) => False | _ => True end.

Lemma body_fee c need p m p' ps : sets_fee m = false ->
  body_effect c need p m p' ps -> reward_fee_fraction p' = reward_fee_fraction p.
Proof.
  intros N H. destruct m; cbn [body_effect sets_fee] in *; try discriminate N;
    unfold deposit_effect, stake_effect, unstake_effect, withdraw_effect in *;
    repeat match goal with H : _ /\ _ |- _ => destruct H | H : exists _, _ |- _ => destruct H | H : False |- _ => destruct H end;
    subst; reflexivity.
Qed.
Lemma fee_kept self ds : Forall keeps_fee ds -> forall w,
  reward_fee_fraction (w_pool (final self w ds)) = reward_fee_fraction (w_pool w).
Proof.
  induction 1 as [|e ds He _ IH]; intros w; [reflexivity|]. cbn [final]. rewrite IH.
  destruct e as [who att loc rs m|x|n]; try reflexivity.
  destruct (step self w (EvCall who att loc rs m)) as [w' [ps|]] eqn:E; cbn [fst].
  - apply step_call_some in E. destruct E as (_ & _ & p' & X & _ & ->). cbn [w_pool].
    assert (NF : sets_fee m = false) by (destruct m; auto; destruct He).
    apply exec_ok in X. destruct X as (_ & _ & [(_ & -> & _)|(_ & p1 & need & HP & HB)]); [reflexivity|].
    rewrite (body_fee _ _ _ _ _ _ NF HB). now apply ping_keeps in HP.
  - unfold step in E. destruct (_ && _); [|now injection E as <-].
    destruct (exec _ _ _) as [[q ps]|]; [destruct (_ <=? _); [discriminate E|]|]; now injection E as <-.
Qed.
