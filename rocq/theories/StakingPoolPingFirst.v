(** A ping just before a call makes no difference (C125). *)
From Coq Require Import NArith List Bool String Lia.
From Verif Require Import Prelude PreludeFacts StakingPoolModel StakingPoolSpec StakingPoolProofs
  StakingPoolHistory StakingPoolFacts StakingPoolFeeLater.
Import ListNotations.
Open Scope string_scope.
Open Scope N_scope.

(** What is paid, to whom. *)
Definition payments (ps : list promise) : list promise :=
  filter (fun q => match q with PTransfer _ _ => true | _ => false end) ps.
(** The last stake action. *)
Definition last_stake (ps : list promise) : option promise :=
  fold_left (fun acc q => match q with PStake _ _ _ => Some q | _ => acc end) ps None.
(** The votes cast and the callbacks do not distribute rewards. *)
Definition distributes (m : call) : bool := match m with Vote _ _ | OnStakeAction => false | _ => true end.

(** These stake the total only if there was something to distribute. *)
Definition quiet_call (m : call) : bool :=
  match m with Ping | Deposit | Withdraw _ | WithdrawAll | UpdateRewardFeeFraction _ => true | _ => false end.

Lemma exec_after_ping c p p1 need m : internal_ping c p = Ok (p1, need) -> distributes m = true ->
  exec c p m = match exec c p1 m with
               | Ok (q, ps) => Ok (q, if quiet_call m then ps ++ restake_if need q else ps)%list
               | Panic s => Panic s
               end.
Proof.
  intros HP D. pose proof (ping_idem _ _ _ _ HP) as ID. pose proof (ping_keeps _ _ _ _ HP) as (O & _ & PA & _).
  assert (AO : assert_owner c p = assert_owner c p1) by (unfold assert_owner; now rewrite O).
  unfold exec. destruct (require (args_fit m) _); cbn [bind]; [|reflexivity].
  destruct (require (payable m || _) _); cbn [bind]; [|reflexivity].
  destruct m; try discriminate D; cbn [quiet_call].
  - unfold ping. rewrite HP, ID. reflexivity.
  - unfold deposit. rewrite HP, ID. cbn [bind]. destruct (internal_deposit c p1) as [[q x]|]; reflexivity.
  - unfold deposit_and_stake. rewrite HP, ID. cbn [bind].
    destruct (internal_deposit c p1) as [[q x]|]; cbn [bind]; [|reflexivity]. destruct (internal_stake c q x); reflexivity.
  - unfold withdraw_all. rewrite HP, ID. cbn [bind]. destruct (internal_withdraw c p1 _) as [[q x]|]; cbn; [|reflexivity].
    now rewrite app_nil_r.
  - unfold withdraw. rewrite HP, ID. cbn [bind]. destruct (internal_withdraw c p1 _) as [[q x]|]; cbn; [|reflexivity].
    now rewrite app_nil_r.
  - unfold stake_all. rewrite HP, ID. cbn [bind]. destruct (internal_stake c p1 _); reflexivity.
  - unfold stake. rewrite HP, ID. cbn [bind]. destruct (internal_stake c p1 _); reflexivity.
  - unfold unstake_all. rewrite HP, ID. cbn [bind].
    destruct (staked_amount_from_num_shares_rounded_down p1 _); cbn [bind]; [|reflexivity].
    destruct (inner_unstake c p1 _); reflexivity.
  - unfold unstake. rewrite HP, ID. cbn [bind]. destruct (inner_unstake c p1 _); reflexivity.
  - unfold update_staking_key. rewrite AO, HP, ID. destruct (assert_owner c p1); reflexivity.
  - unfold update_reward_fee_fraction. rewrite AO, HP, ID. destruct (assert_owner c p1); cbn [bind]; [|reflexivity].
    destruct (fraction_assert_valid f); reflexivity.
  - unfold pause_staking. rewrite AO, HP, ID, PA. destruct (assert_owner c p1); cbn [bind]; [|reflexivity].
    destruct (require _ _); reflexivity.
  - unfold resume_staking. rewrite AO, HP, ID, PA. destruct (assert_owner c p1); cbn [bind]; [|reflexivity].
    destruct (require _ _); reflexivity.
Qed.

Lemma plain_distributes m : distributes m = true -> is_plain m = false.
Proof. now destruct m. Qed.
Lemma promises_after_ping c p1 m q ps n : internal_ping c p1 = Ok (p1, false) -> exec c p1 m = Ok (q, ps) -> distributes m = true ->
  payments (if quiet_call m then ps ++ restake_if n q else ps)%list = payments ps /\
  outgoing (if quiet_call m then ps ++ restake_if n q else ps)%list = outgoing ps /\
  last_stake (restake_if n p1 ++ ps)%list = last_stake (if quiet_call m then ps ++ restake_if n q else ps)%list.
Proof.
  intros ID H D. destruct (exec_split _ _ _ _ _ H (plain_distributes _ D)) as (_ & _ & p2 & need & HP & HB).
  rewrite ID in HP. injection HP as <- <-.
  destruct m; try discriminate D; cbn [quiet_call body_effect] in *;
    unfold deposit_effect, withdraw_effect, restake_if, internal_restake in *;
    repeat match goal with H : _ /\ _ |- _ => destruct H | H : exists _, _ |- _ => destruct H end; subst;
    cbn [payments outgoing last_stake filter fold_right fold_left app paused total_staked_balance stake_public_key
         set_fraction set_key set_paused];
    try (destruct n; cbn; repeat match goal with H : paused _ = _ |- _ => rewrite H; clear H end;
         repeat match goal with |- context [if paused ?x then _ else _] => destruct (paused x) eqn:?; cbn end;
         repeat split; auto; lia).
  all: assert (PQ : paused q = paused p1) by
    (match goal with
     | H : stake_effect _ _ _ _ _ |- _ => destruct H as (_ & _ & _ & _ & _ & _ & _ & _ & _ & ->)
     | H : unstake_effect _ _ _ _ _ |- _ => destruct H as (_ & _ & _ & _ & _ & _ & _ & _ & _ & ->)
     end; reflexivity).
  all: rewrite PQ; destruct (paused p1), n; auto.
Qed.

Lemma ping_first self w v l r w1 ps1 who att loc rs m :
  step self w (EvCall v 0 l r Ping) = (w1, Some ps1) -> w_total w + att < U128_BOUND -> distributes m = true ->
  match step self w (EvCall who att loc rs m), step self w1 (EvCall who att loc rs m) with
  | (w2, Some ps2), (w3, Some ps3) => w3 = w2 /\ payments ps3 = payments ps2 /\ last_stake (ps1 ++ ps3) = last_stake ps2
  | (_, None), (_, None) => True
  | _, _ => False
  end.
Proof.
  intros H B D. apply step_call_some in H. destruct H as (_ & L & p1 & E & _ & ->).
  destruct (exec_split _ _ _ _ _ E eq_refl) as (_ & _ & q1 & need & HP & -> & ->).
  rewrite outgoing_restake_if. unfold step. cbn [w_total w_pool w_epoch]. rewrite N.add_0_r, N.sub_0_r.
  destruct (caller_possible self who m && (loc <=? w_total w)) eqn:G; [|exact I].
  apply andb_prop in G. destruct G as (_ & G). apply N.leb_le in G.
  set (c := mkCtx _ _ _ _ _ _ _).
  assert (HC : internal_ping c (w_pool w) = Ok (q1, need)).
  { rewrite <- HP. apply internal_ping_ext; cbn; try lia. }
  rewrite (exec_after_ping _ _ _ _ _ HC D).
  destruct (exec c q1 m) as [[q ps]|] eqn:X; [|exact I].
  destruct (promises_after_ping c q1 m q ps need (ping_idem _ _ _ _ HC) X D) as (P & O & S).
  rewrite O. destruct (outgoing ps <=? _); [|exact I]. auto.
Qed.
