(** Proofs about gas. *)
From Coq Require Import NArith List Bool String Lia.
From Verif Require Import Prelude PreludeFacts GasModel.
From Verif Require StakingPoolModel PoolFactoryModel LockupFactoryModel LockupModel LockupFacts LockupEffects LockupPoolSpec.
Import ListNotations.
Open Scope N_scope.

Module SM := StakingPoolModel.
Module LM := LockupModel.
Module PF := PoolFactoryModel.
Module LF := LockupFactoryModel.

Lemma restake_gas p : total pool_promise_gas (SM.internal_restake p) <= ON_STAKE_ACTION_GAS.
Proof. unfold SM.internal_restake. destruct (SM.paused p); cbn; unfold ON_STAKE_ACTION_GAS; lia. Qed.
Lemma restake_if_gas b p : total pool_promise_gas (SM.restake_if b p) <= ON_STAKE_ACTION_GAS.
Proof. destruct b; [apply restake_gas|cbn; unfold ON_STAKE_ACTION_GAS; lia]. Qed.
Lemma withdraw_gas c p a p' ps : SM.internal_withdraw c p a = Ok (p', ps) -> exists t x, ps = [SM.PTransfer t x].
Proof. unfold SM.internal_withdraw. intros H. inv_res. eauto. Qed.

Lemma pool_gas c p m p' ps : SM.exec c p m = Ok (p', ps) ->
  match m with
  | SM.Vote _ _ => total pool_promise_gas ps = VOTE_GAS
  | _ => total pool_promise_gas ps <= ON_STAKE_ACTION_GAS
  end.
Proof.
  unfold SM.exec. intros H. apply bind_ok in H. destruct H as (u1 & _ & H). apply bind_ok in H. destruct H as (u2 & _ & H).
  destruct m; cbv beta in H;
    unfold SM.ping, SM.deposit, SM.deposit_and_stake, SM.withdraw_all, SM.withdraw, SM.stake_all, SM.stake,
      SM.unstake_all, SM.unstake, SM.on_stake_action, SM.update_staking_key, SM.update_reward_fee_fraction, SM.vote,
      SM.pause_staking, SM.resume_staking in H;
    repeat (apply bind_ok in H; let x := fresh "x" in let E := fresh "E" in destruct H as (x & E & H);
            try (match type of x with prod _ _ => destruct x end); cbv beta iota in H);
    try (injection H as <- <-);
    try apply restake_gas; try apply restake_if_gas; try (cbn; unfold ON_STAKE_ACTION_GAS, VOTE_GAS; lia).
  - match goal with E : SM.internal_withdraw _ _ _ = _ |- _ => apply withdraw_gas in E; destruct E as (? & ? & ->) end.
    cbn [app total fold_right pool_promise_gas]. apply restake_if_gas.
  - match goal with E : SM.internal_withdraw _ _ _ = _ |- _ => apply withdraw_gas in E; destruct E as (? & ? & ->) end.
    cbn [app total fold_right pool_promise_gas]. apply restake_if_gas.
  - destruct (SM.ctx_results c) as [|b [|]]; try discriminate. injection H as <- <-.
    destruct (negb b && _); cbn; unfold ON_STAKE_ACTION_GAS; lia.
Qed.

Lemma pool_new_gas c e o k f p ps : SM.new c e o k f = Ok (p, ps) -> total pool_promise_gas ps <= ON_STAKE_ACTION_GAS.
Proof. unfold SM.new. intros H. inv_res. apply restake_gas. Qed.

Lemma lockup_pool_gas c s m s' p q op : LM.exec c s m = Ok (s', Some p) -> LM.p_remote p = LM.RPool q op ->
  match LockupPoolSpec.pool_call op with Some _ => 50000000000000 | None => 25000000000000 end <= LM.p_gas p.
Proof.
  intros H Hp.
  LockupFacts.open_exec H. destruct m;
  repeat (first [apply bind_ok in H; let x := fresh "x" in let E := fresh "E" in destruct H as (x & E & H); cbv beta iota in H
                |match type of H with (if ?b then _ else _) = _ => destruct b | (match ?x with _ => _ end) = _ => destruct x end]);
  try discriminate; try (injection H as _ <-); cbn in Hp; try discriminate;
  try (injection Hp as _ <-); cbn; try (vm_compute; discriminate).
Qed.

Lemma lockup_call_covers_pool c s m s' p q op : LM.exec c s m = Ok (s', Some p) -> LM.p_remote p = LM.RPool q op ->
  25000000000000 <= LM.p_gas p /\
  forall pm c2 pool pool' ps, LockupPoolSpec.pool_call op = Some pm -> SM.exec c2 pool pm = Ok (pool', ps) ->
    25000000000000 + total pool_promise_gas ps <= LM.p_gas p.
Proof.
  intros H Hp. assert (G := lockup_pool_gas c s m s' p q op H Hp). split.
  { destruct (LockupPoolSpec.pool_call op); lia. }
  intros pm c2 pool pool' ps Hm E. rewrite Hm in G. apply pool_gas in E. unfold ON_STAKE_ACTION_GAS in E.
  destruct op; cbn in Hm; try discriminate; injection Hm as <-; lia.
Qed.

Lemma lockup_asks_gas c s m s' p : LM.exec c s m = Ok (s', Some p) ->
  match LM.p_remote p with LM.RIsWhitelisted _ _ | LM.RGetResult _ => 25000000000000 <= LM.p_gas p | _ => True end.
Proof.
  intros H. LockupFacts.open_exec H. destruct m;
  repeat (first [apply bind_ok in H; let x := fresh "x" in let E := fresh "E" in destruct H as (x & E & H); cbv beta iota in H
                |match type of H with (if ?b then _ else _) = _ => destruct b | (match ?x with _ => _ end) = _ => destruct x end]);
  try discriminate; try (injection H as _ <-); cbn; try exact I; try (vm_compute; discriminate).
Qed.

Lemma pool_factory_gas c s m s' ps : PF.exec c s m = Ok (s', ps) ->
  match m with
  | PF.CreateStakingPool _ _ _ _ => exists a x args cb, ps = [PF.PCreate a x args cb]
  | PF.OnStakingPoolCreate _ _ _ => 25000000000000 + total pool_factory_promise_gas ps <= POOL_CALLBACK
  end.
Proof.
  unfold PF.exec. destruct m.
  - unfold PF.create_staking_pool. intros H.
    repeat (apply bind_ok in H; let x := fresh "x" in let E := fresh "E" in destruct H as (x & E & H); cbv beta in H).
    injection H as <- <-. eauto.
  - unfold PF.on_staking_pool_create. intros H.
    repeat (apply bind_ok in H; let x := fresh "x" in let E := fresh "E" in destruct H as (x & E & H); cbv beta in H).
    destruct x1; injection H as <- <-; vm_compute; discriminate.
Qed.

Lemma lockup_factory_gas c s m s' ps : LF.exec c s m = Ok (s', ps) ->
  match m with
  | LF.Create _ _ _ _ _ _ => exists a x args cb, ps = [LF.PCreate a x args cb]
  | LF.OnLockupCreate _ _ _ => 25000000000000 + total lockup_factory_promise_gas ps <= LOCKUP_CALLBACK
  end.
Proof.
  unfold LF.exec. destruct m.
  - unfold LF.create. intros H.
    repeat (apply bind_ok in H; let x := fresh "x" in let E := fresh "E" in destruct H as (x & E & H); cbv beta in H).
    injection H as <- <-. eauto.
  - unfold LF.on_lockup_create. intros H.
    repeat (apply bind_ok in H; let x := fresh "x" in let E := fresh "E" in destruct H as (x & E & H); cbv beta in H).
    injection H as <- <-. destruct x1; vm_compute; discriminate.
Qed.

Lemma pool_factory_chain c s id o k f s' ps : PF.exec c s (PF.CreateStakingPool id o k f) = Ok (s', ps) ->
  25000000000000 + total pool_factory_promise_gas ps <= 125000000000000.
Proof. intros H. apply pool_factory_gas in H. destruct H as (? & ? & ? & ? & ->). vm_compute. discriminate. Qed.
Lemma lockup_factory_chain c s o d t v r w s' ps : LF.exec c s (LF.Create o d t v r w) = Ok (s', ps) ->
  25000000000000 + total lockup_factory_promise_gas ps <= 75000000000000.
Proof. intros H. apply lockup_factory_gas in H. destruct H as (? & ? & ? & ? & ->). vm_compute. discriminate. Qed.

Lemma pool_within c p m p' ps : SM.exec c p m = Ok (p', ps) ->
  25000000000000 + total pool_promise_gas ps <= match m with SM.Vote _ _ => 125000000000000 | _ => 45000000000000 end /\
  25000000000000 + total pool_promise_gas ps <= 300000000000000.
Proof. intros H. apply pool_gas in H. unfold VOTE_GAS, ON_STAKE_ACTION_GAS in H. destruct m; lia. Qed.

Lemma pool_factory_within :
  (forall c s id o k f s' ps, PF.exec c s (PF.CreateStakingPool id o k f) = Ok (s', ps) ->
     25000000000000 + total pool_factory_promise_gas ps <= 125000000000000) /\
  (forall c e o k f p ps, SM.new c e o k f = Ok (p, ps) -> 25000000000000 + total pool_promise_gas ps <= STAKING_POOL_NEW) /\
  (forall c s a d u s' ps, PF.exec c s (PF.OnStakingPoolCreate a d u) = Ok (s', ps) ->
     25000000000000 + total pool_factory_promise_gas ps <= POOL_CALLBACK) /\
  25000000000000 <= WHITELIST_STAKING_POOL /\ 25000000000000 <= VOTE_GAS.
Proof.
  split; [exact pool_factory_chain|]. split.
  { intros c e o k f p ps H. apply pool_new_gas in H. unfold ON_STAKE_ACTION_GAS, STAKING_POOL_NEW, FACTORY_BASE in *. lia. }
  split; [intros c s a d u s' ps H; exact (pool_factory_gas _ _ _ _ _ H)|]. split; vm_compute; discriminate.
Qed.

Lemma lockup_factory_within :
  (forall c s o d t v r w s' ps, LF.exec c s (LF.Create o d t v r w) = Ok (s', ps) ->
     25000000000000 + total lockup_factory_promise_gas ps <= 75000000000000) /\
  25000000000000 <= LOCKUP_NEW /\
  (forall c s a d u s' ps, LF.exec c s (LF.OnLockupCreate a d u) = Ok (s', ps) ->
     25000000000000 + total lockup_factory_promise_gas ps <= LOCKUP_CALLBACK).
Proof.
  split; [exact lockup_factory_chain|]. split; [vm_compute; discriminate|].
  intros c s a d u s' ps H. exact (lockup_factory_gas _ _ _ _ _ H).
Qed.
