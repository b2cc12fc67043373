(** A concrete history of a staking pool, used to show that the hypotheses of the property theorems
    are met by real executions. *)
From Coq Require Import NArith List Bool String.
From Verif Require Import Prelude StakingPoolModel StakingPoolSpec StakingPoolFacts.
Import ListNotations.
Open Scope string_scope.
Open Scope N_scope.

Definition demo_self : account_id := "pool".
Definition demo_ctx : ctx := mkCtx demo_self "factory" 0 2000000000000 0 10 [].
Definition demo_pool : pool :=
  mkPool "owner" "ed25519:key" 10 2000000000000 1000000000000 1000000000000 (mkFraction 1 10) [] false.
Definition demo0 : world := mkWorld demo_pool 2000000000000 10.
Definition demo_evs : list event :=
  [EvCall "alice" 5000000 0 [] Deposit;
   EvCall "alice" 0 0 [] (Stake 3000001);
   EvCall "bob" 1000000000 0 [] DepositAndStake;
   EvIncome 100000000000;
   EvEpoch 1;
   EvCall "bob" 0 0 [] Ping;
   EvCall "alice" 0 0 [] (Unstake 2000000);
   EvCall "alice" 0 0 [] (Withdraw 1);
   EvEpoch 4;
   EvCall "alice" 0 0 [] (Withdraw 1999999)].
Definition demo_stake : event := EvCall "alice" 700 0 [] DepositAndStake.

Lemma demo_init : initial demo_self demo0.
Proof.
  exists demo_ctx, "owner", "ed25519:key", (mkFraction 1 10),
    [PStake 1000000000000 "ed25519:key" true].
  repeat split; vm_compute; reflexivity.
Qed.

Lemma demo_within : within_limits demo_self demo0 demo_evs.
Proof. split; vm_compute; congruence. Qed.

Lemma demo_price :
  initial demo_self demo0 /\
  price_le (w_pool demo0) (w_pool (final demo_self demo0 demo_evs)) /\
  ~ price_le (w_pool (final demo_self demo0 demo_evs)) (w_pool demo0).
Proof.
  split; [exact demo_init|]. unfold price_le. split; vm_compute; congruence.
Qed.

Lemma demo_totals :
  total_stake_shares (w_pool (final demo_self demo0 demo_evs)) = 1010176235998 /\
  total_staked_balance (w_pool (final demo_self demo0 demo_evs)) = 1101001000001.
Proof. split; vm_compute; reflexivity. Qed.

Lemma demo_shares :
  initial demo_self demo0 /\ all_shares (w_pool (final demo_self demo0 demo_evs)) <> 0.
Proof. split; [exact demo_init|]. vm_compute. congruence. Qed.

Lemma demo_solvency :
  initial demo_self demo0 /\ stake_calls (history demo_self demo0 demo_evs) = 3 /\
  all_unstaked (w_pool (final demo_self demo0 demo_evs)) <> 0.
Proof. split; [exact demo_init|]. split; vm_compute; congruence. Qed.

Lemma demo_ledger :
  initial demo_self demo0 /\
  deposited "alice" (history demo_self demo0 demo_evs) = 5000000 /\
  0 < paid "alice" (history demo_self demo0 demo_evs) /\
  exists b, get_account_total_balance (w_pool (final demo_self demo0 demo_evs)) "alice" = Ok b /\ 0 < b.
Proof.
  split; [exact demo_init|]. split; [vm_compute; reflexivity|]. split; [vm_compute; reflexivity|].
  eexists. split; vm_compute; reflexivity.
Qed.

Ltac run_step := eexists; eexists; vm_compute; reflexivity.

Lemma demo_stake_ok :
  initial demo_self demo0 /\
  (exists w1 ps, step demo_self (final demo_self demo0 demo_evs) demo_stake = (w1, Some ps)) /\
  within_limits demo_self demo0 demo_evs /\ within_limits demo_self demo0 (demo_evs ++ [demo_stake]).
Proof.
  split; [exact demo_init|]. split; [run_step|]. split; [exact demo_within|].
  split; vm_compute; congruence.
Qed.

Lemma demo_unstake_ok :
  initial demo_self demo0 /\ within_limits demo_self demo0 demo_evs /\
  let w := final demo_self demo0 demo_evs in
  last_epoch_height (w_pool w) = w_epoch w /\ w_epoch w + NUM_EPOCHS_TO_UNLOCK < U64_BOUND /\
  (exists st, get_account_staked_balance (w_pool w) "bob" = Ok st /\ 0 < st) /\
  exists w1 ps, step demo_self w (EvCall "bob" 0 0 [] (Unstake 1000)) = (w1, Some ps).
Proof.
  split; [exact demo_init|]. split; [exact demo_within|].
  split; [vm_compute; reflexivity|]. split; [vm_compute; reflexivity|].
  split; [eexists; split; vm_compute; reflexivity|]. run_step.
Qed.

Lemma demo_unstake_all_ok :
  exists w1 ps, step demo_self (final demo_self demo0 demo_evs) (EvCall "bob" 0 0 [] UnstakeAll)
                = (w1, Some ps) /\ stake_shares (record_of (w_pool w1) "bob") = 0.
Proof. eexists. eexists. split; vm_compute; reflexivity. Qed.

Lemma demo_others :
  let w := final demo_self demo0 demo_evs in
  (exists ps, snd (step demo_self w demo_stake) = Some ps) /\
  record_of (w_pool w) "bob" <> mkAccount 0 0 0 /\
  (forall attached locked results m, demo_stake <> EvCall "bob" attached locked results m).
Proof.
  split; [eexists; vm_compute; reflexivity|]. split; [vm_compute; congruence|].
  unfold demo_stake. congruence.
Qed.

Lemma demo_delay :
  exists h1 en1 h2 en2 h3,
    history demo_self demo0 demo_evs = (h1 ++ en1 :: h2 ++ en2 :: h3)%list /\
    accepted_call "alice" is_unstake_call en1 /\ accepted_call "alice" is_withdraw_call en2.
Proof.
  pose (h := history demo_self demo0 demo_evs).
  exists (firstn 6 h), (nth 6 h (mkEntry demo0 (EvEpoch 0) None demo0)), (firstn 2 (skipn 7 h)),
    (nth 9 h (mkEntry demo0 (EvEpoch 0) None demo0)), [].
  split; [vm_compute; reflexivity|]. split.
  - do 5 eexists. split; [vm_compute; reflexivity|]. split; vm_compute; reflexivity.
  - do 5 eexists. split; [vm_compute; reflexivity|]. split; vm_compute; reflexivity.
Qed.

Lemma demo_transfer :
  exists en ps a, In en (history demo_self demo0 demo_evs) /\ en_promises en = Some ps /\
                  In (PTransfer "alice" a) ps.
Proof.
  pose (en := nth 9 (history demo_self demo0 demo_evs) (mkEntry demo0 (EvEpoch 0) None demo0)).
  exists en. eexists. exists 1999999. split.
  - apply nth_In. vm_compute. repeat constructor.
  - split; [vm_compute; reflexivity|]. now left.
Qed.

Lemma demo_ping :
  let w := final demo_self demo0 (demo_evs ++ [EvIncome 70000000000; EvEpoch 1]) in
  last_epoch_height (w_pool w) <> w_epoch w /\
  exists w1 ps, step demo_self w (EvCall "bob" 0 0 [] Ping) = (w1, Some ps) /\
    stake_shares (record_of (w_pool w) "owner") < stake_shares (record_of (w_pool w1) "owner").
Proof.
  split; [vm_compute; congruence|]. eexists. eexists. split; vm_compute; reflexivity.
Qed.

Lemma demo_owner :
  "bob" <> owner_id (w_pool demo0) /\
  exists w1 ps, step demo_self (final demo_self demo0 demo_evs) (EvCall "owner" 0 0 [] PauseStaking)
                = (w1, Some ps).
Proof. split; [vm_compute; congruence|run_step]. Qed.

Lemma demo_restake :
  exists en ps amount, In en (history demo_self demo0 demo_evs) /\ en_promises en = Some ps /\
    In (PStake amount "ed25519:key" true) ps /\ 1000000000000 < amount.
Proof.
  pose (en := nth 6 (history demo_self demo0 demo_evs) (mkEntry demo0 (EvEpoch 0) None demo0)).
  exists en. eexists. exists 1101001000001. split.
  - apply nth_In. vm_compute. repeat constructor.
  - split; [vm_compute; reflexivity|]. split; [now left|]. vm_compute. reflexivity.
Qed.

Lemma demo_exit :
  initial demo_self demo0 /\ within_limits demo_self demo0 demo_evs /\
  (exists st, get_account_staked_balance (w_pool (final demo_self demo0 demo_evs)) "bob" = Ok st /\
              0 < st) /\
  within_limits demo_self demo0
    (demo_evs ++ EvCall "bob" 0 0 [] UnstakeAll
       :: [EvCall "owner" 0 0 [] PauseStaking; EvIncome 5; EvEpoch 4]) /\
  silent "bob" [EvCall "owner" 0 0 [] PauseStaking; EvIncome 5; EvEpoch 4].
Proof.
  split; [exact demo_init|]. split; [exact demo_within|].
  split; [eexists; split; vm_compute; reflexivity|].
  split; [split; vm_compute; congruence|].
  intros a l r m IN. cbn in IN. intuition congruence.
Qed.

Lemma demo_pages :
  within_limits demo_self demo0 demo_evs /\ STAKE_SHARE_PRICE_GUARANTEE_FUND < w_total demo0 /\
  get_number_of_accounts (w_pool (final demo_self demo0 demo_evs)) = 3.
Proof. split; [exact demo_within|]. split; vm_compute; reflexivity. Qed.

Lemma demo_fee :
  (exists w1 ps, step demo_self (final demo_self demo0 demo_evs)
     (EvCall "owner" 0 0 [] (UpdateRewardFeeFraction (mkFraction 1 1))) = (w1, Some ps)) /\
  snd (step demo_self (final demo_self demo0 demo_evs)
     (EvCall "owner" 0 0 [] (UpdateRewardFeeFraction (mkFraction 2 1)))) = None.
Proof. split; [run_step|]. vm_compute. reflexivity. Qed.

Lemma demo_callback :
  exists w1, step demo_self (final demo_self demo0 demo_evs) (EvCall demo_self 0 7 [false] OnStakeAction)
             = (w1, Some [PStake 0 "ed25519:key" false]).
Proof. eexists. vm_compute. reflexivity. Qed.

Lemma demo_initial_stake :
  initial demo_self demo0 /\ total_stake_shares (w_pool demo0) = 1000000000000.
Proof. split; [exact demo_init|reflexivity]. Qed.

Lemma demo_views :
  initial demo_self demo0 /\ within_limits demo_self demo0 demo_evs /\
  STAKE_SHARE_PRICE_GUARANTEE_FUND < w_total demo0.
Proof. split; [exact demo_init|]. split; [exact demo_within|reflexivity]. Qed.

Lemma minimal_pool :
  exists self w0, initial self w0 /\ w_total w0 = STAKE_SHARE_PRICE_GUARANTEE_FUND.
Proof.
  pose (c := mkCtx "pool" "factory" 0 STAKE_SHARE_PRICE_GUARANTEE_FUND 0 10 []).
  pose (p := mkPool "owner" "ed25519:key" 10 STAKE_SHARE_PRICE_GUARANTEE_FUND 0 0 (mkFraction 1 10)
               [] false).
  exists "pool", (mkWorld p STAKE_SHARE_PRICE_GUARANTEE_FUND 10). split; [|reflexivity].
  exists c, "owner", "ed25519:key", (mkFraction 1 10), [PStake 0 "ed25519:key" true].
  repeat split; vm_compute; reflexivity.
Qed.
