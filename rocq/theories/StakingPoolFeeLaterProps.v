(** C124: a change of the fee is never retroactive. *)
From Coq Require Import NArith List Bool String.
From Verif Require Import Prelude StakingPoolModel StakingPoolSpec StakingPoolDemo StakingPoolFeeLater.
Import ListNotations.
Open Scope string_scope.
Open Scope N_scope.

(** C124. In any state an accepted change of the fee and an accepted ping, by whomever, have the same promises. Whatever
    happens afterwards in the same epoch, every call is accepted or refused alike, with the same promises, every view but
    that of the fee answers the same, and the account has the same tokens. So rewards that a ping would have distributed
    are distributed at the old fee, and the new fee affects nobody before the next epoch. *)
Theorem C124_fee_is_never_retroactive :
  forall self w o locked results f w1 ps1 v l r w2 ps2 es,
  step self w (EvCall o 0 locked results (UpdateRewardFeeFraction f)) = (w1, Some ps1) ->
  step self w (EvCall v 0 l r Ping) = (w2, Some ps2) ->
  Forall same_epoch es ->
  ps1 = ps2 /\ map en_promises (history self w1 es) = map en_promises (history self w2 es) /\
  same_but_fee (w_pool (final self w1 es)) (w_pool (final self w2 es)) /\
  w_total (final self w1 es) = w_total (final self w2 es).
Proof. exact fee_is_set_later. Qed.
Print Assumptions C124_fee_is_never_retroactive.

(** The owner asks for everything when a reward is pending. *)
Example C124_applies :
  let w := final demo_self demo0 (demo_evs ++ [EvIncome 70000000000; EvEpoch 1]) in
  let es := [EvCall "alice" 500000000 0 [] DepositAndStake; EvCall "bob" 0 0 [] (Unstake 1000000)] in
  let s1 := step demo_self w (EvCall "owner" 0 0 [] (UpdateRewardFeeFraction (mkFraction 1 1))) in
  let s2 := step demo_self w (EvCall "bob" 0 7 [] Ping) in
  let staked s := map (get_account_staked_balance (w_pool (final demo_self (fst s) es))) ["alice"; "bob"; "owner"] in
  Forall same_epoch es /\ pending w = 70000000000 /\
  snd s1 = Some [PStake 1171001000001 "ed25519:key" true] /\ snd s2 = snd s1 /\
  map en_promises (history demo_self (fst s1) es) =
    [Some [PStake 1171501000001 "ed25519:key" true]; Some [PStake 1171500000001 "ed25519:key" true]] /\
  staked s1 = [Ok 501342384; Ok 1151275175; Ok 17572206562] /\ staked s2 = staked s1 /\
  get_reward_fee_fraction (w_pool (fst s1)) = mkFraction 1 1 /\
  get_reward_fee_fraction (w_pool (fst s2)) = mkFraction 1 10.
Proof. cbv zeta. split; [repeat constructor|]. vm_compute. auto 10. Qed.
