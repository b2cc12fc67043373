(** C123: a lower fee is never worse for the delegators. *)
From Coq Require Import NArith List Bool String.
From Verif Require Import Prelude StakingPoolModel StakingPoolSpec StakingPoolDemo StakingPoolFeeLater StakingPoolFee.
Import ListNotations.
Open Scope string_scope.
Open Scope N_scope.

(** C123. After any history the owner sets one fee or another, a higher or equal one. In the same epoch anything may follow
    but setting the fee again. Then the same tokens arrive and the same epochs pass, and somebody pings the pool. The total
    stake is the same with either fee. Nobody but the owner has more staked with the higher fee, and the owner has no less.
    This is exact, whatever the rounding of the fee, the shares and the balances. *)
Theorem C123_lower_fee_is_never_worse :
  forall self w0 evs o locked results f g w1 ps1 w2 ps2 ds es v l r v1 qs1 v2 qs2,
  initial self w0 ->
  let w := final self w0 evs in
  step self w (EvCall o 0 locked results (UpdateRewardFeeFraction f)) = (w1, Some ps1) ->
  step self w (EvCall o 0 locked results (UpdateRewardFeeFraction g)) = (w2, Some ps2) ->
  fraction_le f g -> Forall same_epoch ds -> Forall keeps_fee ds -> Forall no_call es ->
  step self (final self w1 (ds ++ es)) (EvCall v 0 l r Ping) = (v1, Some qs1) ->
  step self (final self w2 (ds ++ es)) (EvCall v 0 l r Ping) = (v2, Some qs2) ->
  get_total_staked_balance (w_pool v1) = get_total_staked_balance (w_pool v2) /\
  forall u b1 b2,
    get_account_staked_balance (w_pool v1) u = Ok b1 -> get_account_staked_balance (w_pool v2) u = Ok b2 ->
    (u <> o -> b2 <= b1) /\ (u = o -> b1 <= b2).
Proof. exact lower_fee. Qed.
Print Assumptions C123_lower_fee_is_never_worse.

Example C123_applies :
  let w := final demo_self demo0 demo_evs in
  let ds := [EvCall "alice" 500000000 0 [] DepositAndStake; EvCall "bob" 0 0 [] (Unstake 1000000)] in
  let es := [EvIncome 70000000000; EvEpoch 1] in
  let set f := step demo_self w (EvCall "owner" 0 0 [] (UpdateRewardFeeFraction f)) in
  let after f := step demo_self (final demo_self (fst (set f)) (ds ++ es)) (EvCall "bob" 0 0 [] Ping) in
  let staked f := map (get_account_staked_balance (w_pool (fst (after f)))) ["alice"; "bob"; "owner"] in
  let low := mkFraction 1 10 in let high := mkFraction 1 2 in
  initial demo_self demo0 /\ numerator low * denominator high <= numerator high * denominator low /\ Forall same_epoch ds /\ Forall keeps_fee ds /\
  Forall no_call es /\
  snd (set low) = Some [] /\ snd (set high) = Some [] /\
  snd (after low) = Some [PStake 1171500000001 "ed25519:key" true] /\ snd (after high) = snd (after low) /\
  staked low = [Ok 529939718; Ok 1151189727; Ok 17571947343] /\
  staked high = [Ok 517197500; Ok 1123509768; Ok 45317748523].
Proof.
  cbv zeta. split; [exact demo_init|]. split; [vm_compute; discriminate|]. do 3 (split; [repeat constructor|]).
  vm_compute. auto 10.
Qed.

(** C123. After any history [x] tokens arrive, or [y], no fewer; then the same happens but for calls, and somebody pings the
    pool. The total stake is no less with [y]. Nobody but the owner has less with [y], up to the price of a share and one
    yoctoNEAR. *)
Theorem C123_more_rewards_are_never_worse :
  forall self w0 evs x y es v l r v1 qs1 v2 qs2,
  initial self w0 ->
  let w := final self w0 evs in
  x <= y -> Forall no_call es ->
  step self (final self w (EvIncome x :: es)) (EvCall v 0 l r Ping) = (v1, Some qs1) ->
  step self (final self w (EvIncome y :: es)) (EvCall v 0 l r Ping) = (v2, Some qs2) ->
  get_total_staked_balance (w_pool v1) <= get_total_staked_balance (w_pool v2) /\
  forall u b1 b2, u <> owner_id (w_pool w) ->
    get_account_staked_balance (w_pool v1) u = Ok b1 -> get_account_staked_balance (w_pool v2) u = Ok b2 ->
    b1 <= b2 + get_total_staked_balance (w_pool v1) / total_stake_shares (w_pool v1) + 1.
Proof. exact more_rewards. Qed.
Print Assumptions C123_more_rewards_are_never_worse.

(** The price of a share is needed: in a tiny pool whose owner takes everything, a fourth yoctoNEAR of reward buys the
    owner a share and costs alice two yoctoNEAR. *)
Example C123_rewards_apply :
  let w0 := mkWorld (mkPool "owner" "ed25519:key" 10 1000000000010 10 10 (mkFraction 0 1) [] false) 1000000000010 10 in
  let evs := [EvCall "alice" 10 0 [] DepositAndStake; EvIncome 43; EvEpoch 1;
              EvCall "owner" 0 0 [] (UpdateRewardFeeFraction (mkFraction 1 1))] in
  let after x := step demo_self (final demo_self (final demo_self w0 evs) [EvIncome x; EvEpoch 1])
                   (EvCall "bob" 0 0 [] Ping) in
  initial demo_self w0 /\ snd (after 3) = Some [PStake 66 "ed25519:key" true] /\
  snd (after 4) = Some [PStake 67 "ed25519:key" true] /\
  get_account_staked_balance (w_pool (fst (after 3))) "alice" = Ok 33 /\
  get_account_staked_balance (w_pool (fst (after 4))) "alice" = Ok 31 /\
  get_account_staked_balance (w_pool (fst (after 400))) "alice" = Ok 31.
Proof.
  cbv zeta. split.
  - exists (mkCtx demo_self "factory" 0 1000000000010 0 10 []), "owner", "ed25519:key", (mkFraction 0 1),
      [PStake 10 "ed25519:key" true]. repeat split; vm_compute; reflexivity.
  - vm_compute. auto 10.
Qed.
