(** Property theorems of the staking pool (C01-C20). Every theorem ranges over all initial pools, all
    histories of calls, rewards and epochs, all callers and all amounts. *)
From Coq Require Import NArith List Bool String.
From Verif Require Import Prelude StakingPoolModel StakingPoolSpec StakingPoolFacts StakingPoolRewards StakingPoolDemo.
Import ListNotations.
Open Scope string_scope.
Open Scope N_scope.

(** C01: the price of a stake share never decreases. *)
Theorem C01_price_never_decreases :
  forall self w0 evs evs', initial self w0 ->
    price_le (w_pool (final self w0 evs)) (w_pool (final self w0 (evs ++ evs'))).
Proof. exact price_never_decreases. Qed.
Print Assumptions C01_price_never_decreases.
(** The price really moves: 1 before, more than 1 after. *)
Example C01_example :
  initial demo_self demo0 /\
  price_le (w_pool demo0) (w_pool (final demo_self demo0 demo_evs)) /\
  ~ price_le (w_pool (final demo_self demo0 demo_evs)) (w_pool demo0).
Proof. exact demo_price. Qed.

(** C02: the price of a share is at least one. *)
Theorem C02_price_at_least_one :
  forall self w0 evs, initial self w0 ->
    total_stake_shares (w_pool (final self w0 evs))
      <= total_staked_balance (w_pool (final self w0 evs)).
Proof. exact price_at_least_one. Qed.
Print Assumptions C02_price_at_least_one.
Example C02_example :
  total_stake_shares (w_pool (final demo_self demo0 demo_evs)) = 1010176235998 /\
  total_staked_balance (w_pool (final demo_self demo0 demo_evs)) = 1101001000001.
Proof. exact demo_totals. Qed.

(** C03: every share is owned: the total is the initial mint plus the shares of all accounts. *)
Theorem C03_shares_conserved :
  forall self w0 evs, initial self w0 ->
    total_stake_shares (w_pool (final self w0 evs)) =
      total_stake_shares (w_pool w0) + all_shares (w_pool (final self w0 evs)).
Proof. exact shares_conserved. Qed.
Print Assumptions C03_shares_conserved.
Example C03_example :
  initial demo_self demo0 /\ all_shares (w_pool (final demo_self demo0 demo_evs)) <> 0.
Proof. exact demo_shares. Qed.

(** C04: the account always holds the staked total, all unstaked balances and what is left of the
    guarantee fund, of which every accepted stake or unstake call uses at most one unit. *)
Theorem C04_solvency :
  forall self w0 evs, initial self w0 ->
    let w := final self w0 evs in
    total_staked_balance (w_pool w) + all_unstaked (w_pool w) + STAKE_SHARE_PRICE_GUARANTEE_FUND
      <= w_total w + stake_calls (history self w0 evs).
Proof. exact solvency. Qed.
Print Assumptions C04_solvency.
Example C04_example :
  initial demo_self demo0 /\ stake_calls (history demo_self demo0 demo_evs) = 3 /\
  all_unstaked (w_pool (final demo_self demo0 demo_evs)) <> 0.
Proof. exact demo_solvency. Qed.

(** C05: what a delegator can see as total balance plus what the pool already paid out to them is
    never less than what they deposited. *)
Theorem C05_delegator_never_loses :
  forall self w0 evs u b, initial self w0 ->
    get_account_total_balance (w_pool (final self w0 evs)) u = Ok b ->
    deposited u (history self w0 evs) <= b + paid u (history self w0 evs).
Proof. exact never_lose. Qed.
Print Assumptions C05_delegator_never_loses.
Example C05_example :
  initial demo_self demo0 /\
  deposited "alice" (history demo_self demo0 demo_evs) = 5000000 /\
  0 < paid "alice" (history demo_self demo0 demo_evs) /\
  exists b, get_account_total_balance (w_pool (final demo_self demo0 demo_evs)) "alice" = Ok b /\ 0 < b.
Proof. exact demo_ledger. Qed.

(** C06: an accepted stake charges at most the requested amount, raises the staked balance by at least
    the charge [X], and unstaking [X] right afterwards is accepted. *)
Theorem C06_staked_amount_can_be_unstaked :
  forall self w0 evs u attached locked results m w1 ps,
    initial self w0 -> stakes m = true ->
    let w := final self w0 evs in
    let e := EvCall u attached locked results m in
    step self w e = (w1, Some ps) ->
    within_limits self w0 evs -> within_limits self w0 (evs ++ [e]) ->
    exists X un0 un1 st0 st1,
      get_account_unstaked_balance (w_pool w) u = Ok un0 /\
      get_account_unstaked_balance (w_pool w1) u = Ok un1 /\
      get_account_staked_balance (w_pool w) u = Ok st0 /\
      get_account_staked_balance (w_pool w1) u = Ok st1 /\
      0 < X /\ un1 + X = un0 + attached /\ st0 + X <= st1 /\
      (forall a, m = Stake a -> X <= a) /\ (m = DepositAndStake -> X <= attached) /\
      (w_epoch w1 + NUM_EPOCHS_TO_UNLOCK < U64_BOUND ->
       forall locked2 results2, locked2 <= w_total w1 ->
       exists w2 ps2, step self w1 (EvCall u 0 locked2 results2 (Unstake X)) = (w2, Some ps2)).
Proof. exact stake_then_unstake. Qed.
Print Assumptions C06_staked_amount_can_be_unstaked.
Example C06_example :
  initial demo_self demo0 /\
  (exists w1 ps, step demo_self (final demo_self demo0 demo_evs) demo_stake = (w1, Some ps)) /\
  within_limits demo_self demo0 demo_evs /\ within_limits demo_self demo0 (demo_evs ++ [demo_stake]).
Proof. exact demo_stake_ok. Qed.

(** C07: with rewards up to date, unstaking [a] is accepted exactly when it is positive and at most the
    reported staked balance. *)
Theorem C07_unstake_accepted_iff :
  forall self w0 evs u locked results a st,
    initial self w0 -> within_limits self w0 evs ->
    let w := final self w0 evs in
    last_epoch_height (w_pool w) = w_epoch w -> u <> self ->
    w_epoch w + NUM_EPOCHS_TO_UNLOCK < U64_BOUND -> locked <= w_total w ->
    get_account_staked_balance (w_pool w) u = Ok st ->
    ((exists w1 ps, step self w (EvCall u 0 locked results (Unstake a)) = (w1, Some ps)) <->
     0 < a /\ a <= st).
Proof. exact unstake_iff. Qed.
Print Assumptions C07_unstake_accepted_iff.
(** The credit is at least the requested amount and exceeds it by less than one share price plus one. *)
Theorem C07_unstake_credit :
  forall self w0 evs u locked results a w1 ps,
    initial self w0 ->
    let w := final self w0 evs in
    step self w (EvCall u 0 locked results (Unstake a)) = (w1, Some ps) ->
    exists credit,
      unstaked (record_of (w_pool w1) u) = unstaked (record_of (w_pool w) u) + credit /\
      a <= credit /\
      (last_epoch_height (w_pool w) = w_epoch w ->
       credit * total_stake_shares (w_pool w)
         < (a + 1) * total_stake_shares (w_pool w) + total_staked_balance (w_pool w)).
Proof. exact unstake_credit. Qed.
Print Assumptions C07_unstake_credit.
Example C07_example :
  initial demo_self demo0 /\ within_limits demo_self demo0 demo_evs /\
  let w := final demo_self demo0 demo_evs in
  last_epoch_height (w_pool w) = w_epoch w /\ w_epoch w + NUM_EPOCHS_TO_UNLOCK < U64_BOUND /\
  (exists st, get_account_staked_balance (w_pool w) "bob" = Ok st /\ 0 < st) /\
  exists w1 ps, step demo_self w (EvCall "bob" 0 0 [] (Unstake 1000)) = (w1, Some ps).
Proof. exact demo_unstake_ok. Qed.

(** C08: [unstake_all] leaves no shares and credits at least the reported staked balance. *)
Theorem C08_unstake_all :
  forall self w0 evs u locked results w1 ps,
    initial self w0 ->
    let w := final self w0 evs in
    step self w (EvCall u 0 locked results UnstakeAll) = (w1, Some ps) ->
    stake_shares (record_of (w_pool w1) u) = 0 /\
    (forall b, get_account_staked_balance (w_pool w1) u = Ok b -> b = 0) /\
    (forall st, get_account_staked_balance (w_pool w) u = Ok st ->
     unstaked (record_of (w_pool w) u) + st <= unstaked (record_of (w_pool w1) u)).
Proof. exact unstake_all_effect. Qed.
Print Assumptions C08_unstake_all.
Example C08_example :
  exists w1 ps, step demo_self (final demo_self demo0 demo_evs) (EvCall "bob" 0 0 [] UnstakeAll)
                = (w1, Some ps) /\ stake_shares (record_of (w_pool w1) "bob") = 0.
Proof. exact demo_unstake_all_ok. Qed.

(** C09: nothing anybody else does lowers [u]'s balances or delays them; only the owner's record can
    change without a call of its own, by receiving fee shares. *)
Theorem C09_non_interference :
  forall self w0 evs e u,
    initial self w0 ->
    let w := final self w0 evs in let w1 := fst (step self w e) in
    (forall attached locked results m, e <> EvCall u attached locked results m) ->
    unstaked (record_of (w_pool w1) u) = unstaked (record_of (w_pool w) u) /\
    unstaked_available_epoch_height (record_of (w_pool w1) u)
      = unstaked_available_epoch_height (record_of (w_pool w) u) /\
    stake_shares (record_of (w_pool w) u) <= stake_shares (record_of (w_pool w1) u) /\
    (u <> owner_id (w_pool w0) -> record_of (w_pool w1) u = record_of (w_pool w) u) /\
    (forall st st1, get_account_staked_balance (w_pool w) u = Ok st ->
       get_account_staked_balance (w_pool w1) u = Ok st1 -> st <= st1).
Proof. exact non_interference. Qed.
Print Assumptions C09_non_interference.
Example C09_example :
  let w := final demo_self demo0 demo_evs in
  (exists ps, snd (step demo_self w demo_stake) = Some ps) /\
  record_of (w_pool w) "bob" <> mkAccount 0 0 0 /\
  (forall attached locked results m, demo_stake <> EvCall "bob" attached locked results m).
Proof. exact demo_others. Qed.

(** C10: an accepted withdrawal comes at least four epochs after every earlier accepted unstake of the
    same account. *)
Theorem C10_withdraw_after_delay :
  forall self w0 evs u h1 en1 h2 en2 h3,
    initial self w0 ->
    history self w0 evs = (h1 ++ en1 :: h2 ++ en2 :: h3)%list ->
    accepted_call u is_unstake_call en1 -> accepted_call u is_withdraw_call en2 ->
    w_epoch (en_before en1) + 4 <= w_epoch (en_before en2).
Proof. exact withdraw_after_delay. Qed.
Print Assumptions C10_withdraw_after_delay.
(** Conversely, four epochs after the last unstake the balance is reported available, and withdrawing
    [a] out of the unlocked balance is accepted exactly when it is positive and at most the unstaked
    balance. *)
Theorem C10_withdraw_accepted_iff :
  forall self w0 evs u locked results a st un,
    initial self w0 -> within_limits self w0 evs -> u <> self ->
    let w := final self w0 evs in
    locked <= w_total w -> a <= w_total w - locked ->
    get_account_staked_balance (w_pool w) u = Ok st ->
    get_account_unstaked_balance (w_pool w) u = Ok un ->
    (forall en, In en (history self w0 evs) -> accepted_call u is_unstake_call en ->
       w_epoch (en_before en) + 4 <= w_epoch w) ->
    is_account_unstaked_balance_available (w_epoch w) (w_pool w) u = Ok true /\
    ((exists w1 ps, step self w (EvCall u 0 locked results (Withdraw a)) = (w1, Some ps)) <->
     0 < a /\ a <= un).
Proof. exact withdraw_iff. Qed.
Print Assumptions C10_withdraw_accepted_iff.
Example C10_example :
  exists h1 en1 h2 en2 h3,
    history demo_self demo0 demo_evs = (h1 ++ en1 :: h2 ++ en2 :: h3)%list /\
    accepted_call "alice" is_unstake_call en1 /\ accepted_call "alice" is_withdraw_call en2.
Proof. exact demo_delay. Qed.

(** C11: every transfer out of the pool is part of an accepted withdrawal made by its receiver, is the
    only transfer of that call, and is taken from the receiver's unstaked balance. *)
Theorem C11_only_withdrawals_pay :
  forall self w0 evs en ps r a,
    initial self w0 -> In en (history self w0 evs) -> en_promises en = Some ps ->
    In (PTransfer r a) ps ->
    accepted_call r is_withdraw_call en /\ 0 < a /\
    unstaked (record_of (w_pool (en_after en)) r) + a =
      unstaked (record_of (w_pool (en_before en)) r) /\
    outgoing ps = a.
Proof. exact transfers_only_withdrawals. Qed.
Print Assumptions C11_only_withdrawals_pay.
Example C11_example :
  exists en ps a, In en (history demo_self demo0 demo_evs) /\ en_promises en = Some ps /\
                  In (PTransfer "alice" a) ps.
Proof. exact demo_transfer. Qed.

(** C12: [ping] in an epoch already accounted for changes nothing. *)
Theorem C12_rewards_once_per_epoch :
  forall self w0 evs v locked results w1 ps,
    initial self w0 ->
    let w := final self w0 evs in
    last_epoch_height (w_pool w) = w_epoch w ->
    step self w (EvCall v 0 locked results Ping) = (w1, Some ps) ->
    w1 = w /\ ps = [].
Proof. exact ping_same_epoch. Qed.
Print Assumptions C12_rewards_once_per_epoch.
(** In a new epoch it adds exactly the unaccounted balance to the staked total; the only shares minted
    go to the owner and are worth at most the fee fraction of the reward. *)
Theorem C12_reward_distribution :
  forall self w0 evs v locked results w1 ps,
    initial self w0 ->
    let w := final self w0 evs in
    let p := w_pool w in let p1 := w_pool w1 in
    last_epoch_height p <> w_epoch w ->
    step self w (EvCall v 0 locked results Ping) = (w1, Some ps) ->
    exists reward minted,
      w_total w = last_total_balance p + reward /\
      last_total_balance p1 = w_total w1 /\ last_epoch_height p1 = w_epoch w /\
      total_staked_balance p1 = total_staked_balance p + reward /\
      total_stake_shares p1 = total_stake_shares p + minted /\
      stake_shares (record_of p1 (owner_id p)) = stake_shares (record_of p (owner_id p)) + minted /\
      unstaked (record_of p1 (owner_id p)) = unstaked (record_of p (owner_id p)) /\
      (forall u, u <> owner_id p -> record_of p1 u = record_of p u) /\
      minted * total_staked_balance p1 * denominator (reward_fee_fraction p)
        <= total_stake_shares p1 * (numerator (reward_fee_fraction p) * reward).
Proof. exact ping_rewards. Qed.
Print Assumptions C12_reward_distribution.
(** The unaccounted balance grows only by income and is cleared only by the first call of an epoch:
    deposits and withdrawals are never taken for rewards. *)
Theorem C12_only_income_is_reward :
  forall self w0 evs e w1 o,
    initial self w0 ->
    let w := final self w0 evs in
    step self w e = (w1, o) ->
    last_total_balance (w_pool w) <= w_total w /\
    match e, o with
    | EvIncome a, _ => pending w1 = pending w + a
    | EvCall _ _ _ _ m, Some _ =>
        if is_plain m || (last_epoch_height (w_pool w) =? w_epoch w)
        then pending w1 = pending w else pending w1 = 0
    | _, _ => pending w1 = pending w
    end.
Proof. exact pending_step. Qed.
Print Assumptions C12_only_income_is_reward.
(** Every other method distributes rewards first: it has the same effect as [ping] followed by it. *)
Theorem C12_rewards_first :
  forall self w0 evs v locked results results' w1 ps u attached m,
    initial self w0 ->
    let w := final self w0 evs in
    step self w (EvCall v 0 locked results Ping) = (w1, Some ps) ->
    m <> OnStakeAction -> (forall a b, m <> Vote a b) ->
    w_total w + attached < U128_BOUND ->
    forall w2,
      (exists ps2, step self w (EvCall u attached locked results' m) = (w2, Some ps2)) <->
      (exists ps2, step self w1 (EvCall u attached locked results' m) = (w2, Some ps2)).
Proof. exact rewards_first. Qed.
Print Assumptions C12_rewards_first.
Example C12_example :
  let w := final demo_self demo0 (demo_evs ++ [EvIncome 70000000000; EvEpoch 1]) in
  last_epoch_height (w_pool w) <> w_epoch w /\
  exists w1 ps, step demo_self w (EvCall "bob" 0 0 [] Ping) = (w1, Some ps) /\
    stake_shares (record_of (w_pool w) "owner") < stake_shares (record_of (w_pool w1) "owner").
Proof. exact demo_ping. Qed.

(** C13: the owner's methods are refused to everybody else, and the owner never changes. *)
Theorem C13_owner_only :
  forall self w0 evs who attached locked results m,
    initial self w0 -> is_owner_call m = true -> who <> owner_id (w_pool w0) ->
    let w := final self w0 evs in
    step self w (EvCall who attached locked results m) = (w, None) /\
    owner_id (w_pool w) = owner_id (w_pool w0).
Proof. exact owner_only. Qed.
Print Assumptions C13_owner_only.
Example C13_example :
  "bob" <> owner_id (w_pool demo0) /\
  exists w1 ps, step demo_self (final demo_self demo0 demo_evs) (EvCall "owner" 0 0 [] PauseStaking)
                = (w1, Some ps).
Proof. exact demo_owner. Qed.

(** C14: a stake action of the pool either stakes exactly the staked total with the current key while
    not paused, or stakes zero and comes from pausing or from a failed stake action. *)
Theorem C14_stake_action_amounts :
  forall self w0 evs en ps amount key callback,
    initial self w0 -> In en (history self w0 evs) -> en_promises en = Some ps ->
    In (PStake amount key callback) ps ->
    let p := w_pool (en_after en) in
    key = stake_public_key p /\
    (callback = true -> amount = total_staked_balance p /\ paused p = false) /\
    (callback = false ->
     amount = 0 /\
     exists who attached locked results m,
       en_event en = EvCall who attached locked results m /\ (m = PauseStaking \/ m = OnStakeAction)).
Proof. exact stake_promises. Qed.
Print Assumptions C14_stake_action_amounts.
(** Unless paused, the stake is renewed after every stake or unstake and every reward distribution. *)
Theorem C14_restakes :
  forall self w who attached locked results m w1 ps,
    step self w (EvCall who attached locked results m) = (w1, Some ps) ->
    is_plain m = false ->
    is_stake_call m = true \/ last_epoch_height (w_pool w) <> w_epoch w ->
    paused (w_pool w1) = false ->
    In (PStake (total_staked_balance (w_pool w1)) (stake_public_key (w_pool w1)) true) ps.
Proof. exact restakes. Qed.
Print Assumptions C14_restakes.
Example C14_example :
  exists en ps amount, In en (history demo_self demo0 demo_evs) /\ en_promises en = Some ps /\
    In (PStake amount "ed25519:key" true) ps /\ 1000000000000 < amount.
Proof. exact demo_restake. Qed.

(** C15: a delegator can always leave. [unstake_all] is accepted whatever the owner did, and once four
    epochs have passed - whatever everybody else did meanwhile - [withdraw_all] pays at least the staked
    and unstaked balance reported before, as soon as the account has that much unlocked. *)
Theorem C15_delegator_can_exit :
  forall self w0 evs u st un locked results,
    initial self w0 -> within_limits self w0 evs -> u <> self ->
    let w := final self w0 evs in
    let e1 := EvCall u 0 locked results UnstakeAll in
    get_account_staked_balance (w_pool w) u = Ok st -> 0 < st ->
    get_account_unstaked_balance (w_pool w) u = Ok un ->
    w_epoch w + 4 < U64_BOUND -> locked <= w_total w ->
    exists w1 ps1,
      step self w e1 = (w1, Some ps1) /\
      (within_limits self w0 (evs ++ [e1]) ->
       exists owed,
        get_account_unstaked_balance (w_pool w1) u = Ok owed /\ un + st <= owed /\
        (forall evs2 locked2 results2,
          silent u evs2 -> within_limits self w0 (evs ++ e1 :: evs2) ->
          let w2 := final self w1 evs2 in
          w_epoch w + 4 <= w_epoch w2 ->
          locked2 <= w_total w2 -> owed <= w_total w2 - locked2 ->
          exists w3 ps3, step self w2 (EvCall u 0 locked2 results2 WithdrawAll) = (w3, Some ps3) /\
            sent_to u ps3 = owed)).
Proof. exact can_exit. Qed.
Print Assumptions C15_delegator_can_exit.
Example C15_example :
  initial demo_self demo0 /\ within_limits demo_self demo0 demo_evs /\
  (exists st, get_account_staked_balance (w_pool (final demo_self demo0 demo_evs)) "bob" = Ok st /\
              0 < st) /\
  within_limits demo_self demo0
    (demo_evs ++ EvCall "bob" 0 0 [] UnstakeAll
       :: [EvCall "owner" 0 0 [] PauseStaking; EvIncome 5; EvEpoch 4]) /\
  silent "bob" [EvCall "owner" 0 0 [] PauseStaking; EvIncome 5; EvEpoch 4].
Proof. exact demo_exit. Qed.

(** C16: the pages of [get_accounts] are the consecutive slices of one list without repetition of all
    accounts with a balance, each as [get_account] reports it. *)
Theorem C16_pagination :
  forall self w0 evs epoch,
    initial self w0 -> within_limits self w0 evs -> STAKE_SHARE_PRICE_GUARANTEE_FUND < w_total w0 ->
    let p := w_pool (final self w0 evs) in
    exists l : list human_account,
      NoDup (map h_account_id l) /\
      N.of_nat (List.length l) = get_number_of_accounts p /\
      (forall u, In u (map h_account_id l) <->
         0 < unstaked (record_of p u) + stake_shares (record_of p u)) /\
      (forall h, In h l -> get_account epoch p (h_account_id h) = Ok h) /\
      (forall from_index limit, from_index + limit < U64_BOUND ->
         get_accounts epoch p from_index limit =
           Ok (firstn (N.to_nat limit) (skipn (N.to_nat from_index) l))).
Proof. exact pagination_above. Qed.
Print Assumptions C16_pagination.
Example C16_example :
  within_limits demo_self demo0 demo_evs /\ STAKE_SHARE_PRICE_GUARANTEE_FUND < w_total demo0 /\
  get_number_of_accounts (w_pool (final demo_self demo0 demo_evs)) = 3.
Proof. exact demo_pages. Qed.

(** C17: the owner's fee is always a fraction between 0 and 1. *)
Theorem C17_fee_is_a_fraction :
  forall self w0 evs, initial self w0 ->
    let f := get_reward_fee_fraction (w_pool (final self w0 evs)) in
    denominator f <> 0 /\ numerator f <= denominator f.
Proof. exact fee_in_unit_interval. Qed.
Print Assumptions C17_fee_is_a_fraction.
Example C17_example :
  (exists w1 ps, step demo_self (final demo_self demo0 demo_evs)
     (EvCall "owner" 0 0 [] (UpdateRewardFeeFraction (mkFraction 1 1))) = (w1, Some ps)) /\
  snd (step demo_self (final demo_self demo0 demo_evs)
     (EvCall "owner" 0 0 [] (UpdateRewardFeeFraction (mkFraction 2 1)))) = None.
Proof. exact demo_fee. Qed.

(** C18: the stake callback can only be reached by the pool itself, changes no state, and unstakes
    everything exactly when the stake action failed while tokens are locked. *)
Theorem C18_stake_action_callback :
  forall self w who attached locked results w1 ps,
    step self w (EvCall who attached locked results OnStakeAction) = (w1, Some ps) ->
    who = self /\ w_pool w1 = w_pool w /\ w_total w1 = w_total w /\
    exists succeeded, results = [succeeded] /\
      ps = if negb succeeded && (0 <? locked)
           then [PStake 0 (stake_public_key (w_pool w)) false] else [].
Proof. exact stake_action_callback. Qed.
Print Assumptions C18_stake_action_callback.
Example C18_example :
  exists w1, step demo_self (final demo_self demo0 demo_evs) (EvCall demo_self 0 7 [false] OnStakeAction)
             = (w1, Some [PStake 0 "ed25519:key" false]).
Proof. exact demo_callback. Qed.

(** C19: the stake made at initialisation is never owed to anybody: the staked balances of all accounts
    together leave at least that much. *)
Theorem C19_initial_stake_stays :
  forall self w0 evs, initial self w0 ->
    let p := w_pool (final self w0 evs) in
    sumN (fun kv => total_staked_balance p * stake_shares (snd kv) / total_stake_shares p) (accounts p)
      + total_stake_shares (w_pool w0) <= total_staked_balance p.
Proof. exact initial_stake_stays. Qed.
Print Assumptions C19_initial_stake_stays.
Example C19_example :
  initial demo_self demo0 /\ total_stake_shares (w_pool demo0) = 1000000000000.
Proof. exact demo_initial_stake. Qed.

(** C20: no account view fails if the pool started with more than the guarantee fund. *)
Theorem C20_views_never_fail :
  forall self w0 evs u epoch,
    initial self w0 -> within_limits self w0 evs -> STAKE_SHARE_PRICE_GUARANTEE_FUND < w_total w0 ->
    let p := w_pool (final self w0 evs) in
    (exists h, get_account epoch p u = Ok h /\ h_account_id h = u) /\
    (exists b, get_account_total_balance p u = Ok b) /\
    (exists b, get_account_staked_balance p u = Ok b) /\
    (exists b, get_account_unstaked_balance p u = Ok b) /\
    (exists b, is_account_unstaked_balance_available epoch p u = Ok b).
Proof. exact views_never_fail_above. Qed.
Print Assumptions C20_views_never_fail.
Example C20_example :
  initial demo_self demo0 /\ within_limits demo_self demo0 demo_evs /\
  STAKE_SHARE_PRICE_GUARANTEE_FUND < w_total demo0.
Proof. exact demo_views. Qed.
(** With exactly the guarantee fund, which [new] accepts, they all fail for ever. *)
Theorem C20_minimal_pool_views_fail :
  forall self w0 evs u epoch,
    initial self w0 -> w_total w0 = STAKE_SHARE_PRICE_GUARANTEE_FUND ->
    let p := w_pool (final self w0 evs) in
    is_ok (get_account epoch p u) = false /\ is_ok (get_account_total_balance p u) = false /\
    is_ok (get_account_staked_balance p u) = false /\ is_ok (get_account_unstaked_balance p u) = false /\
    is_ok (is_account_unstaked_balance_available epoch p u) = false.
Proof. exact minimal_views_fail. Qed.
Print Assumptions C20_minimal_pool_views_fail.
Example C20_minimal_pool_exists :
  exists self w0, initial self w0 /\ w_total w0 = STAKE_SHARE_PRICE_GUARANTEE_FUND.
Proof. exact minimal_pool. Qed.

(** C73: creation is accepted exactly once per account, with a fee that is a fraction, a valid owner, at
    least the guarantee fund (10^12) and nothing staked yet. *)
Theorem C73_creation_accepted_iff :
  forall c exists_ owner key f,
    is_ok (new c exists_ owner key f) = true <->
    exists_ = false /\ denominator f <> 0 /\ numerator f <= denominator f /\
    is_valid_account_id owner = true /\ 1000000000000 <= ctx_balance c /\ ctx_locked c = 0.
Proof. exact creation_accepted_iff. Qed.
Print Assumptions C73_creation_accepted_iff.
Example C73_example :
  let c := mkCtx "pool" "factory" 0 1000000000000 0 7 [] in
  is_ok (new c false "owner.near" "key" (mkFraction 1 10)) = true /\
  is_ok (new c false "Owner" "key" (mkFraction 1 10)) = false /\
  is_ok (new c false "owner.near" "key" (mkFraction 11 10)) = false.
Proof. vm_compute. auto. Qed.

(** C87: the first call of an epoch splits the reward: the owner's fee is the fraction of it, rounded down, and buys
    shares at the price that the rest of the reward leads to; the number of shares is rounded down. *)
Theorem C87_fee_is_exact :
  forall self w0 evs v locked results w1 ps,
    initial self w0 ->
    let w := final self w0 evs in
    let p := w_pool w in let p1 := w_pool w1 in
    let reward := pending w in
    let fee := numerator (reward_fee_fraction p) * reward / denominator (reward_fee_fraction p) in
    last_epoch_height p <> w_epoch w ->
    step self w (EvCall v 0 locked results Ping) = (w1, Some ps) ->
    fee <= reward /\ get_total_staked_balance p1 = get_total_staked_balance p + reward /\
    total_stake_shares p1 =
      total_stake_shares p + total_stake_shares p * fee / (total_staked_balance p + (reward - fee)).
Proof. exact reward_split. Qed.
Print Assumptions C87_fee_is_exact.
(** Everybody's staked balance grows at least by their proportion of the reward without the fee, rounded down. Nobody
    but the owner gets more, up to one yoctoNEAR and a relative error of one share in all shares. *)
Theorem C87_rewards_are_proportional :
  forall self w0 evs v locked results w1 ps,
    initial self w0 ->
    let w := final self w0 evs in
    let p := w_pool w in let p1 := w_pool w1 in
    let reward := pending w in
    let fee := numerator (reward_fee_fraction p) * reward / denominator (reward_fee_fraction p) in
    last_epoch_height p <> w_epoch w ->
    step self w (EvCall v 0 locked results Ping) = (w1, Some ps) ->
    forall u b b1,
      get_account_staked_balance p u = Ok b -> get_account_staked_balance p1 u = Ok b1 ->
      let T := get_total_staked_balance p in
      b + b * (reward - fee) / T <= b1 /\
      (u <> owner_id p ->
         b1 * T * total_stake_shares p1 < (total_stake_shares p1 + 1) * (T + (reward - fee)) * (b + 1)).
Proof. exact reward_proportional. Qed.
Print Assumptions C87_rewards_are_proportional.
Theorem C87_unstaked_earns_nothing :
  forall self w0 evs v locked results w1 ps,
    initial self w0 ->
    let w := final self w0 evs in
    last_epoch_height (w_pool w) <> w_epoch w ->
    step self w (EvCall v 0 locked results Ping) = (w1, Some ps) ->
    forall u b b1,
      get_account_unstaked_balance (w_pool w) u = Ok b -> get_account_unstaked_balance (w_pool w1) u = Ok b1 -> b1 = b.
Proof. exact reward_keeps_unstaked. Qed.
Print Assumptions C87_unstaked_earns_nothing.
Example C87_example :
  let w := final demo_self demo0 (demo_evs ++ [EvIncome 70000000000; EvEpoch 1]) in
  let w1 := fst (step demo_self w (EvCall "bob" 0 0 [] Ping)) in
  snd (step demo_self w (EvCall "bob" 0 0 [] Ping)) <> None /\ last_epoch_height (w_pool w) <> w_epoch w /\
  map (get_account_staked_balance (w_pool w)) ["alice"; "bob"; "owner"] = [Ok 1269729; Ok 1089909820; Ok 9999999999] /\
  map (get_account_staked_balance (w_pool w1)) ["alice"; "bob"; "owner"] = [Ok 1342384; Ok 1152275175; Ok 17572206562] /\
  get_total_staked_balance (w_pool w) = 1101001000001 /\ pending w = 70000000000 /\
  reward_fee_fraction (w_pool w) = mkFraction 1 10.
Proof. vm_compute. repeat split; discriminate. Qed.

(** C74: a pool that was created has the owner, the key and the fee asked for, no accounts, and all its tokens but the
    guarantee fund staked with the key. *)
Theorem C74_pool_created :
  forall c exists_ owner key f p ps, new c exists_ owner key f = Ok (p, ps) ->
  get_owner_id p = owner /\ get_staking_key p = key /\ get_reward_fee_fraction p = f /\ paused p = false /\
  get_number_of_accounts p = 0 /\ last_epoch_height p = ctx_epoch c /\
  get_total_staked_balance p + 1000000000000 = ctx_balance c /\
  ps = [PStake (get_total_staked_balance p) key true].
Proof. exact created_as_asked. Qed.
Print Assumptions C74_pool_created.
Example C74_pool_applies :
  match new (mkCtx "pool" "factory" 0 1000000000005 0 7 []) false "owner.near" "key" (mkFraction 1 10) with
  | Ok (p, ps) => get_total_staked_balance p = 5 /\ ps = [PStake 5 "key" true]
  | _ => False
  end.
Proof. vm_compute. auto. Qed.
