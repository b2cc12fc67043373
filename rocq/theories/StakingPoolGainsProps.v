(** C118: nobody gains more from a staking pool than the rewards that reached it. *)
From Coq Require Import NArith List Bool String.
From Verif Require Import Prelude StakingPoolModel StakingPoolSpec StakingPoolFacts StakingPoolDemo
  StakingPoolGainsSpec StakingPoolGains.
Import ListNotations.
Open Scope string_scope.
Open Scope N_scope.

(** Between any two moments [w] and [w'] an account's total balance, with what was paid out to it, exceeds its former
    total balance and its deposits by at most the tokens that reached the pool from outside and, for the roundings, one
    yoctoNEAR for every accepted stake or unstake call of anybody. *)
Theorem C118_no_gain_without_rewards :
  forall self w0 evs evs' u b b', initial self w0 ->
  let w := final self w0 evs in let w' := final self w evs' in let h := history self w evs' in
  get_account_total_balance (w_pool w) u = Ok b -> get_account_total_balance (w_pool w') u = Ok b' ->
  b' + paid u h <= b + deposited u h + (pending w + income evs') + stake_calls h.
Proof. exact account_gain. Qed.
Print Assumptions C118_no_gain_without_rewards.

(** Many accounts together gain no more than one, up to one yoctoNEAR for every further account. *)
Theorem C118_groups_gain_no_more :
  forall self w0 evs evs' us b b', initial self w0 -> NoDup us -> us <> [] ->
  let w := final self w0 evs in let w' := final self w evs' in let h := history self w evs' in
  (forall u, In u us -> get_account_total_balance (w_pool w) u = Ok (b u)) ->
  (forall u, In u us -> get_account_total_balance (w_pool w') u = Ok (b' u)) ->
  sumN b' us + sumN (fun u => paid u h) us + 1 <=
    sumN b us + sumN (fun u => deposited u h) us + (pending w + income evs') + stake_calls h + N.of_nat (List.length us).
Proof. exact group_gain. Qed.
Print Assumptions C118_groups_gain_no_more.

(** Within one epoch, whatever else reaches the pool, accounts gain nothing but roundings once the rewards have been
    distributed; and neither do, before that, accounts with nothing staked (the owner apart): who joins in an epoch has
    no part in the rewards of the epochs before. *)
Theorem C118_newcomers_get_no_old_rewards :
  forall self w0 evs evs' us b b', initial self w0 -> NoDup us -> us <> [] ->
  let w := final self w0 evs in let w' := final self w evs' in let h := history self w evs' in
  (forall n, ~ In (EvEpoch n) evs') ->
  last_epoch_height (w_pool w) = w_epoch w \/
    (~ In (get_owner_id (w_pool w)) us /\ forall u, In u us -> get_account_staked_balance (w_pool w) u = Ok 0) ->
  (forall u, In u us -> get_account_total_balance (w_pool w) u = Ok (b u)) ->
  (forall u, In u us -> get_account_total_balance (w_pool w') u = Ok (b' u)) ->
  sumN b' us + sumN (fun u => paid u h) us + 1 <=
    sumN b us + sumN (fun u => deposited u h) us + stake_calls h + N.of_nat (List.length us).
Proof. exact newcomers_gain. Qed.
Print Assumptions C118_newcomers_get_no_old_rewards.

(** Rewards of 70 * 10^9 wait for a new epoch. Carol and dave stake, carol unstakes: together they hold one yoctoNEAR
    more than they brought, and the rewards went to the others. *)
Definition late : list event :=
  [EvCall "carol" 1000000000 0 [] DepositAndStake; EvIncome 5; EvCall "dave" 777777777 0 [] DepositAndStake;
   EvCall "carol" 0 0 [] (Unstake 1234567)].
Example C118_newcomers :
  let w := final demo_self demo0 (demo_evs ++ [EvIncome 70000000000; EvEpoch 1]) in
  let w' := final demo_self w late in let h := history demo_self w late in
  pending w = 70000000000 /\ last_epoch_height (w_pool w) <> w_epoch w /\
  map (get_account_staked_balance (w_pool w)) ["carol"; "dave"] = [Ok 0; Ok 0] /\
  map (get_account_total_balance (w_pool w)) ["carol"; "dave"] = [Ok 0; Ok 0] /\
  map (get_account_total_balance (w_pool w')) ["carol"; "dave"] = [Ok 1000000001; Ok 777777777] /\
  map (get_account_total_balance (w_pool w)) ["alice"; "bob"] = [Ok 3269730; Ok 1089909820] /\
  map (get_account_total_balance (w_pool w')) ["alice"; "bob"] = [Ok 3342385; Ok 1152275175] /\
  map (fun u => deposited u h) ["carol"; "dave"] = [1000000000; 777777777] /\ stake_calls h = 3.
Proof. vm_compute. repeat split; discriminate. Qed.
(** The epoch matters: tokens that reach the pool after the rewards of this epoch were distributed wait for the next
    epoch, and who joins before it shares in them. *)
Definition early : list event := [EvIncome 70000000000; EvCall "carol" 1000000000000 0 [] DepositAndStake; EvEpoch 1;
                                  EvCall "dave" 0 0 [] Ping].
Example C118_same_epoch :
  let w := final demo_self demo0 (demo_evs ++ [EvCall "dave" 0 0 [] Ping]) in
  last_epoch_height (w_pool w) = w_epoch w /\
  get_account_total_balance (w_pool w) "carol" = Ok 0 /\
  get_account_total_balance (w_pool (final demo_self w early)) "carol" = Ok 1029985706814 /\
  pending w + income early = 70000000000.
Proof. vm_compute. repeat split. Qed.
