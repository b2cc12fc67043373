(** C112: the views of the contracts, as texts, show what has happened. *)
From Coq Require Import NArith List Bool String Permutation.
From Verif Require Import Prelude JsonModel JsonSpec WireModel WireSpec WireApi ViewModel ViewSpec.
From Verif Require ViewProofs.
From Verif Require StakingPoolDemo LockupProps LockupBookProps MultisigProps MultisigBookProps Multisig2BookProps VotingProps
  WhitelistProps WNearProps PoolFactoryProps LockupFactoryProps.
Import ListNotations.
Open Scope string_scope.
Open Scope N_scope.

Section S_C112_pool.
Import StakingPoolSpec.
(** C112. After every history of a staking pool that was created with more than the guarantee fund, whoever asks a view,
    with any JSON text that gives its arguments, gets the JSON text of what the book of the pool says: the account of
    anybody, the balances one by one, the whole stake, the settings, and the accounts by pages. Each account that has
    anything is listed once. A page that ends beyond the 64-bit numbers is refused. Nothing else is a view. *)
Theorem C112_pool :
  forall self w0 evs,
  initial self w0 -> within_limits self w0 evs -> 1000000000000 < w_total w0 ->
  let w := final self w0 evs in let b := SB.read (w_pool w) in let view := asked (pool_views (w_epoch w) (w_pool w)) in
  (forall u, let who := [("account_id", JStr u)] in
     shows view "get_account" who (account_of (w_epoch w) b u) /\
     shows view "get_account_unstaked_balance" who (amount (SB.b_unstaked b u)) /\
     shows view "get_account_staked_balance" who (amount (SB.worth u b)) /\
     shows view "get_account_total_balance" who (amount (SB.b_unstaked b u + SB.worth u b)) /\
     shows view "is_account_unstaked_balance_available" who (JBool (SB.b_available b u <=? w_epoch w))) /\
  shows view "get_total_staked_balance" [] (amount (SB.b_staked b)) /\
  shows view "get_owner_id" [] (JStr (SB.b_owner b)) /\
  shows view "get_reward_fee_fraction" [] (fraction_of (SB.b_fee b)) /\
  shows view "get_staking_key" [] (JStr (SB.b_key b)) /\
  shows view "is_staking_paused" [] (JBool (SB.b_paused b)) /\
  (exists l : list account_id,
     NoDup l /\ (forall u, In u l <-> 0 < SB.b_unstaked b u + SB.b_shares b u) /\
     shows view "get_number_of_accounts" [] (JNum (N.of_nat (List.length l))) /\
     forall i n, i < U64_BOUND -> n < U64_BOUND ->
       let page := [("from_index", JNum i); ("limit", JNum n)] in
       if i + n <? U64_BOUND
       then shows view "get_accounts" page
              (JArr (map (account_of (w_epoch w) b) (firstn (N.to_nat n) (skipn (N.to_nat i) l))))
       else fails view "get_accounts" page) /\
  only view pool_view_names.
Proof. exact ViewProofs.pool_shows. Qed.
Print Assumptions C112_pool.
Import StakingPoolDemo.
Example C112_pool_applies :
  let w := final demo_self demo0 demo_evs in let view := asked (pool_views (w_epoch w) (w_pool w)) in
  initial demo_self demo0 /\ within_limits demo_self demo0 demo_evs /\ 1000000000000 < w_total demo0 /\
  view "get_account" "{ ""account_id"": ""alice"" }" =
    Some "{""account_id"":""alice"",""unstaked_balance"":""2000001"",""staked_balance"":""1269729"",""can_withdraw"":true}" /\
  view "get_accounts" "{""limit"":2,""from_index"":2}" =
    Some "[{""account_id"":""owner"",""unstaked_balance"":""0"",""staked_balance"":""9999999999"",""can_withdraw"":true}]" /\
  view "get_accounts" "{""limit"":18446744073709551615,""from_index"":1}" = None /\
  view "get_reward_fee_fraction" "" = Some "{""numerator"":1,""denominator"":10}".
Proof.
  split; [apply demo_views|]. split; [apply demo_views|]. split; [apply demo_views|]. vm_compute. auto.
Qed.
End S_C112_pool.

Section S_C112_minimal_pool.
Import StakingPoolSpec.
(** Of a pool created with the guarantee fund alone the views of accounts fail, whatever happens. *)
Theorem C112_minimal_pool :
  forall self w0 evs u,
  initial self w0 -> w_total w0 = 1000000000000 ->
  let w := final self w0 evs in let view := asked (pool_views (w_epoch w) (w_pool w)) in
  Forall (fun name => fails view name [("account_id", JStr u)])
    ["get_account"; "get_account_unstaked_balance"; "get_account_staked_balance"; "get_account_total_balance";
     "is_account_unstaked_balance_available"].
Proof. exact ViewProofs.minimal_pool_fails. Qed.
Print Assumptions C112_minimal_pool.
Import StakingPoolDemo.
Example C112_minimal_pool_applies : exists self w0, initial self w0 /\ w_total w0 = 1000000000000.
Proof. exact minimal_pool. Qed.
End S_C112_minimal_pool.

Section S_C112_lockup.
Import LockupWorld LockupSpec.
(** After every history of a lockup, at any time and with any balance of its account, its views show what the agreement
    says. The locked and vested amount of a schedule that leaves more unvested than is locked is not shown. *)
Theorem C112_lockup :
  forall g w0 evs,
  starts g w0 -> public_schedule_sane (w_lockup w0) -> all_reveals_covered g w0 evs ->
  let s := w_lockup (final g w0 evs) in
  forall now balance, balance + LB.recorded s < U128_BOUND ->
  let view := asked (lockup_views now balance s) in
  shows view "get_owner_account_id" [] (JStr (LM.owner_account_id s)) /\
  shows view "get_staking_pool_account_id" []
    (nullable (fun i => JStr (LM.staking_pool_account_id i)) (LM.staking_information s)) /\
  shows view "get_known_deposited_balance" [] (amount (LB.recorded s)) /\
  shows view "get_termination_status" [] (nullable stage_of (LB.stage s)) /\
  shows view "get_terminated_unvested_balance" [] (amount (LB.owed s)) /\
  shows view "get_terminated_unvested_balance_deficit" [] (amount (LB.owed s - LB.spare balance)) /\
  shows view "get_locked_amount" [] (amount (locked s now)) /\
  shows view "get_vesting_information" [] (vesting_of (LM.vesting_information s)) /\
  shows view "get_balance" [] (amount (balance + LB.recorded s)) /\
  shows view "get_owners_balance" [] (amount (balance + LB.recorded s - locked s now)) /\
  shows view "get_liquid_owners_balance" []
    (amount (N.min (balance + LB.recorded s - locked s now) (LB.spare balance))) /\
  shows view "are_transfers_enabled" [] (JBool (LB.enabled s)) /\
  (forall vs, schedule_fits vs -> sane vs ->
     let given := [("vesting_schedule", WireApi.schedule_of vs)] in
     shows view "get_unvested_amount" given (amount (LB.unvested_shown s vs now)) /\
     if LB.unvested_shown s vs now <=? locked s now
     then shows view "get_locked_vested_amount" given (amount (locked s now - LB.unvested_shown s vs now))
     else fails view "get_locked_vested_amount" given) /\
  only view lockup_view_names.
Proof. exact ViewProofs.lockup_shows. Qed.
Print Assumptions C112_lockup.
Import LockupProps.
Example C112_lockup_applies :
  let evs := (staked ++ [terminate])%list in let s := w_lockup (final gen w1 evs) in
  let view := asked (lockup_views 60 (10 * near) s) in let before := asked (lockup_views 60 (100 * near) (w_lockup w1)) in
  starts gen w1 /\ public_schedule_sane (w_lockup w1) /\ all_reveals_covered gen w1 evs /\
  10 * near + LB.recorded s < U128_BOUND /\ schedule_fits vs1 /\ sane vs1 /\
  view "get_vesting_information" "" =
    Some "{""Terminating"":{""unvested_amount"":""50000000000000000000000000"",""status"":""VestingTerminatedWithDeficit""}}" /\
  view "get_staking_pool_account_id" "" = Some """pool.near""" /\
  view "get_liquid_owners_balance" "" = Some """6500000000000000000000000""" /\
  view "get_terminated_unvested_balance_deficit" "" = Some """43500000000000000000000000""" /\
  before "get_staking_pool_account_id" "" = Some "null" /\
  before "get_unvested_amount" "{""vesting_schedule"":{""start_timestamp"":""0"",""cliff_timestamp"":""10"",""end_timestamp"":""100""}}" = Some """40000000000000000000000000""" /\
  before "get_locked_vested_amount"
    "{""vesting_schedule"":{""start_timestamp"":""0"",""cliff_timestamp"":""100"",""end_timestamp"":""100""}}" = None.
Proof.
  split; [exact starts_w1|]. split; [exact sane_vs1|]. split; [vm_compute; auto 60|]. split; [reflexivity|].
  split; [vm_compute; auto|]. split; [exact sane_vs1|]. vm_compute. auto 10.
Qed.
End S_C112_lockup.

Section S_C112_multisig.
Import MultisigSpec MultisigBook.
(** After every history of a multisig its views show the board. *)
Theorem C112_multisig :
  forall self k evs s0,
  M1.new false k = Ok s0 ->
  let b := fst (play_all self (blank k) evs) in let view := ViewModel.asked (multisig_views (final self s0 evs)) in
  ViewSpec.shows view "get_num_confirmations" [] (JNum (b_quorum b)) /\
  ViewSpec.shows view "get_request_nonce" [] (JNum (b_next b)) /\
  (forall key, ViewSpec.shows view "get_num_requests_pk" [("public_key", JStr key)] (JNum (count_of key (b_items b)))) /\
  (exists ids, NoDup ids /\ (forall id, In id ids <-> In id (map i_id (b_items b))) /\
     ViewSpec.shows view "list_request_ids" [] (JArr (map JNum ids))) /\
  (forall id, id < U32_BOUND -> let given := [("request_id", JNum id)] in
     match lookup id (b_items b) with
     | Some i => ViewSpec.shows view "get_request" given (request1_of (i_request i)) /\
                 answers view "get_confirmations" given (array_of (map JStr (i_confirmed i)))
     | None => fails view "get_request" given /\ fails view "get_confirmations" given
     end) /\
  only view multisig_view_names.
Proof. exact ViewProofs.multisig_shows. Qed.
Print Assumptions C112_multisig.
Import MultisigModel MultisigProps MultisigBookProps.
Example C112_multisig_applies :
  let view := ViewModel.asked (multisig_views (final me s2of3 (firstn 7 busy_day))) in
  M1.new false 2 = Ok s2of3 /\
  view "get_request" "{""request_id"":3}" =
    Some "{""receiver_id"":""multi.near"",""actions"":[{""type"":""AddKey"",""public_key"":""k4""},{""type"":""DeleteKey"",""public_key"":""k3""}]}" /\
  view "get_request" "{""request_id"":0}" = None /\ view "list_request_ids" "" = Some "[1,2,3]" /\
  view "get_confirmations" "{""request_id"":2}" = Some "[""k3""]" /\
  view "get_num_requests_pk" "{""public_key"":""k3""}" = Some "2".
Proof. vm_compute. auto 10. Qed.
End S_C112_multisig.

Section S_C112_multisig2.
Import Multisig2Spec Multisig2Book.
(** And those of the second multisig, of its members too. A confirmation is shown as a string that holds the JSON text
    of the member. *)
Theorem C112_multisig2 :
  forall self ms k evs s0 p b0,
  M2.new self false ms k = Ok (s0, p) -> opened ms k = Some b0 ->
  let b := fst (play_all self b0 evs) in let view := ViewModel.asked (multisig2_views (final self s0 evs)) in
  (exists l, NoDup l /\ (forall m, In m l <-> In m (b_members b)) /\
     ViewSpec.shows view "get_members" [] (JArr (map member_of l))) /\
  ViewSpec.shows view "get_num_confirmations" [] (JNum (b_quorum b)) /\
  ViewSpec.shows view "get_request_nonce" [] (JNum (b_next b)) /\
  (forall m, member_fits m ->
     ViewSpec.shows view "get_num_requests_per_member" [("member", member_of m)] (JNum (count_of m (b_items b)))) /\
  (exists ids, NoDup ids /\ (forall id, In id ids <-> In id (map i_id (b_items b))) /\
     ViewSpec.shows view "list_request_ids" [] (JArr (map JNum ids))) /\
  (forall id, id < U32_BOUND -> let given := [("request_id", JNum id)] in
     match lookup id (b_items b) with
     | Some i => ViewSpec.shows view "get_request" given (request2_of (i_request i)) /\
                 answers view "get_confirmations" given (fun v => exists l l',
                   v = JArr l /\ Permutation l' (i_confirmed i) /\ Forall2 names_member l l')
     | None => fails view "get_request" given /\ fails view "get_confirmations" given
     end) /\
  only view multisig2_view_names.
Proof. exact ViewProofs.multisig2_shows. Qed.
Print Assumptions C112_multisig2.
Import Multisig2Model Multisig2Props Multisig2BookProps.
Example C112_multisig2_applies :
  let view := ViewModel.asked (multisig2_views (final me s2of3 (firstn 7 busy_day))) in
  M2.new me false ms3 2 = Ok (s2of3, p3) /\ opened ms3 2 = Some (mkBoard ms3 2 0 12 []) /\
  view "get_members" "" = Some "[{""public_key"":""k1""},{""public_key"":""k2""},{""account_id"":""carol.near""}]" /\
  view "get_request" "{""request_id"":3}" =
    Some "{""receiver_id"":""multi.near"",""actions"":[{""type"":""AddMember"",""member"":{""account_id"":""dan.near""}},{""type"":""DeleteMember"",""member"":{""account_id"":""carol.near""}}]}" /\
  view "get_confirmations" "{""request_id"":2}" = Some "[""{\""account_id\"":\""carol.near\""}""]" /\
  view "get_num_requests_per_member" "{""member"":{""account_id"":""carol.near""}}" = Some "2".
Proof. vm_compute. auto 10. Qed.
End S_C112_multisig2.

Section S_C112_voting.
Import VotingModel VotingSpec.
(** After every history of a vote: the votes shown are those of the accounts that stand by a yes vote, each once, and after
    an accepted call with their stake in the current epoch; their sum and the stake of all validators; and the result,
    null as long as there is none. *)
Theorem C112_voting :
  forall w0 evs,
  initial w0 -> Forall event_ok evs ->
  let w := final w0 evs in let view := asked (voting_views (call_ctx w "" 0 0) (w_contract w)) in
  exists l : list (account_id * N),
    NoDup (map fst l) /\
    (forall a, In a (map fst l) <-> poll w0 evs nobody a = true) /\
    (forall evs' who attached ts m, evs = (evs' ++ [EvCall who attached ts m])%list ->
       accepted (final w0 evs') (EvCall who attached ts m) = true -> forall a n, In (a, n) l -> n = stake_of w a) /\
    shows view "get_votes" [] (JObj (map (fun v => (fst v, amount (snd v))) l)) /\
    shows view "get_total_voted_stake" []
      (JArr [amount (fold_right N.add 0 (map snd l)); amount (total_stake w)]) /\
    shows view "get_result" [] (nullable amount (result (w_contract w))) /\
    only view voting_view_names.
Proof. exact ViewProofs.voting_shows. Qed.
Print Assumptions C112_voting.
Import VotingProps.
Example C112_voting_applies :
  let w := final w0 evs1 in let view := asked (voting_views (call_ctx w "" 0 0) (w_contract w)) in
  initial w0 /\ Forall event_ok evs1 /\
  map (fun name => view name "") ["get_result"; "get_total_voted_stake"; "get_votes"] =
    [Some "null"; Some "[""40"",""100""]"; Some "{""bob"":""40""}"].
Proof. split; [exact demo_initial|]. split; [exact demo_events|]. vm_compute. reflexivity. Qed.
End S_C112_voting.

Section S_C112_whitelist.
Import WhitelistModel WhitelistSpec.
(** The whitelist shows what its history says; an invalid account id is refused. *)
Theorem C112_whitelist :
  forall fnd s0 evs,
  new false fnd = Ok s0 ->
  let view := asked (whitelist_views (final s0 evs)) in
  (forall a, let pool := [("staking_pool_account_id", JStr a)] in let factory := [("factory_account_id", JStr a)] in
     if is_valid_account_id a
     then shows view "is_whitelisted" pool (JBool (pool_listed fnd (rev evs) a)) /\
          shows view "is_factory_whitelisted" factory (JBool (factory_listed fnd (rev evs) a))
     else fails view "is_whitelisted" pool /\ fails view "is_factory_whitelisted" factory) /\
  only view whitelist_view_names.
Proof. exact ViewProofs.whitelist_shows. Qed.
Print Assumptions C112_whitelist.
Import WhitelistProps.
Example C112_whitelist_applies :
  let view := asked (whitelist_views (final s0 evs0)) in
  new false "near" = Ok s0 /\
  view "is_whitelisted" "{""staking_pool_account_id"":""a.pools.near""}" = Some "true" /\
  view "is_whitelisted" "{""staking_pool_account_id"":""eve.pools.near""}" = Some "false" /\
  view "is_factory_whitelisted" "{""factory_account_id"":""pools.near""}" = Some "true" /\
  view "is_factory_whitelisted" "{""factory_account_id"":""Pools.near""}" = None.
Proof. vm_compute. auto. Qed.
End S_C112_whitelist.

Section S_C112_wnear.
Import WNearModel WNearSpec.
(** Wrapped NEAR shows the supply, the balance and the storage deposit of every account, null for one that is not
    registered, and what never changes; an invalid account id is refused. *)
Theorem C112_wnear :
  forall self b evs,
  let w := final self (start b) evs in let view := asked (wnear_views (w_token w)) in
  shows view "ft_total_supply" [] (amount (supply w)) /\
  (forall a, let who := [("account_id", JStr a)] in
     if is_valid_account_id a
     then shows view "ft_balance_of" who (amount (bal w a)) /\
          (registered w a ->
             shows view "storage_balance_of" who (JObj [("total", amount DEPOSIT); ("available", amount 0)])) /\
          (~ registered w a -> shows view "storage_balance_of" who JNull)
     else fails view "ft_balance_of" who /\ fails view "storage_balance_of" who) /\
  shows view "storage_balance_bounds" [] (JObj [("min", amount DEPOSIT); ("max", amount DEPOSIT)]) /\
  shows view "storage_minimum_balance" [] (amount DEPOSIT) /\
  shows view "ft_metadata" []
    (JObj [("spec", JStr "ft-1.0.0"); ("name", JStr "Wrapped NEAR fungible token"); ("symbol", JStr "wNEAR");
           ("icon", JNull); ("reference", JNull); ("reference_hash", JNull); ("decimals", JNum 24)]) /\
  only view wnear_view_names.
Proof. exact ViewProofs.wnear_shows. Qed.
Print Assumptions C112_wnear.
Import WNearProps.
Example C112_wnear_applies :
  let view := asked (wnear_views (w_token w1)) in
  w1 = final "wrap.near" (start b0) (evs0 ++ evs1) /\ registered w1 "dex" /\ ~ registered w1 "eve" /\
  view "ft_total_supply" "" = Some """3000000000000000000000000""" /\
  view "ft_balance_of" "{""account_id"":""dex""}" = Some """750000000000000000000000""" /\
  view "storage_balance_of" "{""account_id"":""dex""}" = Some "{""total"":""1250000000000000000000"",""available"":""0""}" /\
  view "storage_balance_of" "{""account_id"":""eve""}" = Some "null" /\
  view "storage_balance_of" "{""account_id"":""Eve""}" = None.
Proof.
  split; [reflexivity|]. split; [eexists; vm_compute; reflexivity|]. split; [intros (x & H); vm_compute in H; discriminate|].
  vm_compute. auto 10.
Qed.
End S_C112_wnear.

Section S_C112_pool_factory.
Import PoolFactorySpec.
(** The factory of staking pools counts the pools created and those whose creation is neither finished nor undone; it asks
    for 30 NEAR. *)
Theorem C112_pool_factory :
  forall self wl w0 evs,
  starts wl w0 ->
  let w := final self w0 evs in let view := asked (pool_factory_views (w_factory w)) in
  shows view "get_number_of_staking_pools_created" []
    (JNum (N.of_nat (List.length (created_pools (log self w0 evs)) + List.length (pending_pools w)))) /\
  shows view "get_min_attached_balance" [] (amount (30 * 10 ^ 24)) /\
  only view pool_factory_view_names.
Proof. exact ViewProofs.pool_factory_shows. Qed.
Print Assumptions C112_pool_factory.
Import PoolFactoryProps.
Example C112_pool_factory_applies :
  let w := final "pools.near" w0 evs0 in let view := asked (pool_factory_views (w_factory w)) in
  starts "whitelist" w0 /\ created_pools (log "pools.near" w0 evs0) = ["b.pools.near"] /\
  pending_pools w = ["a.pools.near"; "c.pools.near"] /\
  view "get_number_of_staking_pools_created" "" = Some "3".
Proof. split; [exact starts0|]. vm_compute. auto. Qed.
End S_C112_pool_factory.

Section S_C112_lockup_factory.
Import LockupFactorySpec.
(** The factory of lockups shows what it was created with, its own account, and the 3.5 NEAR that it asks for. *)
Theorem C112_lockup_factory :
  forall g wl fnd w0 evs c,
  starts g wl fnd w0 -> LF.ctx_current c = g_self g ->
  let view := asked (lockup_factory_views c (w_factory (final g w0 evs))) in
  shows view "get_foundation_account_id" [] (JStr fnd) /\
  shows view "get_lockup_master_account_id" [] (JStr (g_self g)) /\
  shows view "get_min_attached_balance" [] (amount (35 * 10 ^ 23)) /\
  only view lockup_factory_view_names.
Proof. exact ViewProofs.lockup_factory_shows. Qed.
Print Assumptions C112_lockup_factory.
Import LockupFactoryProps.
Example C112_lockup_factory_applies :
  let c := LF.mkCtx "lockup.near" "alice" 0 [] pad in
  let view := asked (lockup_factory_views c (w_factory (final g0 w0 evs0))) in
  starts g0 "whitelist" "foundation" w0 /\
  map (fun name => view name "{}") lockup_factory_view_names =
    [Some """foundation"""; Some """lockup.near"""; Some """3500000000000000000000000"""].
Proof. split; [apply starts0|]. vm_compute. reflexivity. Qed.
End S_C112_lockup_factory.
