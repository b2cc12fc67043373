(** The logs of the factories and of the wrapped token (C116). *)
From Coq Require Import NArith List Bool String Permutation.
From Verif Require Import Prelude OtherLogsModel OtherLogsSpec OtherLogsProofs.
From Verif Require PoolFactoryProps LockupFactoryProps WNearProps.
Import ListNotations.
Open Scope string_scope.
Open Scope N_scope.

(** Without the lines, the calls are those of the other theorems. *)
Theorem C116_same_calls :
  (forall c s m,
     PF.exec c s m = match pool_factory_l c s m with Ok (s', ps, _) => Ok (s', ps) | Panic e => Panic e end) /\
  (forall c s m,
     LF.exec c s m = match lockup_factory_l c s m with Ok (s', ps, _) => Ok (s', ps) | Panic e => Panic e end) /\
  (forall c t cl, WN.exec c t cl = match wrapped_l c t cl with Ok (r, _) => Ok r | Panic e => Panic e end).
Proof. exact (conj same_pools (conj same_lockups same_wrapped)). Qed.
Print Assumptions C116_same_calls.

(** A line says one thing. *)
Theorem C116_unambiguous :
  forall s f f', says s f -> says s f' -> f = f'.
Proof. exact says_inj. Qed.
Print Assumptions C116_unambiguous.

(** The log of a pool factory, after any history, can be read from end to end. The pools said to be created are, in
    this order, those sent to the whitelist; the deposits said to be returned are, in this order, the transfers. Every
    creation asked for is made, or said to have failed, or still in flight; every pool made is said to be created, or
    its callback is due. *)
Theorem C116_pool_factory :
  forall self wl w evs, PS.starts wl w ->
  let l := PS.log self w evs in
  let lines := pool_factory_log self w evs in
  let w' := PS.final self w evs in
  (exists fs, Forall2 says lines fs) /\
  forall fs, Forall2 says lines fs ->
    PS.whitelisted l = map (pair wl) (said_created fs) /\ PS.refunded l = said_returned fs /\
    Permutation (pools_asked l) (pools_made l ++ said_failed fs ++ PS.pending_creations w') /\
    Permutation (PS.created_pools l) (said_created fs ++ PS.to_whitelist w').
Proof. exact pool_factory_told. Qed.
Print Assumptions C116_pool_factory.
Example C116_pool_factory_example :
  PS.starts "whitelist" PoolFactoryProps.w0 /\
  pool_factory_log "pools.near" PoolFactoryProps.w0 (PoolFactoryProps.evs0 ++ PoolFactoryProps.evs1) =
    ["The staking pool @a.pools.near creation has failed. Returning attached deposit of 31000000000000000000000000 to @alice";
     "The staking pool @b.pools.near was successfully created. Whitelisting..."].
Proof. split; [exact PoolFactoryProps.starts0|vm_compute; reflexivity]. Qed.

(** The same of a lockup factory. *)
Theorem C116_lockup_factory :
  forall g wl fnd w evs, LS.starts g wl fnd w ->
  let l := LS.log g w evs in
  let lines := lockup_factory_log g w evs in
  let w' := LS.final g w evs in
  (exists fs, Forall2 says lines fs) /\
  forall fs, Forall2 says lines fs ->
    LS.refunded l = said_returned fs /\
    Permutation (lockups_asked l) (lockups_made l ++ said_failed fs ++ lockups_pending w') /\
    Permutation (LS.created_lockups l) (said_created fs ++ lockups_to_report w').
Proof. exact lockup_factory_told. Qed.
Print Assumptions C116_lockup_factory.
Example C116_lockup_factory_example :
  LS.starts LockupFactoryProps.g0 "whitelist" "foundation" LockupFactoryProps.w0 /\
  lockup_factory_log LockupFactoryProps.g0 LockupFactoryProps.w0 (LockupFactoryProps.evs0 ++ LockupFactoryProps.evs1) =
    ["The lockup 6f776e65722e6e6561722e2e2e2e2e2e2e2e2e2e.lockup.near creation has failed. Returning attached deposit of 4000000000000000000000000 to bob";
     "The lockup contract 6f776e65722e6e6561722e2e2e2e2e2e2e2e2e2e.lockup.near was successfully created."].
Proof. split; [exact (proj1 LockupFactoryProps.starts0)|vm_compute; reflexivity]. Qed.

(** An accepted deposit writes one line: what the caller got, which is the attached deposit without the price of
    a registration if there was one. *)
Theorem C116_deposit_line :
  forall self b evs who attached gas,
  let w := WS.final self (WS.start b) evs in
  let ev := WS.ECall who attached gas WN.NearDeposit in
  let w' := WS.step self w ev in
  WS.accepts self w who attached gas WN.NearDeposit ->
  exists line x, wrapped_step_log self w ev = [line] /\ says line (FWrapped x who) /\
    (WS.registered w who /\ x = attached \/ ~ WS.registered w who /\ x + WS.DEPOSIT = attached) /\
    WS.bal w' who = WS.bal w who + x /\ WS.supply w' = WS.supply w + x /\
    (forall a, a <> who -> WS.bal w' a = WS.bal w a).
Proof. exact reach_deposit. Qed.
Print Assumptions C116_deposit_line.

(** An accepted withdrawal writes one line: what the caller gave up. *)
Theorem C116_withdraw_line :
  forall self b evs who attached gas x,
  let w := WS.final self (WS.start b) evs in
  let ev := WS.ECall who attached gas (WN.NearWithdraw x) in
  let w' := WS.step self w ev in
  WS.accepts self w who attached gas (WN.NearWithdraw x) ->
  exists line, wrapped_step_log self w ev = [line] /\ says line (FUnwrapped x who) /\
    WS.bal w' who + x = WS.bal w who /\ WS.supply w' + x = WS.supply w /\
    (forall a, a <> who -> WS.bal w' a = WS.bal w a).
Proof. exact reach_withdraw. Qed.
Print Assumptions C116_withdraw_line.

(** Nothing else writes such a line. *)
Theorem C116_no_other_line :
  forall self w ev,
  (forall who attached gas, ev = WS.ECall who attached gas WN.NearDeposit ->
     ~ WS.accepts self w who attached gas WN.NearDeposit) ->
  (forall who attached gas x, ev = WS.ECall who attached gas (WN.NearWithdraw x) ->
     ~ WS.accepts self w who attached gas (WN.NearWithdraw x)) ->
  wrapped_step_log self w ev = [].
Proof. exact other_lines. Qed.
Print Assumptions C116_no_other_line.

(** The total supply is what was said to be wrapped, without what was said to be unwrapped and what was burnt. *)
Theorem C116_wrapped_supply :
  forall self b evs,
  let w := WS.start b in
  let lines := wrapped_log self w evs in
  (exists fs, Forall2 says lines fs) /\
  forall fs, Forall2 says lines fs ->
    WS.supply (WS.final self w evs) + said_unwrapped fs + burnt_in self w evs = said_wrapped fs.
Proof. exact wrapped_told. Qed.
Print Assumptions C116_wrapped_supply.

(** Only a forced unregistration and the settlement of a transfer call burn. *)
Theorem C116_burnt_when :
  forall self b evs ev,
  let w := WS.final self (WS.start b) evs in
  0 < burnt self w ev ->
  (exists who attached gas, ev = WS.ECall who attached gas (WN.StorageUnregister (Some true))) \/
  (exists n, ev = WS.EResolve n true).
Proof. exact reach_burnt. Qed.
Print Assumptions C116_burnt_when.
Example C116_wrapped_example :
  let evs := (WNearProps.evs0 ++ WNearProps.evs1)%list in
  wrapped_log "wrap.near" (WS.start WNearProps.b0) evs =
    ["Deposit 5000000000000000000000000 NEAR to alice"; "Deposit 0 NEAR to bob";
     "Deposit 3000000000000000000000000 NEAR to eve"; "Withdraw 2000000000000000000000000 yoctoNEAR from bob"] /\
  burnt_in "wrap.near" (WS.start WNearProps.b0) evs = 3 * 10 ^ 24 /\
  WS.supply (WS.final "wrap.near" (WS.start WNearProps.b0) evs) = 3 * 10 ^ 24.
Proof. vm_compute. repeat split. Qed.
