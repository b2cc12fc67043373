(** The properties of the staking pool factory (C62 - C64). *)
From Coq Require Import NArith List Bool String Permutation.
From Verif Require Import Prelude Messages PoolFactoryModel PoolFactorySpec PoolFactoryProofs.
From Verif Require StakingPoolModel WhitelistModel WhitelistSpec.
Import ListNotations.
Open Scope string_scope.
Open Scope N_scope.

(** A concrete history: alice and bob create pools at the same time; alice's account exists already, so that
    creation fails and is refunded; alice tries again under another name. *)
Definition near (n : N) : N := n * 10 ^ 24.
Definition w0 : world := mkWorld (mkFactory "whitelist" []) (near 50) ["a.pools.near"] [].
Definition create (name owner : string) : call :=
  CreateStakingPool name owner "key" (SM.mkFraction 10 100).
Definition evs0 : list event :=
  [ECall "alice" (near 31) (create "a" "alice"); ECall "bob" (near 40) (create "b" "bob");
   ECall "eve" (near 30) (create "b" "eve"); ECall "eve" 0 (OnStakingPoolCreate "x" (near 9) "eve");
   ECreate 1 true 7; ECreate 0 true 7; ECall "carol" (near 30) (create "c" "carol")].
Definition evs1 : list event := [ERun 1; ERun 0; ECall "alice" (near 35) (create "d" "alice")].

Example starts0 : starts "whitelist" w0.
Proof. split; reflexivity. Qed.
Example demo :
  accepted (log "pools.near" w0 evs0) = [("alice", near 31); ("bob", near 40); ("carol", near 30)] /\
  created (log "pools.near" w0 evs0) = [("bob", near 40)] /\
  pending (final "pools.near" w0 evs0) = [("alice", near 31); ("carol", near 30)] /\
  pending_pools (final "pools.near" w0 evs0) = ["a.pools.near"; "c.pools.near"] /\
  w_balance (final "pools.near" w0 evs0) = near 81 /\
  refunded (log "pools.near" w0 (evs0 ++ evs1)) = [("alice", near 31)] /\
  w_balance (final "pools.near" w0 (evs0 ++ evs1)) = near 50 /\
  whitelisted (log "pools.near" w0 (evs0 ++ evs1)) = [("whitelist", "b.pools.near")].
Proof. vm_compute. repeat split. Qed.

(** At every moment of every schedule, each accepted creation is exactly one of: a pool created with the
    attached deposit, a transfer of the deposit back to the caller, or still in flight. *)
Theorem C62_deposit_created_or_refunded :
  forall self wl w evs, starts wl w ->
  Permutation (accepted (log self w evs))
    (created (log self w evs) ++ refunded (log self w evs) ++ pending (final self w evs)).
Proof. exact deposits_accounted. Qed.
Print Assumptions C62_deposit_created_or_refunded.

(** Whatever has happened, what is in flight can be brought to its end, and no callback ever fails. *)
Theorem C62_every_creation_ends :
  forall self wl w evs, starts wl w ->
  exists more, w_msgs (final self w (evs ++ more)) = [] /\
    Permutation (accepted (log self w (evs ++ more)))
      (created (log self w (evs ++ more)) ++ refunded (log self w (evs ++ more))).
Proof. exact can_always_finish. Qed.
Print Assumptions C62_every_creation_ends.
Theorem C62_callbacks_never_fail :
  forall self wl w evs, starts wl w -> stuck (log self w evs) = [].
Proof. exact callbacks_never_fail. Qed.
Print Assumptions C62_callbacks_never_fail.

(** The factory neither gains nor loses: it holds what it held, what was sent to it, and the deposits it is
    about to refund. *)
Theorem C62_factory_keeps_nothing :
  forall self wl w evs, starts wl w ->
  w_balance (final self w evs) = w_balance w + incomes evs + to_refund (final self w evs).
Proof. exact factory_keeps_nothing. Qed.
Print Assumptions C62_factory_keeps_nothing.
Example C62_applies :
  accepted (log "pools.near" w0 (evs0 ++ evs1)) =
    [("alice", near 31); ("bob", near 40); ("carol", near 30); ("alice", near 35)] /\
  w_msgs (final "pools.near" w0 (evs0 ++ evs1 ++ [ECreate 0 true 8; ECreate 0 true 8; ERun 0; ERun 0])) = [] /\
  to_refund (final "pools.near" w0 evs0) = near 31.
Proof. vm_compute. repeat split. Qed.

(** No account is the target of two creations at the same time, or of a creation after it was created. *)
Theorem C63_no_account_twice :
  forall self wl w evs, starts wl w ->
  NoDup (created_pools (log self w evs) ++ pending_pools (final self w evs)).
Proof. exact names_unique. Qed.
Print Assumptions C63_no_account_twice.

(** Different names, different accounts. *)
Theorem C63_distinct_names :
  forall self n1 n2 a1 a2, direct_subaccount self n1 a1 -> direct_subaccount self n2 a2 ->
  n1 <> n2 -> a1 <> a2.
Proof. exact distinct_names. Qed.
Print Assumptions C63_distinct_names.

(** Exactly which creations are accepted. In particular the account is a direct valid sub-account of the
    factory. *)
Theorem C63_accepted_exactly_when :
  forall self wl w evs who attached name owner key fee, starts wl w ->
  let a := name ++ "." ++ self in
  accepts self (final self w evs) who attached (CreateStakingPool name owner key fee) = true <->
  30 * 10 ^ 24 <= attached /\ direct_subaccount self name a /\ is_valid_account_id owner = true /\
  valid_fee fee /\ ~ In a (created_pools (log self w evs)) /\ ~ In a (pending_pools (final self w evs)).
Proof. exact create_accepted_iff. Qed.
Print Assumptions C63_accepted_exactly_when.
Example C63_applies :
  let w := final "pools.near" w0 evs0 in
  accepts "pools.near" w "eve" (near 30) (create "c" "eve") = false /\
  accepts "pools.near" w "eve" (near 30) (create "b" "eve") = false /\
  accepts "pools.near" w "eve" (near 30) (create "e" "eve") = true /\
  accepts "pools.near" w "eve" (near 30) (create "x.e" "eve") = false /\
  accepts "pools.near" w "eve" (near 29) (create "e" "eve") = false /\
  accepts "pools.near" w "eve" (near 30) (create "" "eve") = false /\
  accepts "pools.near" (final "pools.near" w [ERun 1]) "eve" (near 30) (create "a" "eve") = true.
Proof. vm_compute. repeat split. Qed.

(** Requests to the whitelist: one for every created pool, sent to the configured whitelist, once, after the
    creation. *)
Theorem C64_only_created_pools :
  forall self wl w evs, starts wl w ->
  Permutation (map (pair wl) (created_pools (log self w evs)))
    (whitelisted (log self w evs) ++ map (pair wl) (to_whitelist (final self w evs))).
Proof. exact whitelist_only_created. Qed.
Print Assumptions C64_only_created_pools.

(** A created pool runs the pool code, freshly initialised as an accepted call asked for, with a valid fee. *)
Theorem C64_created_as_asked :
  forall self wl w evs who a x p, starts wl w -> In (BCreated who a x p) (log self w evs) ->
  exists name owner key fee epoch,
    In (ECall who x (CreateStakingPool name owner key fee)) evs /\ direct_subaccount self name a /\
    30 * 10 ^ 24 <= x /\ is_valid_account_id owner = true /\ valid_fee fee /\
    p = SM.mkPool owner key epoch x (x - SM.STAKE_SHARE_PRICE_GUARANTEE_FUND)
          (x - SM.STAKE_SHARE_PRICE_GUARANTEE_FUND) fee [] false.
Proof. exact created_as_asked. Qed.
Print Assumptions C64_created_as_asked.

(** None of the pool's own checks makes a creation fail: with gas, and a free account, it succeeds. *)
Theorem C64_creation_succeeds :
  forall self wl w evs n a x args cb epoch, starts wl w ->
  nth_error (w_msgs (final self w evs)) n = Some (MCreate a x args cb) ->
  smem a (w_accounts (final self w evs)) = false ->
  exists p, In (BCreated (payer cb) a x p) (log self w (evs ++ [ECreate n true epoch])).
Proof. exact creation_succeeds. Qed.
Print Assumptions C64_creation_succeeds.

(** The number of pools reported is that of the created pools and of the creations in flight: a failed
    creation leaves no trace. *)
Theorem C64_number_of_pools :
  forall self wl w evs, starts wl w ->
  get_number_of_staking_pools_created (w_factory (final self w evs)) =
  N.of_nat (List.length (created_pools (log self w evs)) + List.length (pending_pools (final self w evs))).
Proof. exact pools_listed. Qed.
Print Assumptions C64_number_of_pools.

(** Together with the whitelist contract of this repository, after any history of calls to it in which the
    calls of the factory are those it sent: a listed pool was created by the factory, or was added by another
    account. *)
Theorem C64_listed_pools_were_created :
  forall self wl w evs fnd s0 calls p, starts wl w -> WM.new false fnd = Ok s0 ->
  (forall ev, In ev calls -> WS.e_who ev = self ->
     exists a, WS.e_call ev = WM.AddStakingPool a /\ In (wl, a) (whitelisted (log self w evs))) ->
  WM.is_whitelisted (WS.final s0 calls) p = Ok true ->
  In p (created_pools (log self w evs)) \/
  exists ev, In ev calls /\ WS.e_who ev <> self /\ WS.e_call ev = WM.AddStakingPool p.
Proof. exact listed_were_created. Qed.
Print Assumptions C64_listed_pools_were_created.

(** And while the factory is listed, its request to add a created pool succeeds. *)
Theorem C64_created_pools_get_listed :
  forall self wl w evs fnd s0 calls p, starts wl w -> WM.new false fnd = Ok s0 ->
  is_valid_account_id self = true -> In p (created_pools (log self w evs)) ->
  WM.is_factory_whitelisted (WS.final s0 calls) self = Ok true ->
  WS.accepted (WS.final s0 calls) (WS.mkEvent self 0 (WM.AddStakingPool p)) = true /\
  WM.is_whitelisted (WS.final s0 (calls ++ [WS.mkEvent self 0 (WM.AddStakingPool p)])) p = Ok true.
Proof. exact created_gets_listed. Qed.
Print Assumptions C64_created_pools_get_listed.

Definition wcalls : list WS.event :=
  [WS.mkEvent "near" 0 (WM.AddFactory "pools.near"); WS.mkEvent "pools.near" 0 (WM.AddStakingPool "b.pools.near");
   WS.mkEvent "eve" 0 (WM.AddStakingPool "eve")].
Example C64_applies :
  created_pools (log "pools.near" w0 (evs0 ++ evs1)) = ["b.pools.near"] /\
  to_whitelist (final "pools.near" w0 evs0) = ["b.pools.near"] /\
  get_number_of_staking_pools_created (w_factory (final "pools.near" w0 (evs0 ++ evs1))) = 3 /\
  In (BCreated "bob" "b.pools.near" (near 40)
        (SM.mkPool "bob" "key" 7 (near 40) (near 40 - 10 ^ 12) (near 40 - 10 ^ 12) (SM.mkFraction 10 100) [] false))
     (log "pools.near" w0 evs0) /\
  WM.new false "near" = Ok (WM.mkContract "near" []) /\
  WM.is_factory_whitelisted (WS.final (WM.mkContract "near" []) wcalls) "pools.near" = Ok true /\
  WM.is_whitelisted (WS.final (WM.mkContract "near" []) wcalls) "b.pools.near" = Ok true.
Proof. vm_compute. repeat split. right; right; right; right; left. reflexivity. Qed.

(** C74. The factory is created once, for a valid whitelist account, with no pool; the deposit it announces is the one it
    asks for. *)
Theorem C74_pool_factory_created :
  forall ex wl,
  (is_ok (new ex wl) = true <-> ex = false /\ is_valid_account_id wl = true) /\
  forall s0, new ex wl = Ok s0 ->
    staking_pool_whitelist_account_id s0 = wl /\ get_number_of_staking_pools_created s0 = 0 /\
    get_min_attached_balance = 30 * 10 ^ 24 /\
    forall b accounts, starts wl (mkWorld s0 b accounts []).
Proof. exact factory_created. Qed.
Print Assumptions C74_pool_factory_created.
Example C74_pool_factory_applies :
  new false "whitelist" = Ok (w_factory w0) /\ is_ok (new true "whitelist") = false /\ is_ok (new false "White") = false.
Proof. vm_compute. auto. Qed.

(** C86. Nobody but the factory can call its callback, with whatever arguments and even as the callback of a
    promise of their own. *)
Theorem C86_pool_factory_callback_is_private :
  forall self who attached results s a deposit caller,
  is_ok (exec (mkCtx self who attached results) s (OnStakingPoolCreate a deposit caller)) = true <->
  who = self /\ attached = 0 /\ exists created, results = [created].
Proof. exact callback_private. Qed.
Print Assumptions C86_pool_factory_callback_is_private.
Example C86_pool_factory_applies :
  let back := OnStakingPoolCreate "a.pools.near" (near 30) "eve" in
  is_ok (exec (mkCtx "pools.near" "eve" 0 [true]) (w_factory w0) back) = false /\
  is_ok (exec (mkCtx "pools.near" "pools.near" 0 [true]) (w_factory w0) back) = true /\
  is_ok (exec (mkCtx "pools.near" "pools.near" 1 [true]) (w_factory w0) back) = false.
Proof. vm_compute. auto. Qed.
