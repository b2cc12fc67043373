(** The properties of the whitelist contract (C26 - C28). *)
From Coq Require Import NArith List Bool String.
From Verif Require Import Prelude WhitelistModel WhitelistSpec WhitelistProofs.
Import ListNotations.
Open Scope string_scope.
Open Scope N_scope.

(** A concrete history: the foundation lists a factory, the factory lists a pool, a stranger fails,
    the foundation removes the factory, whose next add fails. *)
Definition s0 : contract := mkContract "near" [].
Definition evs0 : list event :=
  [mkEvent "near" 0 (AddFactory "pools.near"); mkEvent "pools.near" 0 (AddStakingPool "a.pools.near");
   mkEvent "eve" 0 (AddStakingPool "eve.pools.near"); mkEvent "near" 0 (AddStakingPool "old-pool")].
Definition evs1 : list event :=
  [mkEvent "near" 0 (RemoveStakingPool "old-pool"); mkEvent "eve" 0 (AddFactory "pools.near")].

Example demo :
  new false "near" = Ok s0 /\
  is_whitelisted (final s0 evs0) "a.pools.near" = Ok true /\
  is_whitelisted (final s0 evs0) "eve.pools.near" = Ok false /\
  is_whitelisted (final s0 (evs0 ++ evs1)) "old-pool" = Ok false /\
  is_factory_whitelisted (final s0 evs0) "pools.near" = Ok true /\
  accepted (final s0 evs0) (mkEvent "near" 0 (RemoveFactory "pools.near")) = true.
Proof. vm_compute. repeat split. Qed.

(** The answers are those of the authorised history. *)
Theorem C26_answers_follow_history :
  forall fnd s0 evs, new false fnd = Ok s0 ->
  let s := final s0 evs in
  (forall p, is_valid_account_id p = true -> is_whitelisted s p = Ok (pool_listed fnd (rev evs) p)) /\
  (forall f, is_valid_account_id f = true -> is_factory_whitelisted s f = Ok (factory_listed fnd (rev evs) f)).
Proof. exact answers_follow_history. Qed.
Print Assumptions C26_answers_follow_history.

(** A call succeeds exactly when it is authorised. *)
Theorem C26_accepted_iff_authorised :
  forall fnd s0 evs ev, new false fnd = Ok s0 ->
  accepted (final s0 evs) ev = authorised fnd (rev evs) ev.
Proof. exact accepted_iff_authorised. Qed.
Print Assumptions C26_accepted_iff_authorised.

(** The returned flag tells whether the list changed. *)
Theorem C26_returned_value :
  forall fnd s0 evs ev s' b, new false fnd = Ok s0 ->
  exec (mkCtx (e_who ev) (e_attached ev)) (final s0 evs) (e_call ev) = Ok (s', b) ->
  b = match e_call ev with
      | AddStakingPool p => negb (pool_listed fnd (rev evs) p)
      | RemoveStakingPool p => pool_listed fnd (rev evs) p
      | AddFactory f => negb (factory_listed fnd (rev evs) f)
      | RemoveFactory f => factory_listed fnd (rev evs) f
      end.
Proof. exact returned_value. Qed.
Print Assumptions C26_returned_value.
Example C26_applies :
  pool_listed "near" (rev evs0) "a.pools.near" = true /\
  authorised "near" (rev evs0) (mkEvent "eve" 0 (AddStakingPool "b.pools.near")) = false /\
  authorised "near" (rev evs0) (mkEvent "pools.near" 0 (AddStakingPool "b.pools.near")) = true.
Proof. vm_compute. auto. Qed.

(** No two entries, of one list or of both, share a storage key, nor does an entry share the key of
    the contract's root object. *)
Theorem C27_storage_keys_distinct :
  (forall a b, lookup_key WHITELIST_PREFIX a = lookup_key WHITELIST_PREFIX b -> a = b) /\
  (forall a b, lookup_key FACTORY_PREFIX a = lookup_key FACTORY_PREFIX b -> a = b) /\
  (forall a b, lookup_key WHITELIST_PREFIX a <> lookup_key FACTORY_PREFIX b) /\
  (forall a, lookup_key WHITELIST_PREFIX a <> STATE_KEY /\ lookup_key FACTORY_PREFIX a <> STATE_KEY).
Proof. exact storage_keys_distinct. Qed.
Print Assumptions C27_storage_keys_distinct.

(** In any state, a call about one account changes the answer for no other account and for nothing in
    the other list. *)
Theorem C27_whitelists_independent :
  forall s ev,
  (forall p q, e_call ev = AddStakingPool q \/ e_call ev = RemoveStakingPool q -> p <> q ->
     is_whitelisted (step s ev) p = is_whitelisted s p) /\
  (forall f q, e_call ev = AddStakingPool q \/ e_call ev = RemoveStakingPool q ->
     is_factory_whitelisted (step s ev) f = is_factory_whitelisted s f) /\
  (forall f g, e_call ev = AddFactory g \/ e_call ev = RemoveFactory g -> f <> g ->
     is_factory_whitelisted (step s ev) f = is_factory_whitelisted s f) /\
  (forall p g, e_call ev = AddFactory g \/ e_call ev = RemoveFactory g ->
     is_whitelisted (step s ev) p = is_whitelisted s p).
Proof. exact whitelists_independent. Qed.
Print Assumptions C27_whitelists_independent.

(** A removed factory cannot list pools until the foundation adds it again. *)
Theorem C28_removed_factory_powerless :
  forall fnd s0 evs f evs' p att,
  new false fnd = Ok s0 -> f <> fnd ->
  accepted (final s0 evs) (mkEvent fnd 0 (RemoveFactory f)) = true ->
  (forall ev, In ev evs' -> ~ (e_who ev = fnd /\ e_call ev = AddFactory f)) ->
  accepted (final s0 (evs ++ [mkEvent fnd 0 (RemoveFactory f)] ++ evs')) (mkEvent f att (AddStakingPool p)) = false.
Proof. exact removed_factory_powerless. Qed.
Print Assumptions C28_removed_factory_powerless.
Example C28_applies :
  accepted (final s0 evs0) (mkEvent "pools.near" 0 (AddStakingPool "c.pools.near")) = true /\
  accepted (final s0 (evs0 ++ [mkEvent "near" 0 (RemoveFactory "pools.near")] ++ evs1))
    (mkEvent "pools.near" 0 (AddStakingPool "c.pools.near")) = false.
Proof. vm_compute. auto. Qed.

(** Its pools stay listed. *)
Theorem C28_removed_factory_pools_stay :
  forall s f who att p,
  is_whitelisted (step s (mkEvent who att (RemoveFactory f))) p = is_whitelisted s p.
Proof. exact removed_factory_pools_stay. Qed.
Print Assumptions C28_removed_factory_pools_stay.

(** C74. The contract is created once, for a valid foundation id, and starts with nothing listed; only the
    foundation given then may list factories. *)
Theorem C74_whitelist_created :
  forall ex fnd, is_ok (new ex fnd) = true <-> ex = false /\ is_valid_account_id fnd = true.
Proof. exact created_iff. Qed.
Print Assumptions C74_whitelist_created.
Theorem C74_whitelist_starts_empty :
  forall fnd s0, new false fnd = Ok s0 ->
  (forall p, is_whitelisted s0 p <> Ok true) /\ (forall f, is_factory_whitelisted s0 f <> Ok true) /\
  (forall who att f, accepted s0 (mkEvent who att (AddFactory f)) = true <->
                     who = fnd /\ att = 0 /\ is_valid_account_id f = true).
Proof. exact starts_empty. Qed.
Print Assumptions C74_whitelist_starts_empty.
Example C74_whitelist_applies :
  new false "near" = Ok s0 /\ is_ok (new true "near") = false /\ is_ok (new false "Near") = false.
Proof. vm_compute. auto. Qed.
