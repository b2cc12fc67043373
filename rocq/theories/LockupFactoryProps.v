(** The properties of the lockup factory (C65 - C67). *)
From Coq Require Import NArith List Bool String Ascii Permutation.
From Verif Require Import Prelude Messages LockupFactoryModel LockupFactorySpec LockupFactoryProofs.
From Verif Require LockupModel LockupWorld.
Import ListNotations.
Open Scope string_scope.
Open Scope N_scope.

(** A concrete history. In place of SHA-256, a function that pads the name to 32 bytes. Alice's lockup is
    created with a vesting schedule; a second lockup for the same owner, asked for by bob, fails and bob is
    refunded. *)
Definition near (n : N) : N := n * 10 ^ 24.
Definition pad (s : string) : string := substring 0 32 (s ++ "................................").
Definition g0 : genesis := mkGenesis "lockup.near" pad (fun _ _ => "").
Definition w0 : world := mkWorld (mkFactory "whitelist" "foundation") (near 1) [] [].
Definition vs0 : LM.vesting_schedule := LM.mkSchedule 1000 2000 5000.
Definition evs0 : list event :=
  [ECall "alice" (near 100) (Create "owner.near" 500 None (Some (LM.ArgSchedule vs0)) (Some 700) None);
   ECall "bob" (near 4) (Create "owner.near" 9 (Some 8) None None (Some "other-list"));
   ECall "eve" 0 (OnLockupCreate "x" (near 9) "eve"); ECall "eve" (near 3) (Create "eve" 0 None None None None);
   ECreate 0 true 77].
Definition evs1 : list event := [ECreate 0 true 78; ERun 1; ERun 0].

Example starts0 : starts g0 "whitelist" "foundation" w0 /\
  slen (pad "owner.near") = 32 /\ slen (pad "a name that is longer than thirty-two bytes") = 32.
Proof.
  split; [|vm_compute; auto]. constructor; [reflexivity|reflexivity|reflexivity|].
  intros s. unfold slen. change (g_sha256 g0 s) with (pad s). unfold pad.
  rewrite substring_length; [reflexivity|]. rewrite append_length. apply PeanoNat.Nat.le_add_l.
Qed.
Example demo :
  accepted (log g0 w0 evs0) = [("alice", near 100); ("bob", near 4)] /\
  created (log g0 w0 (evs0 ++ evs1)) = [("alice", near 100)] /\
  refunded (log g0 w0 (evs0 ++ evs1)) = [("bob", near 4)] /\
  w_msgs (final g0 w0 (evs0 ++ evs1)) = [] /\
  w_balance (final g0 w0 (evs0 ++ evs1)) = near 1 /\
  created_lockups (log g0 w0 evs0) = ["6f776e65722e6e6561722e2e2e2e2e2e2e2e2e2e.lockup.near"].
Proof. vm_compute. repeat split. Qed.

(** For every owner the name is a function of the owner, at most 64 characters, a valid account name and a direct
    sub-account of the factory. *)
Theorem C65_names_are_valid :
  forall g wl fnd w owner, starts g wl fnd w ->
  slen (lockup_name g owner) <= 64 /\
  direct_subaccount (g_self g) (hex_encode (fingerprint g owner)) (lockup_name g owner).
Proof. exact lockup_name_ok. Qed.
Print Assumptions C65_names_are_valid.

(** The account an accepted call creates is that of its owner. *)
Theorem C65_created_under_that_name :
  forall g wl fnd w evs who a x, starts g wl fnd w -> In (BAccepted who a x) (log g w evs) ->
  exists owner duration timestamp vesting release whitelist,
    In (ECall who x (Create owner duration timestamp vesting release whitelist)) evs /\ a = lockup_name g owner.
Proof. exact accepted_name. Qed.
Print Assumptions C65_created_under_that_name.

(** Two owners share a name exactly when the first twenty bytes of their hashes agree. *)
Theorem C65_names_differ :
  forall g o1 o2, lockup_name g o1 = lockup_name g o2 <-> fingerprint g o1 = fingerprint g o2.
Proof. exact same_name_iff. Qed.
Print Assumptions C65_names_differ.
Example C65_applies :
  lockup_name g0 "owner.near" = "6f776e65722e6e6561722e2e2e2e2e2e2e2e2e2e.lockup.near" /\
  In (BAccepted "alice" (lockup_name g0 "owner.near") (near 100)) (log g0 w0 evs0) /\
  new "lockup-factory-23-chars" false "whitelist" "foundation" = Ok (mkFactory "whitelist" "foundation") /\
  is_ok (new "lockup-factory-24-chars-" false "whitelist" "foundation") = false.
Proof. vm_compute. auto. Qed.

(** Every call with enough deposit and well-formed account names is accepted. *)
Theorem C66_accepted_exactly_when :
  forall g wl fnd w evs who attached owner duration timestamp vesting release whitelist,
  starts g wl fnd w ->
  accepts g (final g w evs) who attached (Create owner duration timestamp vesting release whitelist) = true <->
  35 * 10 ^ 23 <= attached /\ is_valid_account_id owner = true /\
  match whitelist with Some a => is_valid_account_id a = true | None => True end.
Proof. exact create_accepted_iff. Qed.
Print Assumptions C66_accepted_exactly_when.

(** A creation in flight succeeds whenever there is gas and the account does not exist: no check of the lockup's
    initialisation fails. *)
Theorem C66_created_lockups_initialise :
  forall g wl fnd w evs n a x args cb time, starts g wl fnd w ->
  nth_error (w_msgs (final g w evs)) n = Some (MCreate a x args cb) ->
  smem a (w_accounts (final g w evs)) = false ->
  exists p, In (BCreated (payer cb) a x time p) (log g w (evs ++ [ECreate n true time])).
Proof. exact creation_succeeds. Qed.
Print Assumptions C66_created_lockups_initialise.

(** The created lockup is the one asked for: transfers enabled at the fixed time, the foundation in control
    exactly when there is a vesting schedule, the default whitelist unless another one was named. *)
Theorem C66_created_as_asked :
  forall g wl fnd w evs who a x time p, starts g wl fnd w -> In (BCreated who a x time p) (log g w evs) ->
  exists owner duration timestamp vesting release whitelist,
    In (ECall who x (Create owner duration timestamp vesting release whitelist)) evs /\
    a = lockup_name g owner /\ 35 * 10 ^ 23 <= x /\
    p = LM.mkContract owner
          (LM.mkLockup x 0 duration release timestamp (LM.TransfersEnabled TRANSFERS_STARTED))
          match vesting with
          | None => LM.VNone | Some (LM.ArgHash h) => LM.VHash h | Some (LM.ArgSchedule vs) => LM.VSchedule vs
          end
          match whitelist with Some b => b | None => wl end None
          match vesting with Some _ => Some fnd | None => None end.
Proof. exact created_as_asked. Qed.
Print Assumptions C66_created_as_asked.

(** It is in one of the initial states that the properties of the lockup contract (C45 - C61) start from. *)
Theorem C66_lockup_properties_apply :
  forall g wl fnd w evs who a x time p pools, starts g wl fnd w ->
  (forall ev, In ev evs -> match ev with ECall _ y m => y < U128_BOUND /\ call_in_range m | _ => True end) ->
  In (BCreated who a x time p) (log g w evs) -> time < U64_BOUND ->
  (forall q, fst (pools q) + snd (pools q) < U128_BOUND) ->
  LockupWorld.starts (LockupWorld.mkGenesis a (g_hash g)) (LockupWorld.mkWorld p x time pools []).
Proof. exact created_starts. Qed.
Print Assumptions C66_lockup_properties_apply.
Example C66_applies :
  In (BCreated "alice" (lockup_name g0 "owner.near") (near 100) 77
        (LM.mkContract "owner.near" (LM.mkLockup (near 100) 0 500 (Some 700) None (LM.TransfersEnabled 1602614338293769340))
           (LM.VSchedule vs0) "whitelist" None (Some "foundation"))) (log g0 w0 evs0) /\
  (forall ev, In ev evs0 -> match ev with ECall _ y m => y < U128_BOUND /\ call_in_range m | _ => True end) /\
  accepts g0 w0 "eve" (near 3) (Create "eve" 0 None None None None) = false /\
  accepts g0 w0 "eve" (near 4) (Create "Eve" 0 None None None None) = false /\
  accepts g0 w0 "eve" (near 4) (Create "eve" 0 None None None None) = true.
Proof.
  split; [vm_compute; auto 10|]. split; [|vm_compute; auto].
  cbn [evs0 In]. intros ev I. repeat (destruct I as [<-|I]; [vm_compute; repeat split|]). contradiction.
Qed.

(** At every moment of every schedule, each accepted creation is exactly one of: a lockup created with the
    attached deposit, a transfer of the deposit back to the caller, or still in flight. *)
Theorem C67_deposit_created_or_refunded :
  forall g wl fnd w evs, starts g wl fnd w ->
  Permutation (accepted (log g w evs))
    (created (log g w evs) ++ refunded (log g w evs) ++ pending (final g w evs)).
Proof. exact deposits_accounted. Qed.
Print Assumptions C67_deposit_created_or_refunded.

(** Whatever has happened, what is in flight can be brought to its end, and no callback ever fails. *)
Theorem C67_every_creation_ends :
  forall g wl fnd w evs, starts g wl fnd w ->
  exists more, w_msgs (final g w (evs ++ more)) = [] /\
    Permutation (accepted (log g w (evs ++ more)))
      (created (log g w (evs ++ more)) ++ refunded (log g w (evs ++ more))).
Proof. exact can_always_finish. Qed.
Print Assumptions C67_every_creation_ends.
Theorem C67_callbacks_never_fail :
  forall g wl fnd w evs, starts g wl fnd w -> stuck (log g w evs) = [].
Proof. exact callbacks_never_fail. Qed.
Print Assumptions C67_callbacks_never_fail.

(** The factory neither gains nor loses. *)
Theorem C67_factory_keeps_nothing :
  forall g wl fnd w evs, starts g wl fnd w ->
  w_balance (final g w evs) = w_balance w + incomes evs + to_refund (final g w evs).
Proof. exact factory_keeps_nothing. Qed.
Print Assumptions C67_factory_keeps_nothing.

(** No lockup account is created twice. *)
Theorem C67_one_lockup_per_account :
  forall g wl fnd w evs, starts g wl fnd w -> NoDup (created_lockups (log g w evs)).
Proof. exact one_lockup_per_account. Qed.
Print Assumptions C67_one_lockup_per_account.
Example C67_applies :
  pending (final g0 w0 evs0) = [("bob", near 4)] /\
  pending (final g0 w0 (evs0 ++ [ECreate 0 true 78])) = [("bob", near 4)] /\
  to_refund (final g0 w0 (evs0 ++ [ECreate 0 true 78])) = near 4 /\
  w_balance (final g0 w0 (evs0 ++ [ECreate 0 true 78])) = near 5.
Proof. vm_compute. repeat split. Qed.

(** C74. The factory is created once, for valid accounts, on an account of at most 23 characters; the views say what it
    was created with. *)
Theorem C74_lockup_factory_created :
  forall self ex wl fnd,
  (is_ok (new self ex wl fnd) = true <->
     ex = false /\ is_valid_account_id wl = true /\ is_valid_account_id fnd = true /\ slen self <= 23) /\
  forall s0, new self ex wl fnd = Ok s0 ->
    get_foundation_account_id s0 = fnd /\ whitelist_account_id s0 = wl /\
    get_min_attached_balance = 35 * 10 ^ 23 /\
    (forall c, ctx_current c = self -> get_lockup_master_account_id c = self).
Proof. exact factory_created. Qed.
Print Assumptions C74_lockup_factory_created.
Example C74_lockup_factory_applies :
  new "lockup.near" false "whitelist" "foundation" = Ok (w_factory w0) /\
  is_ok (new "lockup.near" true "whitelist" "foundation") = false /\
  is_ok (new "lockup.near" false "Whitelist" "foundation") = false.
Proof. vm_compute. auto. Qed.

(** C86. Nobody but the factory can call its callback, with whatever arguments and even as the callback of a
    promise of their own. *)
Theorem C86_lockup_factory_callback_is_private :
  forall self who attached results sha s a deposit caller,
  is_ok (exec (mkCtx self who attached results sha) s (OnLockupCreate a deposit caller)) = true <->
  who = self /\ attached = 0 /\ exists created, results = [created].
Proof. exact callback_private. Qed.
Print Assumptions C86_lockup_factory_callback_is_private.
Example C86_lockup_factory_applies :
  let back := OnLockupCreate "a.lockup.near" (near 4) "eve" in
  is_ok (exec (mkCtx "lockup.near" "eve" 0 [false] pad) (w_factory w0) back) = false /\
  is_ok (exec (mkCtx "lockup.near" "lockup.near" 0 [false] pad) (w_factory w0) back) = true.
Proof. vm_compute. auto. Qed.
