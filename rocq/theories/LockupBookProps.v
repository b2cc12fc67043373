(** C96: the lockup contract answers every call as the agreement of LockupBook says. *)
From Coq Require Import NArith List Bool String.
From Verif Require Import Prelude LockupModel LockupWorld LockupSpec LockupProps LockupFacts LockupBook LockupBookProofs.
Import ListNotations.
Open Scope string_scope.
Open Scope N_scope.

(** C96. Every call of every method by anyone is refused exactly when the book refuses it; otherwise it changes
    exactly what the book says and sends exactly the request, with the callback, that the book says. *)
Theorem C96_every_call_by_the_book :
  forall c s m, well_formed s -> ctx_balance c + recorded s < U128_BOUND -> call_in_range m ->
  answered (exec c s m) = by_the_book c s m.
Proof. exact call_by_the_book. Qed.
Print Assumptions C96_every_call_by_the_book.

(** The states of C96 are the reachable ones: whole histories, with everything that is observed, go by the book. *)
Theorem C96_every_history_by_the_book :
  forall g w0 evs,
  starts g w0 -> public_schedule_sane (w_lockup w0) -> all_reveals_covered g w0 evs -> all_modest g w0 evs ->
  final g w0 evs = final_by_the_book g w0 evs /\ log g w0 evs = log_by_the_book g w0 evs.
Proof. exact history_by_the_book. Qed.
Print Assumptions C96_every_history_by_the_book.

(** Every view shows what the book says. *)
Theorem C96_views_by_the_book :
  forall s now balance, well_formed s -> balance + recorded s < U128_BOUND ->
  get_owner_account_id s = owner_account_id s /\
  get_staking_pool_account_id s = option_map staking_pool_account_id (staking_information s) /\
  get_known_deposited_balance s = recorded s /\
  get_termination_status s = stage s /\
  get_terminated_unvested_balance s = owed s /\
  get_terminated_unvested_balance_deficit s balance = owed s - spare balance /\
  get_locked_amount s now = Ok (locked s now) /\
  get_vesting_information s = vesting_information s /\
  get_balance s balance = Ok (balance + recorded s) /\
  get_owners_balance s now balance = Ok (balance + recorded s - locked s now) /\
  get_liquid_owners_balance s now balance = Ok (N.min (balance + recorded s - locked s now) (spare balance)) /\
  are_transfers_enabled s = enabled s.
Proof. exact views_by_the_book. Qed.
Print Assumptions C96_views_by_the_book.
Theorem C96_unvested_view :
  forall s now vs, well_formed s -> sane vs -> get_unvested_amount s now vs = Ok (unvested_shown s vs now).
Proof. exact unvested_shown_ok. Qed.
Print Assumptions C96_unvested_view.
(** The locked and vested amount is their difference; the view fails when the schedule shown to it leaves more
    unvested than is locked. *)
Theorem C96_locked_vested_view :
  forall s now vs, well_formed s -> sane vs ->
  (get_locked_vested_amount s now vs = Ok (locked s now - unvested_shown s vs now) /\
   unvested_shown s vs now <= locked s now) \/
  (exists e, get_locked_vested_amount s now vs = Panic e) /\ locked s now < unvested_shown s vs now.
Proof. exact locked_vested_shown. Qed.
Print Assumptions C96_locked_vested_view.

(** The whole life of a lockup: staked with a reward, terminated, fetched from the pool and paid out; the owner's
    attempts in between are refused; the accepted and refused calls of the book. *)
Definition life : list event :=
  (staked ++ [by_owner (DepositAndStake 0); by_owner (Transfer (7 * near) "friend.near");
              ECall "thief.near" 0 UnstakeAll; terminate; by_owner UnstakeAll] ++ fetched ++ paid_out)%list.
Definition verdicts (l : list obs) : list bool :=
  flat_map (fun b => match b with BCalled _ _ ok => [ok] | _ => [] end) l.
Definition modestb (w : world) (ev : event) : bool :=
  (w_balance w + recorded (w_lockup w) <? U128_BOUND) &&
  match ev with ECall _ _ (TerminateVesting (Some _)) => false | _ => true end.
Fixpoint all_modestb (g : genesis) (w : world) (evs : list event) : bool :=
  match evs with [] => true | ev :: r => modestb w ev && all_modestb g (step g w ev) r end.
Lemma modestb_sound g w evs : all_modestb g w evs = true -> all_modest g w evs.
Proof.
  revert w. induction evs as [|ev evs IH]; intros w; [exact (fun _ => I)|]. cbn [all_modestb all_modest].
  intros H. apply andb_true_iff in H. destruct H as [H1 H2]. split; [|now apply IH].
  apply andb_true_iff in H1. destruct H1 as [H1 H3]. split; [now apply N.ltb_lt|].
  destruct ev as [| | |who a m| |]; try exact I. destruct m; try exact I. destruct o; [discriminate|exact I].
Qed.
Example C96_applies :
  starts gen w1 /\ public_schedule_sane (w_lockup w1) /\ all_reveals_covered gen w1 life /\ all_modest gen w1 life /\
  verdicts (log_by_the_book gen w1 life) =
    [true; true; true; false; false; false; true; false; true; true; true] /\
  vesting_information (w_lockup (final_by_the_book gen w1 life)) = VNone /\
  termination_withdrawn_tokens (lockup_information (w_lockup (final_by_the_book gen w1 life))) = 50 * near.
Proof.
  split; [exact starts_w1|]. split; [exact sane_vs1|]. split; [vm_compute; auto 60|].
  split; [apply modestb_sound; vm_compute; reflexivity|]. vm_compute. auto.
Qed.
(** A private schedule: the right salt is accepted, a wrong one refused, and so is a schedule whose length is
    zero when the unvested part would be computed from it. *)
Example C96_private :
  let s := first i1 (VHash "salt") in
  let c t := mkCtx "lock.near" "found.near" 0 t (100 * near) [] (fun _ salt => salt) in
  let ends t vs salt := option_map (fun p => vesting_information (fst p))
                          (by_the_book (c t) s (TerminateVesting (Some (vs, salt)))) in
  ends 50 vs1 "salt" = Some (VTerminating (mkTermination (50 * near) ReadyToWithdraw)) /\
  ends 50 vs1 "other" = None /\ ends 100 vs1 "salt" = None /\
  ends 50 (mkSchedule 100 10 100) "salt" = None /\
  is_ok (exec (c 50) s (TerminateVesting (Some (mkSchedule 100 10 100, "salt")))) = false.
Proof. vm_compute. auto 10. Qed.
