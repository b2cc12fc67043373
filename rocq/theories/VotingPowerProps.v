(** Who can end a poll, and who can keep it open (C117). *)
From Coq Require Import NArith List Bool String.
From Verif Require Import Prelude VotingModel VotingSpec VotingPowerProofs.
From Verif Require VotingProps.
Import ListNotations.
Open Scope string_scope.
Open Scope N_scope.

(** If, within one epoch, every member of a group with more than two thirds of the stake votes yes and none of them
    takes it back, the poll ends with a result, whatever anybody else calls before, between and after. *)
Theorem C117_two_thirds_end_it :
  forall w evs evs' (s : account_id -> bool), initial w -> Forall event_ok evs ->
  let w1 := final w evs in
  (forall n vs, ~ In (EvEpoch n vs) evs') ->
  2 * total_stake w1 < 3 * stake_for w1 s ->
  (forall a, s a = true -> exists ts, In (EvCall a 0 ts (Vote true)) evs') ->
  (forall a att ts, s a = true -> ~ In (EvCall a att ts (Vote false)) evs') ->
  exists ts, get_result (w_contract (final w1 evs')) = Some ts.
Proof. exact two_thirds_end. Qed.
Print Assumptions C117_two_thirds_end_it.
(** alice and carol hold 75 of 100; eve is no validator, dave votes yes and takes it back, bob votes no. *)
Definition group : account_id -> bool := fun a => String.eqb a "alice" || String.eqb a "carol".
Definition disturbed : list event :=
  [EvCall "dave" 0 1 (Vote true); EvCall "alice" 0 2 (Vote true); EvCall "eve" 0 3 (Vote true); EvCall "bob" 5 4 Ping;
   EvCall "bob" 0 5 (Vote false); EvCall "dave" 0 6 (Vote false); EvCall "carol" 0 7 (Vote true); EvCall "bob" 0 8 Ping].
Example C117_two_thirds_applies :
  (forall n vs, ~ In (EvEpoch n vs) disturbed) /\
  2 * total_stake VotingProps.w0 < 3 * stake_for VotingProps.w0 group /\
  (forall a, group a = true -> exists ts, In (EvCall a 0 ts (Vote true)) disturbed) /\
  (forall a att ts, group a = true -> ~ In (EvCall a att ts (Vote false)) disturbed) /\
  get_result (w_contract (final VotingProps.w0 disturbed)) = Some 7.
Proof.
  split; [cbn; intuition discriminate|]. split; [reflexivity|]. unfold group. split; [|split; [|vm_compute; reflexivity]].
  - intros a H. apply orb_true_iff in H. destruct H as [H|H]; apply String.eqb_eq in H; subst; cbn; eauto 12.
  - intros a att ts H. apply orb_true_iff in H. destruct H as [H|H]; apply String.eqb_eq in H; subst; cbn; intuition discriminate.
Qed.

(** Votes stand over the epochs: as soon as those who stand by a yes vote hold more than two thirds of the stake of
    the current epoch, anybody can close the poll. *)
Theorem C117_anyone_can_close_it :
  forall w evs who ts, initial w -> Forall event_ok evs ->
  let w1 := final w evs in
  get_result (w_contract w1) = None ->
  2 * total_stake w1 < 3 * stake_for w1 (poll w evs nobody) ->
  get_result (w_contract (step w1 (EvCall who 0 ts Ping))) = Some ts.
Proof. exact anyone_closes. Qed.
Print Assumptions C117_anyone_can_close_it.
(** bob has voted; in the next epoch bob holds 80 of 100. *)
Definition later : list event := [EvCall "bob" 0 2 (Vote true); EvEpoch 3 [("bob", 80); ("eve", 20)]].
Example C117_anyone_applies :
  Forall event_ok later /\ get_result (w_contract (final VotingProps.w0 later)) = None /\
  2 * total_stake (final VotingProps.w0 later) < 3 * stake_for (final VotingProps.w0 later) (poll VotingProps.w0 later nobody) /\
  accepted (final VotingProps.w0 later) (EvCall "mallory" 0 9 Ping) = true.
Proof. split; [|vm_compute; auto]. repeat constructor; cbn; try (intuition congruence); reflexivity. Qed.

(** If a group that never votes yes holds, at every moment, at least a third of the stake, there is no result. *)
Theorem C117_a_third_keeps_it_open :
  forall w evs (no : account_id -> bool), initial w -> Forall event_ok evs ->
  (forall who att ts, In (EvCall who att ts (Vote true)) evs -> no who = false) ->
  (forall evs1 evs2, evs = (evs1 ++ evs2)%list ->
     total_stake (final w evs1) <= 3 * stake_for (final w evs1) no) ->
  get_result (w_contract (final w evs)) = None.
Proof. exact minority_blocks. Qed.
Print Assumptions C117_a_third_keeps_it_open.
(** carol holds 35 of 100; everybody else votes yes. *)
Definition all_but_carol : list event :=
  [EvCall "alice" 0 1 (Vote true); EvCall "bob" 0 2 (Vote true); EvCall "dave" 0 3 (Vote true)].
Example C117_a_third_applies :
  (forall who att ts, In (EvCall who att ts (Vote true)) all_but_carol -> String.eqb who "carol" = false) /\
  (forall evs1 evs2, all_but_carol = (evs1 ++ evs2)%list ->
     total_stake (final VotingProps.w0 evs1) <= 3 * stake_for (final VotingProps.w0 evs1) (fun a => String.eqb a "carol")) /\
  stake_for VotingProps.w0 (fun a => negb (String.eqb a "carol")) = 65.
Proof.
  split; [|split; [|reflexivity]].
  - cbn. intros who att ts [H|[H|[H|[]]]]; injection H as <- <- <-; reflexivity.
  - intros evs1 evs2 E. destruct (calls_world VotingProps.w0 evs1) as [_ V].
    + assert (F : Forall (fun ev => is_call ev = true) all_but_carol) by (repeat constructor).
      rewrite E in F. now apply Forall_app in F.
    + unfold total_stake, stake_for. rewrite V. cbn. discriminate.
Qed.
