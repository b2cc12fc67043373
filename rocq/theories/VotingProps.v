(** The properties of the voting contract (C21 - C25). Every theorem is closed by a lemma of
    [VotingFacts]; the examples show concrete histories that meet the hypotheses. *)
From Coq Require Import NArith List Bool String Permutation.
From Verif Require Import Prelude VotingModel VotingSpec VotingFacts.
Import ListNotations.
Open Scope string_scope.
Open Scope N_scope.

(** * A concrete history

    Four validators. alice (40) and bob (20) vote yes: 60 of 100 is not enough. In the next epoch
    alice is no validator any more, carol (35 then 50) votes. *)
Definition vals0 : validators := [("alice", 40); ("bob", 20); ("carol", 35); ("dave", 5)].
Definition vals1 : validators := [("bob", 40); ("carol", 50); ("dave", 10)].
Definition w0 : world := mkWorld (mkContract [] 0 None 0) 7 vals0.
Definition evs0 : list event :=
  [EvCall "alice" 0 1 (Vote true); EvCall "bob" 0 2 (Vote true); EvCall "eve" 0 3 (Vote true);
   EvCall "dave" 0 4 (Vote true); EvCall "dave" 0 5 (Vote false); EvEpoch 0 vals1].
Definition evs1 : list event := evs0 ++ [EvCall "eve" 0 6 Ping].
Definition last_call : event := EvCall "carol" 0 7 (Vote true).

Lemma nodup_vals0 : NoDup (mkeys vals0).
Proof. cbn. repeat constructor; cbn; intuition congruence. Qed.
Lemma nodup_vals1 : NoDup (mkeys vals1).
Proof. cbn. repeat constructor; cbn; intuition congruence. Qed.
Example demo_initial : initial w0.
Proof. split; [reflexivity|]. split; [exact nodup_vals0|reflexivity]. Qed.
Example demo_events : Forall event_ok evs1.
Proof. repeat constructor; cbn; try (intuition congruence); try reflexivity. Qed.

Example demo_votes :
  get_votes (w_contract (final w0 evs0)) = [("alice", 40); ("bob", 20)] /\
  get_votes (w_contract (final w0 evs1)) = [("bob", 40)] /\
  get_result (w_contract (final w0 evs1)) = None /\
  get_result (w_contract (final w0 (evs1 ++ [last_call]))) = Some 7.
Proof. vm_compute. auto. Qed.

(** The tally is the sum of the recorded votes; nobody is recorded twice; no empty votes. *)
Theorem C21_tally_is_sum :
  forall w evs, initial w -> Forall event_ok evs ->
  let s := w_contract (final w evs) in
  NoDup (mkeys (get_votes s)) /\
  fst (get_total_voted_stake (call_ctx (final w evs) EmptyString 0 0) s) = msum (fun v => v) (get_votes s) /\
  (forall a v, In (a, v) (get_votes s) -> 0 < v).
Proof. exact tally_is_sum. Qed.
Print Assumptions C21_tally_is_sum.

(** An accepted call sets the result exactly when the accounts standing by a yes vote after it hold
    more than two thirds of the current total stake; before the call the poll was open. *)
Theorem C22_result_iff_two_thirds :
  forall w evs who att ts m, initial w -> Forall event_ok evs ->
  let w1 := final w evs in
  let ev := EvCall who att ts m in
  accepted w1 ev = true ->
  get_result (w_contract w1) = None /\
  get_result (w_contract (step w1 ev)) =
    if 2 * total_stake w1 <? 3 * stake_for w1 (poll w (evs ++ [ev]) nobody) then Some ts else None.
Proof. exact result_iff. Qed.
Print Assumptions C22_result_iff_two_thirds.
Example C22_applies :
  accepted (final w0 evs1) last_call = true /\
  stake_for (final w0 evs1) (poll w0 (evs1 ++ [last_call]) nobody) = 90 /\
  total_stake (final w0 evs1) = 100 /\
  stake_for (final w0 evs0) (poll w0 evs0 nobody) = 40.
Proof. vm_compute. auto. Qed.

(** While the poll is open and touched in this epoch, the yes voters hold at most two thirds. *)
Theorem C22_open_means_not_passed :
  forall w evs, initial w -> Forall event_ok evs ->
  let w1 := final w evs in
  get_result (w_contract w1) = None ->
  last_epoch_height (w_contract w1) = w_epoch w1 ->
  3 * stake_for w1 (poll w evs nobody) <= 2 * total_stake w1.
Proof. exact open_means_not_passed. Qed.
Print Assumptions C22_open_means_not_passed.
Example C22_open_applies :
  get_result (w_contract (final w0 evs1)) = None /\
  last_epoch_height (w_contract (final w0 evs1)) = w_epoch (final w0 evs1).
Proof. vm_compute. auto. Qed.

(** Exactly which calls are accepted: no deposit, the poll open, and for a yes vote a stake in the
    current epoch (unless the votes re-weighed for the new epoch end the poll first). *)
Theorem C22_accepted_iff :
  forall w evs who att ts m, initial w -> Forall event_ok evs ->
  let w1 := final w evs in
  accepted w1 (EvCall who att ts m) = true <->
  att = 0 /\ get_result (w_contract w1) = None /\
  (m = Vote true -> 0 < stake_of w1 who \/
     2 * total_stake w1 < 3 * stake_for w1 (fun a => poll w evs nobody a && (0 <? stake_of w1 a))).
Proof. exact accepted_iff. Qed.
Print Assumptions C22_accepted_iff.
Example C22_accepted_applies :
  accepted (final w0 evs0) (EvCall "alice" 0 9 (Vote true)) = false /\
  accepted (final w0 evs0) (EvCall "alice" 0 9 (Vote false)) = true.
Proof. vm_compute. auto. Qed.

(** Once the result is set nothing changes any more and every call fails. *)
Theorem C23_result_final :
  forall w evs evs' t,
  get_result (w_contract (final w evs)) = Some t ->
  w_contract (final w (evs ++ evs')) = w_contract (final w evs) /\
  (forall who att ts m, accepted (final w (evs ++ evs')) (EvCall who att ts m) = false).
Proof. exact result_final. Qed.
Print Assumptions C23_result_final.

(** After an accepted call the recorded votes are exactly the yes voters with their stakes in the
    current epoch. *)
Theorem C24_votes_are_current_stakes :
  forall w evs who att ts m, initial w -> Forall event_ok evs ->
  let w1 := final w evs in
  let ev := EvCall who att ts m in
  accepted w1 ev = true ->
  let w2 := step w1 ev in
  (forall a v, In (a, v) (get_votes (w_contract w2)) <->
     poll w (evs ++ [ev]) nobody a = true /\ v = stake_of w2 a /\ 0 < v) /\
  (forall a, poll w (evs ++ [ev]) nobody a = true -> 0 < stake_of w2 a).
Proof. exact votes_are_current_stakes. Qed.
Print Assumptions C24_votes_are_current_stakes.

(** A call changes only the caller's vote (accounts without stake in this epoch are dropped). *)
Theorem C24_only_own_vote :
  forall w evs who att ts m a, initial w -> Forall event_ok evs ->
  let w1 := final w evs in
  let w2 := step w1 (EvCall who att ts m) in
  accepted w1 (EvCall who att ts m) = true -> a <> who -> 0 < stake_of w1 a ->
  (In a (mkeys (get_votes (w_contract w2))) <-> In a (mkeys (get_votes (w_contract w1)))).
Proof. exact only_own_vote. Qed.
Print Assumptions C24_only_own_vote.

(** Two contracts whose hash maps iterate in different orders answer every call alike, and stay
    equal up to the order. *)
Theorem C25_order_irrelevant :
  forall c s s' m,
  NoDup (mkeys (votes s)) -> same_up_to_order s s' ->
  match exec c s m, exec c s' m with
  | Ok r, Ok r' => same_up_to_order r r' /\ (forall a, mget a (get_votes r) = mget a (get_votes r'))
  | Panic _, Panic _ => True
  | _, _ => False
  end.
Proof. exact order_irrelevant. Qed.
Print Assumptions C25_order_irrelevant.
Example C25_applies :
  let s := mkContract [("alice", 40); ("bob", 20)] 60 None 7 in
  let s' := mkContract [("bob", 20); ("alice", 40)] 60 None 7 in
  let c := mkCtx "carol" 0 8 9 vals1 in
  same_up_to_order s s' /\ is_ok (exec c s (Vote true)) = true.
Proof. split; [|reflexivity]. repeat split; cbn; auto. apply perm_swap. Qed.

(** C74. The contract is created once and starts with no vote and no result. *)
Theorem C74_voting_created :
  forall ex, (is_ok (new ex) = true <-> ex = false) /\
  forall s0, new ex = Ok s0 -> get_votes s0 = [] /\ get_result s0 = None /\
    forall c, fst (get_total_voted_stake c s0) = 0.
Proof. exact created. Qed.
Print Assumptions C74_voting_created.
