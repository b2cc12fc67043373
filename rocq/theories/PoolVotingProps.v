(** The property of a staking pool that votes (C94). *)
From Coq Require Import NArith List Bool String Permutation Lia.
From Verif Require Import Prelude Messages PoolVotingSpec PoolVotingProofs.
From Verif Require StakingPoolModel StakingPoolSpec VotingModel VotingSpec.
Import ListNotations.
Open Scope string_scope.
Open Scope N_scope.

(** * A concrete history

    The owner orders a no and a yes; the yes arrives first, is counted, and the no takes it back. A
    stranger's order is refused, a stranger who claims to be the pool is not heard, and an order for another
    voting contract stays away from this one. *)
Definition demo_pool : SM.pool :=
  SM.mkPool "owner" "key" 7 (10 ^ 25) (10 ^ 25 - 10 ^ 12) (10 ^ 25 - 10 ^ 12) (SM.mkFraction 10 100) [] false.
Definition w0 : world :=
  mkWorld (SS.mkWorld demo_pool (10 ^ 25) 7)
          (VS.mkWorld (VM.mkContract [] 0 None 0) 7 [("pool", 40); ("bob", 60)]) [].
Definition order (who voting : account_id) (b : bool) : event :=
  EPool (SS.EvCall who 0 0 [] (SM.Vote voting b)).
Definition evs1 : list event :=
  [order "owner" "voting" false; order "eve" "voting" true; order "owner" "other" true;
   order "owner" "voting" true; EVoting (VS.EvCall "pool" 0 1 (VM.Vote true)); EBallot 1 true 2].
Definition evs2 : list event := evs1 ++ [EBallot 0 true 3].

Example demo_starts : starts "pool" w0.
Proof.
  constructor.
  - exists (SM.mkCtx "pool" "factory" 0 (10 ^ 25) 0 7 []), "owner", "key", (SM.mkFraction 10 100),
      [SM.PStake (10 ^ 25 - 10 ^ 12) "key" true].
    vm_compute. repeat split; reflexivity.
  - split; [reflexivity|]. split; [|reflexivity]. cbn. repeat constructor; cbn; intuition congruence.
  - reflexivity.
Qed.
Example demo_events : Forall event_ok evs2.
Proof. repeat constructor. Qed.

(** Every vote that leaves the pool was ordered by its owner, and every order makes exactly one vote: what
    was ordered is what arrived (or was lost on arrival) and what is still on its way. *)
Theorem C94_votes_are_the_owners :
  forall self voting w0 evs, starts self w0 ->
  Permutation (map snd (orders self voting w0 evs))
              (arrived self voting w0 evs ++ w_ballots (final self voting w0 evs)) /\
  (forall who b, In (who, b) (orders self voting w0 evs) -> who = SM.owner_id (SS.w_pool (w_pool w0))).
Proof.
  intros self voting w evs [IP _ IB]. split.
  - pose proof (ledger self voting evs w) as L. rewrite IB in L. exact L.
  - intros who b. now apply ordered_by_owner.
Qed.
Print Assumptions C94_votes_are_the_owners.
Example C94_votes_applies :
  orders "pool" "voting" w0 evs1 = [("owner", false); ("owner", true)] /\
  arrived "pool" "voting" w0 evs1 = [true] /\
  w_ballots (final "pool" "voting" w0 evs1) = [false].
Proof. vm_compute. auto. Qed.

(** When the voting contract lists the pool among the yes voters, a yes vote of the pool arrived and was
    counted, and every no vote of the pool that arrived later was refused or found the voting decided: right after it
    the voting was over. *)
Theorem C94_listed_by_the_last_vote :
  forall self voting w0 evs, starts self w0 -> Forall event_ok evs ->
  listed (final self voting w0 evs) self = true ->
  exists evs1 ev ts evs2,
    evs = (evs1 ++ ev :: evs2)%list /\
    arrives (final self voting w0 evs1) ev true ts /\
    counts self (final self voting w0 evs1) true ts = true /\
    (forall evs3 ev' ts' evs4, evs2 = (evs3 ++ ev' :: evs4)%list ->
       let w' := final self voting w0 (evs1 ++ ev :: evs3)%list in
       arrives w' ev' false ts' -> counts self w' false ts' = true -> over (step self voting w' ev')).
Proof. intros self voting w evs [_ IV _]. now apply listed_by_yes. Qed.
Print Assumptions C94_listed_by_the_last_vote.
Example C94_listed_applies :
  listed (final "pool" "voting" w0 evs1) "pool" = true /\
  listed (final "pool" "voting" w0 evs2) "pool" = false.
Proof. vm_compute. auto. Qed.

(** While the voting is open the owner can make the pool vote as they like (a yes vote needs stake in the
    current epoch): they order it, the vote arrives, and the pool is listed accordingly, unless the voting
    ends by it. *)
Theorem C94_owner_can_vote :
  forall self voting w0 evs b ts, starts self w0 -> Forall event_ok evs ->
  let w := final self voting w0 evs in
  let owner := SM.owner_id (SS.w_pool (w_pool w0)) in
  owner <> self -> is_valid_account_id voting = true -> ~ over w ->
  (b = true -> 0 < VS.stake_of (w_voting w) self) ->
  let w' := final self voting w [EPool (SS.EvCall owner 0 0 [] (SM.Vote voting b));
                                 EBallot (List.length (w_ballots w)) true ts] in
  over w' \/ listed w' self = b.
Proof. intros self voting w evs b ts. exact (owner_votes self voting w evs b ts). Qed.
Print Assumptions C94_owner_can_vote.
Example C94_can_vote_applies :
  let w := final "pool" "voting" w0 evs2 in
  SM.owner_id (SS.w_pool (w_pool w0)) = "owner" /\ is_valid_account_id "voting" = true /\
  ~ over w /\ VS.stake_of (w_voting w) "pool" = 40 /\
  listed (final "pool" "voting" w [order "owner" "voting" true; EBallot 0 true 9]) "pool" = true.
Proof. vm_compute. repeat split; auto. Qed.
