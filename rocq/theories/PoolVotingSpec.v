(** A staking pool and the voting contract together: the votes of the pool travel as messages, one at a time
    and in any order. Specification: both contracts are used only through the worlds of their own
    specifications. The two count epochs on their own, which leaves more histories than there are. *)
From Coq Require Import NArith List Bool String.
From Verif Require Import Prelude Messages.
From Verif Require StakingPoolModel StakingPoolSpec VotingModel VotingSpec.
Import ListNotations.
Open Scope N_scope.
Module SM := StakingPoolModel.
Module SS := StakingPoolSpec.
Module VM := VotingModel.
Module VS := VotingSpec.

Record world := mkWorld {
  w_pool : SS.world;
  w_voting : VS.world;
  w_ballots : list bool    (** votes on their way from the pool to the voting contract *)
}.

Inductive event :=
| EPool (ev : SS.event)                            (** anything that can happen to the pool *)
| EBallot (n : nat) (gas : bool) (timestamp : N)   (** vote number [n] arrives; it is lost for lack of gas *)
| EVoting (ev : VS.event).                         (** a call of the voting contract by others, or an epoch *)

Section Pair.
Variables self voting : account_id.    (** the accounts of the pool and of the voting contract *)

(** The votes for this voting contract among the promises of a call. *)
Definition ballots (o : option (list SM.promise)) : list bool :=
  match o with
  | Some ps => flat_map (fun q => match q with
                                  | SM.PVote a b => if String.eqb a voting then [b] else []
                                  | _ => []
                                  end) ps
  | None => []
  end.

(** What the voting contract sees of an event. The pool's account has no access keys: it calls the voting
    contract only through the promises of the pool. *)
Definition voting_event (w : world) (ev : event) : option VS.event :=
  match ev with
  | EPool _ => None
  | EBallot n gas ts =>
      match nth_error (w_ballots w) n with
      | Some b => if gas then Some (VS.EvCall self 0 ts (VM.Vote b)) else None
      | None => None
      end
  | EVoting (VS.EvCall who _ _ _ as e) => if String.eqb who self then None else Some e
  | EVoting e => Some e
  end.

Definition step (w : world) (ev : event) : world :=
  let v := match voting_event w ev with Some e => VS.step (w_voting w) e | None => w_voting w end in
  match ev with
  | EPool e => mkWorld (fst (SS.step self (w_pool w) e)) v (w_ballots w ++ ballots (snd (SS.step self (w_pool w) e)))
  | EBallot n _ _ => mkWorld (w_pool w) v (drop_nth n (w_ballots w))
  | EVoting _ => mkWorld (w_pool w) v (w_ballots w)
  end.

Fixpoint final (w : world) (evs : list event) : world :=
  match evs with [] => w | ev :: r => final (step w ev) r end.
(** The history of the voting contract. *)
Fixpoint voting_events (w : world) (evs : list event) : list VS.event :=
  match evs with
  | [] => []
  | ev :: r => (match voting_event w ev with Some e => [e] | None => [] end ++ voting_events (step w ev) r)%list
  end.

(** The accepted calls of the pool's [vote] for this voting contract, with their callers. *)
Fixpoint orders (w : world) (evs : list event) : list (account_id * bool) :=
  match evs with
  | [] => []
  | ev :: r =>
      (match ev with
       | EPool (SS.EvCall who _ _ _ (SM.Vote a b) as e) =>
           if String.eqb a voting && match snd (SS.step self (w_pool w) e) with Some _ => true | None => false end
           then [(who, b)] else []
       | _ => []
       end ++ orders (step w ev) r)%list
  end.
(** The votes of the pool that arrived or were lost. *)
Fixpoint arrived (w : world) (evs : list event) : list bool :=
  match evs with
  | [] => []
  | ev :: r =>
      (match ev with
       | EBallot n _ _ => match nth_error (w_ballots w) n with Some b => [b] | None => [] end
       | _ => []
       end ++ arrived (step w ev) r)%list
  end.

(** Vote [b] of the pool arrives by this event. *)
Definition arrives (w : world) (ev : event) (b : bool) (ts : N) : Prop :=
  exists n, ev = EBallot n true ts /\ nth_error (w_ballots w) n = Some b.
(** The voting contract accepts a vote of the pool. *)
Definition counts (w : world) (b : bool) (ts : N) : bool :=
  VS.accepted (w_voting w) (VS.EvCall self 0 ts (VM.Vote b)).
End Pair.

(** The voting contract lists the account among the yes voters. *)
Definition listed (w : world) (a : account_id) : bool := mmem a (VM.get_votes (VS.w_contract (w_voting w))).
(** The voting has ended. *)
Definition over (w : world) : Prop := VM.get_result (VS.w_contract (w_voting w)) <> None.

(** Both contracts right after their initialisation. *)
Record starts (self : account_id) (w : world) : Prop := mkStarts {
  st_pool : SS.initial self (w_pool w);
  st_voting : VS.initial (w_voting w);
  st_ballots : w_ballots w = []
}.
(** The validator sets that epochs bring are sets of validators. *)
Definition event_ok (ev : event) : Prop :=
  match ev with EVoting e => VS.event_ok e | _ => True end.
