(** The voting contract inside the NEAR runtime: histories of calls and epochs, and the poll the
    properties talk about. Specification: the contract is used only through [exec], [new], views. *)
From Coq Require Import NArith List Bool String Permutation.
From Verif Require Import Prelude VotingModel.
Import ListNotations.
Open Scope N_scope.

(** The contract, the current epoch and the validators of that epoch. *)
Record world := mkWorld {
  w_contract : contract;
  w_epoch : N;
  w_validators : validators
}.

(** Anybody may call any method at any time; an epoch change brings any new set of validators. *)
Inductive event :=
| EvCall (who : account_id) (attached timestamp : N) (m : call)
| EvEpoch (skip : N) (vs : validators).

(** A validator set of the protocol: no account twice, and a total stake below 2^127 (the total
    supply of NEAR is about 2^90 yoctoNEAR). *)
Definition validators_ok (vs : validators) : Prop :=
  NoDup (mkeys vs) /\ 2 * msum (fun s => s) vs < U128_BOUND.

Definition event_ok (ev : event) : Prop :=
  match ev with EvCall _ _ _ _ => True | EvEpoch _ vs => validators_ok vs end.

Definition call_ctx (w : world) (who : account_id) (attached timestamp : N) : ctx :=
  mkCtx who attached (w_epoch w) timestamp (w_validators w).

(** One event. A call that panics changes nothing. *)
Definition step (w : world) (ev : event) : world :=
  match ev with
  | EvCall who att ts m =>
      match exec (call_ctx w who att ts) (w_contract w) m with
      | Ok s => mkWorld s (w_epoch w) (w_validators w)
      | Panic _ => w
      end
  | EvEpoch n vs => mkWorld (w_contract w) (w_epoch w + 1 + n) vs
  end.

Fixpoint final (w : world) (evs : list event) : world :=
  match evs with
  | [] => w
  | ev :: r => final (step w ev) r
  end.

(** A freshly initialised contract in any epoch. *)
Definition initial (w : world) : Prop :=
  new false = Ok (w_contract w) /\ validators_ok (w_validators w).

Definition accepted (w : world) (ev : event) : bool :=
  match ev with
  | EvCall who att ts m => is_ok (exec (call_ctx w who att ts) (w_contract w) m)
  | EvEpoch _ _ => true
  end.

(** * The poll, told without the contract's data

    [yes] is the set of accounts that stand by a yes vote. *)
Definition stake_of (w : world) (a : account_id) : N :=
  match mget a (w_validators w) with Some s => s | None => 0 end.
Definition total_stake (w : world) : N := msum (fun s => s) (w_validators w).

(** The stake, in the current epoch, of the validators in [yes]. *)
Definition stake_for (w : world) (yes : account_id -> bool) : N :=
  fold_right (fun kv acc => (if yes (fst kv) then snd kv else 0) + acc) 0 (w_validators w).

(** More than two thirds of the stake. *)
Definition decided (w : world) (yes : account_id -> bool) : bool :=
  2 * total_stake w <? 3 * stake_for w yes.

(** An accepted call first drops everybody who has no stake in the current epoch. If the remaining
    voters already carry more than two thirds of the stake, the poll is over and the caller's vote is
    not counted any more. Otherwise a vote call sets the caller's vote, and nobody else's. *)
Definition poll_step (w : world) (ev : event) (yes : account_id -> bool) : account_id -> bool :=
  match ev with
  | EvEpoch _ _ => yes
  | EvCall who _ _ m =>
      if accepted w ev then
        let yes1 := fun a => yes a && (0 <? stake_of w a) in
        match m with
        | Ping => yes1
        | Vote v => if decided w yes1 then yes1
                    else fun a => if String.eqb a who then v else yes1 a
        end
      else yes
  end.

Fixpoint poll (w : world) (evs : list event) (yes : account_id -> bool) : account_id -> bool :=
  match evs with
  | [] => yes
  | ev :: r => poll (step w ev) r (poll_step w ev yes)
  end.

Definition nobody : account_id -> bool := fun _ => false.

(** Two contracts that differ only in the iteration order of their hash map. *)
Definition same_up_to_order (s s' : contract) : Prop :=
  Permutation (votes s) (votes s') /\ total_voted_stake s = total_voted_stake s' /\
  result s = result s' /\ last_epoch_height s = last_epoch_height s'.
