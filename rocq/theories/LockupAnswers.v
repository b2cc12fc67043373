(** What the methods of the lockup contract give back to their callers: lockup/src/{owner,owner_callbacks,
    foundation,foundation_callbacks}.rs. A method that gives back a promise is answered by what the promise ends
    with; of a request with a callback this is what the callback gives back. Definitions only. *)
From Coq Require Import NArith List Bool.
From Verif Require Import Prelude LockupModel.
Import ListNotations.
Open Scope N_scope.

Inductive returned :=
| RNothing               (** the method has no result *)
| RBool (b : bool)
| RPromise.              (** the promise that the method has made *)

(** [is_promise_success()] as the last expression. *)
Definition success (c : ctx) : returned :=
  RBool match ctx_results c with [Some _] => true | _ => false end.
(** [if balance.0 > 0 { ... .into() } else { ... PromiseOrValue::Value(true) }] for the [#[callback]] balance. *)
Definition unless_zero (c : ctx) : returned :=
  match ctx_results c with
  | Some (ABalance x) :: _ => if 0 <? x then RPromise else RBool true
  | _ => RNothing   (* the call panics *)
  end.

(** What an accepted call gives back. *)
Definition returns (c : ctx) (m : call) : returned :=
  match m with
  (* lockup/src/owner.rs:12, 81, 127, 176, 216, 259, 301, 344, 387, 428, 467, 502: [-> Promise] *)
  | SelectStakingPool _ | DepositToStakingPool _ | DepositAndStake _ | RefreshStakingPoolBalance
  | WithdrawFromStakingPool _ | WithdrawAllFromStakingPool | Stake _ | Unstake _ | UnstakeAll
  | CheckTransfersVote | Transfer _ _ | AddFullAccessKey _ => RPromise
  (* lockup/src/owner.rs:49 *)
  | UnselectStakingPool => RNothing
  (* lockup/src/foundation.rs:15-18 *)
  | TerminateVesting _ => RNothing
  (* lockup/src/foundation.rs:58, 134: [-> Promise] *)
  | TerminationPrepareToWithdraw | TerminationWithdraw _ => RPromise
  (* lockup/src/owner_callbacks.rs:24 *)
  | OnWhitelistIsWhitelisted _ => RBool true
  (* lockup/src/owner_callbacks.rs:61, 99, 144, 180, 216, 250 *)
  | OnStakingPoolDeposit _ | OnStakingPoolDepositAndStake _ | OnStakingPoolWithdraw _
  | OnStakingPoolStake _ | OnStakingPoolUnstake _ | OnStakingPoolUnstakeAll => success c
  (* lockup/src/owner_callbacks.rs:261-277 *)
  | OnGetResultFromTransferPoll =>
      match ctx_results c with Some (APollResult (Some _)) :: _ => RBool true | _ => RBool false end
  (* lockup/src/owner_callbacks.rs:281 *)
  | OnGetAccountTotalBalance => RNothing
  (* lockup/src/owner_callbacks.rs:298-339 *)
  | OnGetAccountUnstakedBalanceToWithdrawByOwner => unless_zero c
  (* lockup/src/foundation_callbacks.rs:9-53, 95-139 *)
  | OnGetAccountStakedBalanceToUnstake | OnGetAccountUnstakedBalanceToWithdraw => unless_zero c
  (* lockup/src/foundation_callbacks.rs:90, 184, 240 *)
  | OnStakingPoolUnstakeForTermination _ | OnStakingPoolWithdrawForTermination _
  | OnWithdrawUnvestedAmount _ _ => success c
  end.
