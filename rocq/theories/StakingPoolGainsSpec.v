(** Specification for C118: what reaches the pool's account without being attached to a call. *)
From Coq Require Import NArith List.
From Verif Require Import Prelude StakingPoolModel StakingPoolSpec.
Import ListNotations.
Open Scope N_scope.

(** Validator rewards, gas rebates and plain transfers in a history. *)
Definition income (evs : list event) : N :=
  sumN (fun e => match e with EvIncome a => a | _ => 0 end) evs.
