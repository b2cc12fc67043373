(** A lockup governed by an account that a multisig guards, as its owner or as its foundation, while what the account
    sends is on its way to the lockup: the frame of Governed with the world of LockupWorld. Specification. *)
From Coq Require Import NArith List Bool String.
From Verif Require Import Prelude LockupModel LockupWorld.
Import ListNotations.
Open Scope N_scope.

Section Lockup.
Variable g : genesis.
Variable governor : account_id.
Definition lockup_accepted (w : world) (e : event) : bool :=
  match snd (step_obs g w e) with BCalled _ _ ok :: _ => ok | _ => false end.
Definition lockup_pays (n : N) : list event := [EIncome n].
Definition lockup_calls (x : unit) (deposit : N) (m : call) : event := ECall governor deposit m.
Definition lockup_said (e : event) : option call :=
  match e with ECall who _ m => if String.eqb who governor then Some m else None | _ => None end.
End Lockup.
