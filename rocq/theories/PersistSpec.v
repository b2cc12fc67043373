(** What the theorems about persistence speak of. *)
From Coq Require Import NArith List String.
From Verif Require Import Prelude LockupModel LockupWorld.
Import ListNotations.
Open Scope N_scope.

(** A hash given at the start is one: SHA-256 has 32 bytes. *)
Definition sha_sized (s : contract) : Prop :=
  match vesting_information s with VHash h => slen h <= 32 | _ => True end.
(** The times the voting contract answers with are 64-bit numbers. *)
Definition poll_times_fit (evs : list event) : Prop :=
  Forall (fun ev => match ev with EDeliver _ (OPoll (Some t)) => t < U64_BOUND | _ => True end) evs.
