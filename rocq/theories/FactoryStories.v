(** The story of a call: everything that happens on behalf of one call of a factory, from the call to its answer.

    Specification shared by the three factories. *)
From Coq Require Import NArith List Bool String Arith.
From Verif Require Import Prelude.
Import ListNotations.

(** What the caller of a method gets in the end. *)
Inductive seen :=
| SFailed                  (** a failure *)
| SNothing                 (** success, without a value *)
| SBool (b : bool).        (** success, with this value *)

(** What happens, with the number of the call it happens for. [C] is the type of the calls. *)
Inductive note (C : Type) :=
| NCalled (k : nat) (who : account_id) (attached : N) (m : C)   (** call [k] arrives *)
| NCreated (k : nat) (a : account_id) (amount : N)         (** account [a] is created, with [amount] tokens *)
| NSent (k : nat) (to : account_id) (amount : N)           (** [amount] tokens are sent to [to] *)
| NListed (k : nat) (a : account_id) (answer : option bool)
                    (** the whitelist has executed the request to add [a]; [None] if it failed *)
| NAnswer (k : nat) (s : seen).                                 (** the answer of call [k] *)
Arguments NCalled {C}. Arguments NCreated {C}. Arguments NSent {C}. Arguments NListed {C}. Arguments NAnswer {C}.

Definition number {C} (n : note C) : nat :=
  match n with
  | NCalled k _ _ _ | NCreated k _ _ | NSent k _ _ | NListed k _ _ | NAnswer k _ => k
  end.

(** The story of call [k], oldest first. *)
Definition story {C} (k : nat) (l : list (note C)) : list (note C) :=
  filter (fun n => Nat.eqb (number n) k) l.

(** The answers among notes. *)
Definition answers {C} (l : list (note C)) : list seen :=
  flat_map (fun n => match n with NAnswer _ s => [s] | _ => [] end) l.
(** The calls, creations and payments among notes, without the numbers. *)
Definition calls_made {C} (l : list (note C)) : list (account_id * N * C) :=
  flat_map (fun n => match n with NCalled _ who x m => [(who, x, m)] | _ => [] end) l.
Definition creations {C} (l : list (note C)) : list (account_id * N) :=
  flat_map (fun n => match n with NCreated _ a x => [(a, x)] | _ => [] end) l.
Definition payments {C} (l : list (note C)) : list (account_id * N) :=
  flat_map (fun n => match n with NSent _ to x => [(to, x)] | _ => [] end) l.

(** How many messages in flight serve call [k], given the numbers of the calls they serve. *)
Definition serving (k : nat) (l : list nat) : nat := count_occ Nat.eq_dec l k.
