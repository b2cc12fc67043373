(** The multisig factory, with every creation in flight marked with the number of the call it serves.

    Specification: the factory moves as in [MultisigFactorySpec]. *)
From Coq Require Import NArith List Bool String.
From Verif Require Import Prelude Messages MultisigFactoryModel MultisigFactorySpec FactoryAnswers FactoryStories.
Import ListNotations.
Open Scope N_scope.

(** A call: the name, the members and the number of confirmations. *)
Definition mcall := (string * list member * N)%type.
Notation mnote := (note mcall).

Record town := mkTown {
  t_world : world;        (** the factory and the creations in flight *)
  t_for : list nat;       (** for each of these creations, the call it serves *)
  t_next : nat            (** the number of the next call *)
}.

(** The notes of what is observed while call [k] is served. *)
Definition notes_of (k : nat) (l : list obs) : list mnote :=
  flat_map (fun o => match o with
                     | BCreated _ a x _ => [NCreated k a x]
                     | BSent to x => [NSent k to x]
                     | _ => []
                     end) l.
(** Is a creation among what is observed? *)
Definition succeeded (l : list obs) : bool :=
  existsb (fun o => match o with BCreated _ _ _ _ => true | _ => false end) l.

Definition track (self : account_id) (t : town) (ev : event) : town * list mnote :=
  let '(w', l) := step_obs self (t_world t) ev in
  match ev with
  | ECreateCall who attached gas name ms n =>
      let k := t_next t in
      let more := (List.length (w_msgs w') - List.length (w_msgs (t_world t)))%nat in
      (mkTown w' (t_for t ++ repeat k more) (S k),
       NCalled k who attached (name, ms, n) :: notes_of k l ++
       (* the call has failed, or its answer is the creation's *)
       match more, multisig_returns with
       | O, _ => [NAnswer k SFailed]
       | _, Later => []
       | _, Now b => [NAnswer k (SBool b)]
       end)
  | ECreate n gas =>
      match nth_error (t_for t) n with
      | Some k => (mkTown w' (drop_nth n (t_for t)) (t_next t),
                   notes_of k l ++ [NAnswer k (if succeeded l then SNothing else SFailed)])
      | None => (t, [])
      end
  | _ => (mkTown w' (t_for t) (t_next t), [])
  end%list.

Fixpoint tracked (self : account_id) (t : town) (evs : list event) : town :=
  match evs with [] => t | ev :: r => tracked self (fst (track self t ev)) r end.
Fixpoint notes (self : account_id) (t : town) (evs : list event) : list mnote :=
  match evs with [] => [] | ev :: r => snd (track self t ev) ++ notes self (fst (track self t ev)) r end%list.

Definition town_starts (t : town) : Prop := w_msgs (t_world t) = [] /\ t_for t = [] /\ t_next t = 0%nat.

Definition serving_call (k : nat) (t : town) : nat := serving k (t_for t).

(** * The stories a call can have *)

(** Refused: the deposit never leaves the caller. *)
Definition refused (k : nat) (l : list mnote) : Prop :=
  exists who x m, l = [NCalled k who x m; NAnswer k SFailed].
(** Under way: nothing else has happened yet. *)
Definition under_way (k : nat) (l : list mnote) : Prop := exists who x m, l = [NCalled k who x m].
(** The multisig could not be created: the call fails, and the whole deposit stays with the factory. *)
Definition lost (self : account_id) (k : nat) (l : list mnote) : Prop :=
  exists who x m, l = [NCalled k who x m; NSent k self x; NAnswer k SFailed].
(** The multisig was created with the whole deposit, and the call succeeds. *)
Definition built (self : account_id) (k : nat) (l : list mnote) : Prop :=
  exists who x name ms n,
    l = [NCalled k who x (name, ms, n); NCreated k (name ++ "." ++ self)%string x; NAnswer k SNothing].

(** * Reading the plain history of the factory *)
Definition logged_creations (l : list obs) : list (account_id * N) :=
  flat_map (fun o => match o with BCreated _ a x _ => [(a, x)] | _ => [] end) l.
Definition logged_payments (l : list obs) : list (account_id * N) :=
  flat_map (fun o => match o with BSent to x => [(to, x)] | _ => [] end) l.
Definition incoming_calls (evs : list event) : list (account_id * N * mcall) :=
  flat_map (fun ev => match ev with ECreateCall who x _ name ms n => [(who, x, (name, ms, n))] | _ => [] end) evs.
