(** The lockup factory, with every message in flight marked with the number of the call it serves.

    Specification: the factory moves as in [LockupFactorySpec]. *)
From Coq Require Import NArith List Bool String.
From Verif Require Import Prelude Messages LockupFactoryModel LockupFactorySpec FactoryAnswers FactoryStories.
Import ListNotations.
Open Scope N_scope.

Notation lnote := (note call).

Record town := mkTown {
  t_world : world;        (** the factory and its messages *)
  t_for : list nat;       (** for each of these messages, the call it serves *)
  t_next : nat            (** the number of the next call *)
}.

(** The notes of what is observed while call [k] is served. *)
Definition notes_of (k : nat) (l : list obs) : list lnote :=
  flat_map (fun o => match o with
                     | BCreated _ a x _ _ => [NCreated k a x]
                     | BRefund to x => [NSent k to x]
                     | _ => []
                     end) l.
(** The answer of a call of the factory, if it is known at once. *)
Definition answer_of (k : nat) (accepted : bool) (r : res reply) : list lnote :=
  match accepted, r with
  | true, Ok Later => []
  | true, Ok (Now b) => [NAnswer k (SBool b)]
  | _, _ => [NAnswer k SFailed]
  end.
Definition new_for (k : nat) (kept : nat) (w' : world) : list nat :=
  repeat k (List.length (w_msgs w') - kept)%nat.

(** Call [k] is executed, with these results, in world [w] where the messages serve the calls [fors]. *)
Definition serve (g : genesis) (k : nat) (w : world) (fors : list nat) (next : nat)
    (who : account_id) (attached : N) (results : list bool) (m : call) : town * list lnote :=
  match run g w who attached results m with
  | Some (w', l) =>
      (mkTown w' (fors ++ new_for k (List.length (w_msgs w)) w') next,
       notes_of k l ++ answer_of k true (lockup_returns (mkCtx (g_self g) who attached results (g_sha256 g)) m))
  | None => (mkTown w fors next, [NAnswer k SFailed])
  end%list.

Definition track (g : genesis) (t : town) (ev : event) : town * list lnote :=
  match ev with
  | ECall who attached m =>
      let k := t_next t in
      let '(t', l) := serve g k (t_world t) (t_for t) (S k) who attached [] m in
      (t', NCalled k who attached m :: l)
  | ECreate n gas time =>
      match nth_error (w_msgs (t_world t)) n, nth_error (t_for t) n with
      | Some (MCreate _ _ _ _), Some k =>
          let '(w', l) := step_obs g (t_world t) (ECreate n gas time) in
          (mkTown w' (drop_nth n (t_for t) ++ [k]) (t_next t), notes_of k l)
      | _, _ => (t, [])
      end
  | ERun n =>
      match nth_error (w_msgs (t_world t)) n, nth_error (t_for t) n with
      | Some (MBack cb ok), Some k =>
          let w := t_world t in
          serve g k (mkWorld (w_factory w) (w_balance w) (w_accounts w) (drop_nth n (w_msgs w)))
            (drop_nth n (t_for t)) (t_next t) (g_self g) 0 [ok] cb
      | _, _ => (t, [])
      end
  | _ => (mkTown (step g (t_world t) ev) (t_for t) (t_next t), [])
  end%list.

Fixpoint tracked (g : genesis) (t : town) (evs : list event) : town :=
  match evs with [] => t | ev :: r => tracked g (fst (track g t ev)) r end.
Fixpoint notes (g : genesis) (t : town) (evs : list event) : list lnote :=
  match evs with [] => [] | ev :: r => snd (track g t ev) ++ notes g (fst (track g t ev)) r end%list.

Definition town_starts (g : genesis) (whitelist foundation : account_id) (t : town) : Prop :=
  starts g whitelist foundation (t_world t) /\ t_for t = [] /\ t_next t = 0%nat.

Definition serving_call (k : nat) (t : town) : nat := serving k (t_for t).

(** * The stories a call can have *)

(** Refused: the deposit never leaves the caller. *)
Definition refused (k : nat) (l : list lnote) : Prop :=
  exists who x m, l = [NCalled k who x m; NAnswer k SFailed].
(** The call that asks for a lockup for [owner], whose account is [a]. *)
Definition asks_for (g : genesis) (a : account_id) (m : call) : Prop :=
  exists owner duration timestamp vesting release whitelist,
    m = Create owner duration timestamp vesting release whitelist /\
    a = (hex_encode (substring 0 20 (g_sha256 g owner)) ++ "." ++ g_self g)%string.
(** Under way: nothing else has happened yet, or the lockup exists. *)
Definition under_way (g : genesis) (k : nat) (l : list lnote) : Prop :=
  exists who x m a, asks_for g a m /\
    (l = [NCalled k who x m] \/ l = [NCalled k who x m; NCreated k a x]).
(** The lockup could not be created: the whole deposit goes back to the caller, and the answer is [false]. *)
Definition paid_back (g : genesis) (k : nat) (l : list lnote) : Prop :=
  exists who x m a, asks_for g a m /\ l = [NCalled k who x m; NSent k who x; NAnswer k (SBool false)].
(** The lockup was created with the whole deposit, and the answer is [true]. *)
Definition built (g : genesis) (k : nat) (l : list lnote) : Prop :=
  exists who x m a, asks_for g a m /\ l = [NCalled k who x m; NCreated k a x; NAnswer k (SBool true)].

(** * Reading the plain history of the factory *)
Definition logged_creations (l : list obs) : list (account_id * N) :=
  flat_map (fun o => match o with BCreated _ a x _ _ => [(a, x)] | _ => [] end) l.
Definition incoming_calls (evs : list event) : list (account_id * N * call) :=
  flat_map (fun ev => match ev with ECall who x m => [(who, x, m)] | _ => [] end) evs.
