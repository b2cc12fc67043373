(** The staking pool factory and the whitelist it asks, with every message in flight marked with the number of the
    call it serves.

    Specification: the factory moves as in [PoolFactorySpec], the whitelist is used only through its [exec]. *)
From Coq Require Import NArith List Bool String.
From Verif Require Import Prelude Messages PoolFactoryModel PoolFactorySpec FactoryAnswers FactoryStories.
From Verif Require WhitelistModel.
Import ListNotations.
Open Scope N_scope.
Module WM := WhitelistModel.

Notation pnote := (note call).

Record town := mkTown {
  t_world : world;                                    (** the factory and its messages *)
  t_for : list nat;                                   (** for each of these messages, the call it serves *)
  t_list : WM.contract;                               (** the whitelist *)
  t_asks : list (nat * (account_id * account_id));    (** requests in flight: call, contract asked, pool *)
  t_next : nat                                        (** the number of the next call *)
}.

Inductive happening :=
| HFactory (ev : event)                                       (** something happens to the factory *)
| HList (who : account_id) (attached : N) (m : WM.call)       (** somebody calls the whitelist *)
| HAsk (n : nat) (enough_gas : bool).                         (** request [n] in flight is executed *)

(** The notes of what is observed while call [k] is served. *)
Definition notes_of (k : nat) (l : list obs) : list pnote :=
  flat_map (fun o => match o with
                     | BCreated _ a x _ => [NCreated k a x]
                     | BRefund to x => [NSent k to x]
                     | _ => []
                     end) l.
(** The requests to a whitelist among what is observed. *)
Definition asks_of (k : nat) (l : list obs) : list (nat * (account_id * account_id)) :=
  flat_map (fun o => match o with BWhitelist wl a => [(k, (wl, a))] | _ => [] end) l.
(** The answer of a call of the factory, if it is known at once. *)
Definition answer_of (k : nat) (accepted : bool) (r : res reply) : list pnote :=
  match accepted, r with
  | true, Ok Later => []
  | true, Ok (Now b) => [NAnswer k (SBool b)]
  | _, _ => [NAnswer k SFailed]
  end.

(** The messages that [w'] has and [w] has not serve call [k]. *)
Definition new_for (k : nat) (kept : nat) (w' : world) : list nat :=
  repeat k (List.length (w_msgs w') - kept)%nat.

(** Call [k] is executed, with these results, in world [w] where the messages serve the calls [fors]. *)
Definition serve (self : account_id) (k : nat) (w : world) (fors : list nat) (t : town) (next : nat)
    (who : account_id) (attached : N) (results : list bool) (m : call) : town * list pnote :=
  match run self w who attached results m with
  | Some (w', l) =>
      (mkTown w' (fors ++ new_for k (List.length (w_msgs w)) w') (t_list t) (t_asks t ++ asks_of k l) next,
       notes_of k l ++ answer_of k true (pool_returns (mkCtx self who attached results) m))
  | None => (mkTown w fors (t_list t) (t_asks t) next, [NAnswer k SFailed])
  end%list.

(** [wl]: the account of the whitelist. A request to any other account fails. *)
Definition track (self wl : account_id) (t : town) (h : happening) : town * list pnote :=
  match h with
  | HFactory (ECall who attached m) =>
      let k := t_next t in
      let '(t', l) := serve self k (t_world t) (t_for t) t (S k) who attached [] m in
      (t', NCalled k who attached m :: l)
  | HFactory (ECreate n gas epoch) =>
      match nth_error (w_msgs (t_world t)) n, nth_error (t_for t) n with
      | Some (MCreate _ _ _ _), Some k =>
          let '(w', l) := step_obs self (t_world t) (ECreate n gas epoch) in
          (mkTown w' (drop_nth n (t_for t) ++ [k]) (t_list t) (t_asks t) (t_next t), notes_of k l)
      | _, _ => (t, [])
      end
  | HFactory (ERun n) =>
      match nth_error (w_msgs (t_world t)) n, nth_error (t_for t) n with
      | Some (MBack cb ok), Some k =>
          let w := t_world t in
          serve self k (mkWorld (w_factory w) (w_balance w) (w_accounts w) (drop_nth n (w_msgs w)))
            (drop_nth n (t_for t)) t (t_next t) self 0 [ok] cb
      | _, _ => (t, [])
      end
  | HFactory ev =>
      (mkTown (step self (t_world t) ev) (t_for t) (t_list t) (t_asks t) (t_next t), [])
  | HList who attached m =>
      match WM.exec (WM.mkCtx who attached) (t_list t) m with
      | Ok (l, _) => (mkTown (t_world t) (t_for t) l (t_asks t) (t_next t), [])
      | Panic _ => (t, [])
      end
  | HAsk n gas =>
      match nth_error (t_asks t) n with
      | Some (k, (target, a)) =>
          let rest := drop_nth n (t_asks t) in
          let failed := (mkTown (t_world t) (t_for t) (t_list t) rest (t_next t),
                         [NListed k a None; NAnswer k SFailed]) in
          if String.eqb target wl && gas then
            match WM.exec (WM.mkCtx self 0) (t_list t) (WM.AddStakingPool a) with
            | Ok (l, b) => (mkTown (t_world t) (t_for t) l rest (t_next t),
                            [NListed k a (Some b); NAnswer k (SBool b)])
            | Panic _ => failed
            end
          else failed
      | None => (t, [])
      end
  end%list.

Fixpoint tracked (self wl : account_id) (t : town) (hs : list happening) : town :=
  match hs with [] => t | h :: r => tracked self wl (fst (track self wl t h)) r end.
Fixpoint notes (self wl : account_id) (t : town) (hs : list happening) : list pnote :=
  match hs with [] => [] | h :: r => snd (track self wl t h) ++ notes self wl (fst (track self wl t h)) r end%list.

(** A town right after the factory's initialisation. *)
Definition town_starts (wl : account_id) (t : town) : Prop :=
  starts wl (t_world t) /\ t_for t = [] /\ t_asks t = [] /\ t_next t = 0%nat.

(** What happens to the factory. *)
Definition events (hs : list happening) : list event :=
  flat_map (fun h => match h with HFactory ev => [ev] | _ => [] end) hs.

(** The messages in flight that serve call [k]. *)
Definition serving_call (k : nat) (t : town) : nat := serving k (t_for t ++ map fst (t_asks t))%list.

(** * The stories a call can have *)

(** Refused: the deposit never leaves the caller. *)
Definition refused (k : nat) (l : list pnote) : Prop :=
  exists who x m, l = [NCalled k who x m; NAnswer k SFailed].
(** The call by which [who], attaching [x], asks for the pool [a]. *)
Definition asks_for (self : account_id) (a : account_id) (m : call) : Prop :=
  exists name owner key fee, m = CreateStakingPool name owner key fee /\ direct_subaccount self name a.
(** Under way: nothing else has happened yet, or the pool exists and is not known to the whitelist's answer. *)
Definition under_way (self : account_id) (k : nat) (l : list pnote) : Prop :=
  exists who x m a, asks_for self a m /\
    (l = [NCalled k who x m] \/ l = [NCalled k who x m; NCreated k a x]).
(** The pool could not be created: the whole deposit goes back to the caller, and the answer is [false]. *)
Definition paid_back (self : account_id) (k : nat) (l : list pnote) : Prop :=
  exists who x m a, asks_for self a m /\ l = [NCalled k who x m; NSent k who x; NAnswer k (SBool false)].
(** The pool was created with the whole deposit, and the answer is the whitelist's. *)
Definition built (self : account_id) (k : nat) (answer : option bool) (l : list pnote) : Prop :=
  exists who x m a, asks_for self a m /\
    l = [NCalled k who x m; NCreated k a x; NListed k a answer;
         NAnswer k match answer with Some b => SBool b | None => SFailed end].

(** * Reading the plain history of the factory *)
Definition logged_creations (l : list obs) : list (account_id * N) :=
  flat_map (fun o => match o with BCreated _ a x _ => [(a, x)] | _ => [] end) l.
Definition incoming_calls (evs : list event) : list (account_id * N * call) :=
  flat_map (fun ev => match ev with ECall who x m => [(who, x, m)] | _ => [] end) evs.
