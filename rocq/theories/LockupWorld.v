(** The world around one lockup contract: its account balance, the messages in flight between it and the
    whitelist, the voting contract, the staking pools and the receivers of transfers, and what it owns at the
    staking pools. Messages are delivered one at a time, in any order.

    Specification: the contract is used only through [exec]. Not modelled: gas (a call never fails for lack
    of gas) and what the owner does with a full access key once one has been added. *)
From Coq Require Import NArith List Bool String.
From Verif Require Import Prelude LockupModel.
Import ListNotations.
Open Scope N_scope.

(** A message in flight. *)
Inductive msg :=
| MCall (r : remote) (cb : option call)        (** a request, with the tokens attached to it *)
| MBack (cb : call) (result : option answer)   (** the request was executed; its callback is due *)
| MTokens (amount : N).                        (** tokens on the way to the lockup account *)

Record world := mkWorld {
  w_lockup : contract;
  w_balance : N;                               (** balance of the lockup account *)
  w_time : N;                                  (** block time *)
  w_pools : account_id -> N * N;               (** the lockup's staked and unstaked balance at each pool *)
  w_msgs : list msg
}.

(** What does not change: the id of the lockup account, and the hash function. *)
Record genesis := mkGenesis {
  g_self : account_id;
  g_hash : vesting_schedule -> string -> string
}.

(** How a request ends. *)
Inductive outcome :=
| OFail                            (** it fails; tokens attached to it come back *)
| ODone                            (** a transfer or a new key: done *)
| OBool (b : bool)                 (** the whitelist answers *)
| OPoll (r : option N)             (** the voting contract answers *)
| OView                            (** a staking pool answers a view *)
| OPool (staked unstaked : N).     (** a staking pool executes it; the new balances of the lockup *)

Inductive event :=
| ETime (t : N)                                      (** time passes *)
| EIncome (x : N)                                    (** somebody sends tokens to the lockup account *)
| EGrowth (p : account_id) (staked unstaked : N)     (** the balances at a pool change by themselves *)
| ECall (who : account_id) (attached : N) (m : call) (** somebody calls any method *)
| EDeliver (n : nat) (o : outcome)                   (** request number [n] in flight is executed *)
| ERun (n : nat).                                    (** message number [n] reaches the lockup account *)

(** The guarantee expected of a staking pool: the total never drops by itself, a deposit is credited in full,
    a withdrawal is paid out of the unstaked balance, and balances are 128-bit numbers. *)
Definition pool_keeps (op : pool_op) (old new : N * N) : bool :=
  let '(s, u) := old in
  let '(s', u') := new in
  (s' + u' <? U128_BOUND) &&
  match op with
  | PDeposit a | PDepositAndStake a => s + u + a <=? s' + u'
  | PWithdraw a => (a <=? u) && (s + u <=? s' + u' + a)
  | PStake _ | PUnstake _ | PUnstakeAll => s + u <=? s' + u'
  | PGetStaked | PGetUnstaked | PGetTotal => false
  end.

Definition is_view (op : pool_op) : bool :=
  match op with PGetStaked | PGetUnstaked | PGetTotal => true | _ => false end.
Definition view_answer (op : pool_op) (b : N * N) : N :=
  match op with PGetStaked => fst b | PGetUnstaked => snd b | _ => fst b + snd b end.

Definition set_pool (f : account_id -> N * N) (p : account_id) (b : N * N) : account_id -> N * N :=
  fun q => if String.eqb q p then b else f q.

Fixpoint drop_nth {A} (n : nat) (l : list A) : list A :=
  match l, n with
  | [], _ => []
  | _ :: r, O => r
  | x :: r, S k => x :: drop_nth k r
  end.

(** What an observer sees. *)
Inductive obs :=
| BCalled (who : account_id) (m : call) (ok : bool)         (** a call by another account *)
| BCallback (m : call) (result : option answer) (ok : bool) (** a callback *)
| BSent (r : remote)                                        (** the lockup sent a request *)
| BAnswered (r : remote) (a : answer)                       (** the whitelist or the voting contract answered *)
| BPaid (to : account_id) (amount : N) (unvested : bool).   (** a transfer arrived; [unvested]: it was made by
                                                                 the termination *)

Definition back (cb : option call) (r : option answer) : list msg :=
  match cb with Some m => [MBack m r] | None => [] end.
Definition tokens (a : N) : list msg := if a =? 0 then [] else [MTokens a].

(** One call of the contract. *)
Definition run (g : genesis) (w : world) (who : account_id) (attached : N) (results : list (option answer))
    (m : call) : option world * list obs :=
  match exec (mkCtx (g_self g) who attached (w_time w) (w_balance w + attached) results (g_hash g))
             (w_lockup w) m with
  | Ok (s, None) => (Some (mkWorld s (w_balance w) (w_time w) (w_pools w) (w_msgs w)), [])
  | Ok (s, Some p) =>
      if attached_to (p_remote p) <=? w_balance w
      then (Some (mkWorld s (w_balance w - attached_to (p_remote p)) (w_time w) (w_pools w)
                    (w_msgs w ++ [MCall (p_remote p) (option_map fst (p_then p))])), [BSent (p_remote p)])
      else (None, [])
  | Panic _ => (None, [])
  end.

(** The receiver executes a request. [None]: this is not how such a request can end. *)
Definition execute (w : world) (r : remote) (cb : option call) (o : outcome)
    : option ((account_id -> N * N) * list msg * list obs) :=
  match o with
  | OFail =>
      match r with
      | RAddFullAccessKey _ => None
      | _ => Some (w_pools w, tokens (attached_to r) ++ back cb None, [])%list
      end
  | ODone =>
      match r with
      | RTransfer to a => Some (w_pools w, back cb (Some AVoid),
                                [BPaid to a match cb with Some _ => true | None => false end])
      | RAddFullAccessKey _ => Some (w_pools w, back cb (Some AVoid), [])
      | _ => None
      end
  | OBool b =>
      match r with
      | RIsWhitelisted _ _ => Some (w_pools w, back cb (Some (ABool b)), [BAnswered r (ABool b)])
      | _ => None
      end
  | OPoll x =>
      match r with
      | RGetResult _ => Some (w_pools w, back cb (Some (APollResult x)), [BAnswered r (APollResult x)])
      | _ => None
      end
  | OView =>
      match r with
      | RPool p op => if is_view op
                      then Some (w_pools w, back cb (Some (ABalance (view_answer op (w_pools w p)))), [])
                      else None
      | _ => None
      end
  | OPool s u =>
      match r with
      | RPool p op => if pool_keeps op (w_pools w p) (s, u)
                      then Some (set_pool (w_pools w) p (s, u),
                                 match op with PWithdraw a => tokens a | _ => [] end ++ back cb (Some AVoid), [])%list
                      else None
      | _ => None
      end
  end.

Definition step_obs (g : genesis) (w : world) (ev : event) : world * list obs :=
  match ev with
  | ETime t =>
      if (w_time w <=? t) && (t <? U64_BOUND)
      then (mkWorld (w_lockup w) (w_balance w) t (w_pools w) (w_msgs w), []) else (w, [])
  | EIncome x => (mkWorld (w_lockup w) (w_balance w + x) (w_time w) (w_pools w) (w_msgs w), [])
  | EGrowth p s u =>
      if (fst (w_pools w p) + snd (w_pools w p) <=? s + u) && (s + u <? U128_BOUND)
      then (mkWorld (w_lockup w) (w_balance w) (w_time w) (set_pool (w_pools w) p (s, u)) (w_msgs w), [])
      else (w, [])
  | ECall who attached m =>
      if String.eqb who (g_self g) then (w, [])
      else match run g w who attached [] m with
           | (Some w', l) => (w', BCalled who m true :: l)
           | (None, _) => (w, [BCalled who m false])
           end
  | EDeliver n o =>
      match nth_error (w_msgs w) n with
      | Some (MCall r cb) =>
          match execute w r cb o with
          | Some (pools, new, l) =>
              (mkWorld (w_lockup w) (w_balance w) (w_time w) pools (drop_nth n (w_msgs w) ++ new)%list, l)
          | None => (w, [])
          end
      | _ => (w, [])
      end
  | ERun n =>
      match nth_error (w_msgs w) n with
      | Some (MTokens a) =>
          (mkWorld (w_lockup w) (w_balance w + a) (w_time w) (w_pools w) (drop_nth n (w_msgs w)), [])
      | Some (MBack m r) =>
          let w1 := mkWorld (w_lockup w) (w_balance w) (w_time w) (w_pools w) (drop_nth n (w_msgs w)) in
          match run g w1 (g_self g) 0 [r] m with
          | (Some w', l) => (w', BCallback m r true :: l)
          | (None, _) => (w1, [BCallback m r false])
          end
      | _ => (w, [])
      end
  end.

Definition step (g : genesis) (w : world) (ev : event) : world := fst (step_obs g w ev).
Fixpoint final (g : genesis) (w : world) (evs : list event) : world :=
  match evs with [] => w | ev :: r => final g (step g w ev) r end.
(** Everything observed, oldest first. *)
Fixpoint log (g : genesis) (w : world) (evs : list event) : list obs :=
  match evs with [] => [] | ev :: r => snd (step_obs g w ev) ++ log g (step g w ev) r end%list.

(** A world right after a successful initialisation. The 64-bit and 128-bit numbers given to [new] are in
    range; nothing is in flight. *)
Definition u64_opt (o : option N) : Prop := match o with Some x => x < U64_BOUND | None => True end.
Definition u64_schedule (vs : vesting_schedule) : Prop :=
  start_timestamp vs < U64_BOUND /\ cliff_timestamp vs < U64_BOUND /\ end_timestamp vs < U64_BOUND.
Record starts (g : genesis) (w : world) : Prop := mkStarts {
  st_new : exists owner duration timestamp transfers vesting release whitelist foundation pred,
      new (mkCtx (g_self g) pred 0 (w_time w) (w_balance w) [] (g_hash g)) false
          owner duration timestamp transfers vesting release whitelist foundation = Ok (w_lockup w) /\
      duration < U64_BOUND /\ u64_opt timestamp /\ u64_opt release /\
      match transfers with TransfersEnabled t => t < U64_BOUND | _ => True end /\
      match vesting with Some (ArgSchedule vs) => u64_schedule vs | _ => True end;
  st_balance : w_balance w < U128_BOUND;
  st_time : w_time w < U64_BOUND;
  st_pools : forall p, fst (w_pools w p) + snd (w_pools w p) < U128_BOUND;
  st_msgs : w_msgs w = []
}.
