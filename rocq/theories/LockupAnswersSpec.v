(** The lockup world with a memory: for every call of a method, on whose behalf a message travels, and what the
    caller is answered in the end. The world itself is the one of LockupWorld.v, event by event. *)
From Coq Require Import NArith List Bool String.
From Verif Require Import Prelude LockupModel LockupWorld LockupSpec LockupBook LockupAnswers.
Import ListNotations.
Open Scope N_scope.

(** How a call ends for its caller. *)
Inductive seen :=
| SFailed              (** the transaction fails *)
| SNothing             (** it succeeds without a value *)
| SBool (b : bool).    (** it succeeds with this value *)

(** What is written down. Calls are numbered. *)
Inductive note :=
| NCalled (k : nat) (who : account_id) (m : call)                 (** the call number [k] *)
| NRequest (k : nat) (r : remote) (result : option answer)        (** a request made for it was executed; [None]: it failed *)
| NAnswer (k : nat) (a : seen).                                   (** its caller sees the answer *)

Record tracked := mkTracked {
  t_world : world;
  t_for : list nat;      (** for each message in flight, the call on whose behalf it travels *)
  t_next : nat           (** the number of the next call *)
}.

(** The result of a request that is executed. *)
Definition result_of (w : world) (r : remote) (o : outcome) : option answer :=
  match o with
  | OFail => None
  | ODone => Some AVoid
  | OBool b => Some (ABool b)
  | OPoll x => Some (APollResult x)
  | OView => match r with RPool p op => Some (ABalance (view_answer op (w_pools w p))) | _ => None end
  | OPool _ _ => Some AVoid
  end.

(** What the caller sees at once when a method has been executed; after a promise it is not over yet. *)
Definition shown (k : nat) (r : returned) : list note :=
  match r with
  | RNothing => [NAnswer k SNothing]
  | RBool b => [NAnswer k (SBool b)]
  | RPromise => []
  end.

Definition same (t : tracked) (w : world) : tracked := mkTracked w (t_for t) (t_next t).
Definition more (a b : list msg) (k : nat) : list nat := repeat k (List.length b - List.length a).

Definition track (g : genesis) (t : tracked) (ev : event) : tracked * list note :=
  let w := t_world t in
  let w' := step g w ev in
  match ev with
  | ETime _ | EIncome _ | EGrowth _ _ _ => (same t w', [])
  | ECall who attached m =>
      if String.eqb who (g_self g) then (same t w', [])
      else
        let k := t_next t in
        let c := mkCtx (g_self g) who attached (w_time w) (w_balance w + attached) [] (g_hash g) in
        match run g w who attached [] m with
        | (Some _, _) =>
            (mkTracked w' (t_for t ++ more (w_msgs w) (w_msgs w') k) (S k), NCalled k who m :: shown k (returns c m))
        | (None, _) => (mkTracked w' (t_for t) (S k), [NCalled k who m; NAnswer k SFailed])
        end
  | EDeliver n o =>
      match nth_error (w_msgs w) n, nth_error (t_for t) n with
      | Some (MCall r cb), Some k =>
          match execute w r cb o with
          | Some _ =>
              (mkTracked w' (drop_nth n (t_for t) ++ more (drop_nth n (w_msgs w)) (w_msgs w') k) (t_next t),
               NRequest k r (result_of w r o) ::
               match cb with
               | Some _ => []                      (* the callback answers *)
               | None => [NAnswer k match result_of w r o with Some _ => SNothing | None => SFailed end]
               end)
          | None => (same t w', [])
          end
      | _, _ => (same t w', [])
      end
  | ERun n =>
      match nth_error (w_msgs w) n, nth_error (t_for t) n with
      | Some (MBack m r), Some k =>
          let w1 := mkWorld (w_lockup w) (w_balance w) (w_time w) (w_pools w) (drop_nth n (w_msgs w)) in
          let c := mkCtx (g_self g) (g_self g) 0 (w_time w) (w_balance w) [r] (g_hash g) in
          (mkTracked w' (drop_nth n (t_for t) ++ more (drop_nth n (w_msgs w)) (w_msgs w') k) (t_next t),
           match run g w1 (g_self g) 0 [r] m with
           | (Some _, _) => shown k (returns c m)
           | (None, _) => [NAnswer k SFailed]
           end)
      | Some (MTokens _), Some _ => (mkTracked w' (drop_nth n (t_for t)) (t_next t), [])
      | _, _ => (same t w', [])
      end
  end.

Definition begin (w : world) : tracked := mkTracked w [] 0.
Fixpoint tracked_to (g : genesis) (t : tracked) (evs : list event) : tracked :=
  match evs with [] => t | ev :: r => tracked_to g (fst (track g t ev)) r end.
(** Everything written down, oldest first. *)
Fixpoint notes (g : genesis) (t : tracked) (evs : list event) : list note :=
  match evs with [] => [] | ev :: r => snd (track g t ev) ++ notes g (fst (track g t ev)) r end%list.

(** What is written down about the call number [k]. *)
Fixpoint calls_of (k : nat) (l : list note) : list (account_id * call) :=
  match l with
  | [] => []
  | NCalled j who m :: r => if Nat.eqb j k then (who, m) :: calls_of k r else calls_of k r
  | _ :: r => calls_of k r
  end.
Fixpoint requests_of (k : nat) (l : list note) : list (remote * option answer) :=
  match l with
  | [] => []
  | NRequest j r x :: l => if Nat.eqb j k then (r, x) :: requests_of k l else requests_of k l
  | _ :: l => requests_of k l
  end.
Fixpoint answers_of (k : nat) (l : list note) : list seen :=
  match l with
  | [] => []
  | NAnswer j a :: r => if Nat.eqb j k then a :: answers_of k r else answers_of k r
  | _ :: r => answers_of k r
  end.
(** The messages in flight that still have to do with the answer to the call number [k]. *)
Definition open_for (k : nat) (t : tracked) : list msg :=
  map fst (filter (fun x => Nat.eqb (snd x) k && match fst x with MTokens _ => false | _ => true end)
             (combine (w_msgs (t_world t)) (t_for t))).

(** What a call [m] waits for while it is not answered: a request, or the callback of the last one of the requests
    [reqs] that were executed for it. There are at most two requests, the second one after a view. *)
Definition waits_for (m : call) (reqs : list (remote * option answer)) (x : msg) : Prop :=
  match x with
  | MCall r cb =>
      (reqs = [] \/ exists p op y, reqs = [(RPool p op, Some (ABalance y))] /\ 0 < y) /\
      (cb = None <-> match m with Transfer _ _ | AddFullAccessKey _ => True | _ => False end)
  | MBack cb y => exists before r, reqs = (before ++ [(r, y)])%list /\ (List.length before <= 1)%nat
  | MTokens _ => False
  end.

(** * What an answer tells *)

(** The pool [p] is the selected one. *)
Definition at_pool (s : contract) (p : account_id) : Prop :=
  option_map staking_pool_account_id (staking_information s) = Some p.

Definition transfers_from (s : contract) (t : N) : contract :=
  let i := lockup_information s in
  mkContract (owner_account_id s)
    (mkLockup (lockup_amount i) (termination_withdrawn_tokens i) (lockup_duration i) (release_duration i)
       (lockup_timestamp i) (TransfersEnabled t))
    (vesting_information s) (staking_pool_whitelist_account_id s) (staking_information s) (foundation_account_id s).

(** The foundation has received [y] of the unvested tokens. With the last of them the vesting is over. *)
Definition paid_unvested (s : contract) (y : N) : contract :=
  let i := lockup_information s in
  mkContract (owner_account_id s)
    (mkLockup (lockup_amount i) (termination_withdrawn_tokens i + y) (lockup_duration i) (release_duration i)
       (lockup_timestamp i) (transfers_information i))
    (if y <? owed s then VTerminating (mkTermination (owed s - y) ReadyToWithdraw) else VNone)
    (staking_pool_whitelist_account_id s) (staking_information s)
    (if y <? owed s then foundation_account_id s else None).

(** An operation of the selected pool was executed and [s'] is the result, or it failed and only the lockup is
    ready for the next one. *)
Definition pool_answer (op : pool_op) (b : bool) (reqs : list (remote * option answer)) (s s' after : contract) : Prop :=
  exists p, at_pool s p /\
    if b then reqs = [(RPool p op, Some AVoid)] /\ s' = after
    else reqs = [(RPool p op, None)] /\ s' = over s.

(** The balance [x] that the view [view] gave was asked for with [op x], unless it was zero; [done] and [undone]
    are the states after that was executed and after it failed. *)
Definition two_steps (view : pool_op) (op : N -> pool_op) (b : bool) (reqs : list (remote * option answer))
    (s s' : contract) (done : N -> contract) (undone : contract) : Prop :=
  exists p x, at_pool s p /\
    if b then
      (x = 0 /\ reqs = [(RPool p view, Some (ABalance 0))] \/
       0 < x /\ reqs = [(RPool p view, Some (ABalance x)); (RPool p (op x), Some AVoid)]) /\ s' = done x
    else
      0 < x /\ reqs = [(RPool p view, Some (ABalance x)); (RPool p (op x), None)] /\ s' = undone.

(** What the caller of [m] learns from the answer [a], when [reqs] are the requests that were executed for the
    call and their results, and [s] and [s'] the state of the lockup before and after the step that answers. *)
Definition tells (m : call) (a : seen) (reqs : list (remote * option answer)) (s s' : contract) : Prop :=
  match a with
  | SFailed =>
      s' = s /\
      (reqs = [] \/
       match m with
       | SelectStakingPool p =>
           exists wl x, reqs = [(RIsWhitelisted wl p, x)] /\
             (x <> Some (ABool true) \/ selected s = true \/ terminating s = true)
       | CheckTransfersVote => exists v x, reqs = [(RGetResult v, x)] /\ (x = None \/ enabled s = true)
       | Transfer y r => reqs = [(RTransfer r y, None)]
       (* the lockup stays busy: see C59 *)
       | RefreshStakingPoolBalance => busy s = true /\ exists p, at_pool s p /\ reqs = [(RPool p PGetTotal, None)]
       | WithdrawAllFromStakingPool => busy s = true /\ exists p, at_pool s p /\ reqs = [(RPool p PGetUnstaked, None)]
       | TerminationPrepareToWithdraw =>
           busy s = true /\ exists p, at_pool s p /\
             (reqs = [(RPool p PGetStaked, None)] /\ stage s = Some UnstakingInProgress \/
              reqs = [(RPool p PGetUnstaked, None)] /\ stage s = Some WithdrawingFromStakingPoolInProgress)
       | _ => False
       end)
  | SNothing =>
      match m with
      | UnselectStakingPool => reqs = [] /\ selected s = true /\ s' = with_pool s None
      | TerminateVesting _ =>
          reqs = [] /\ exists u st, 0 < u /\ s' = with_vesting s (VTerminating (mkTermination u st))
      | RefreshStakingPoolBalance =>
          exists p x, at_pool s p /\ reqs = [(RPool p PGetTotal, Some (ABalance x))] /\ s' = pool_now s Idle x
      | Transfer y r => reqs = [(RTransfer r y, Some AVoid)] /\ s' = s
      | AddFullAccessKey pk => reqs = [(RAddFullAccessKey pk, Some AVoid)] /\ s' = s
      | _ => False
      end
  | SBool b =>
      match m with
      | SelectStakingPool p =>
          b = true /\ selected s = false /\ s' = with_pool s (Some (mkStaking p Idle 0)) /\
          exists wl, reqs = [(RIsWhitelisted wl p, Some (ABool true))]
      | DepositToStakingPool y => pool_answer (PDeposit y) b reqs s s' (pool_now s Idle (recorded s + y))
      | DepositAndStake y => pool_answer (PDepositAndStake y) b reqs s s' (pool_now s Idle (recorded s + y))
      | WithdrawFromStakingPool y => pool_answer (PWithdraw y) b reqs s s' (pool_now s Idle (recorded s - y))
      | Stake y => pool_answer (PStake y) b reqs s s' (over s)
      | Unstake y => pool_answer (PUnstake y) b reqs s s' (over s)
      | UnstakeAll => pool_answer PUnstakeAll b reqs s s' (over s)
      | WithdrawAllFromStakingPool =>
          two_steps PGetUnstaked PWithdraw b reqs s s' (fun x => pool_now s Idle (recorded s - x)) (over s)
      | CheckTransfersVote =>
          enabled s = false /\
          exists v, if b then exists t, reqs = [(RGetResult v, Some (APollResult (Some t)))] /\ s' = transfers_from s t
                    else reqs = [(RGetResult v, Some (APollResult None))] /\ s' = s
      | TerminationPrepareToWithdraw =>
          stage s = Some UnstakingInProgress /\
          two_steps PGetStaked PUnstake b reqs s s' (fun _ => at_stage (over s) EverythingUnstaked)
            (at_stage (over s) VestingTerminatedWithDeficit) \/
          stage s = Some WithdrawingFromStakingPoolInProgress /\
          two_steps PGetUnstaked PWithdraw b reqs s s'
            (fun x => at_stage (pool_now s Idle (recorded s - x)) ReadyToWithdraw)
            (at_stage (over s) EverythingUnstaked)
      | TerminationWithdraw r =>
          exists y, 0 < y /\ y <= owed s /\
            if b then reqs = [(RTransfer r y, Some AVoid)] /\ s' = paid_unvested s y
            else reqs = [(RTransfer r y, None)] /\ s' = at_stage s ReadyToWithdraw
      | _ => False
      end
  end.
