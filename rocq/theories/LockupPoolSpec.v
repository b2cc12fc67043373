(** The lockup contract together with one staking pool that runs the staking-pool contract of this repository.
    The lockup is used through [LockupWorld], the pool through [StakingPoolSpec]. Other staking pools, the
    whitelist, the voting contract and the receivers of transfers stay abstract, as in [LockupWorld]. *)
From Coq Require Import NArith List Bool String.
From Verif Require Import Prelude LockupModel LockupWorld LockupSpec.
From Verif Require StakingPoolModel StakingPoolSpec.
Import ListNotations.
Open Scope N_scope.

(** What the pool's record of [u] is worth: staked, by the price of its shares, and unstaked. *)
Definition worth (p : StakingPoolModel.pool) (u : account_id) : N * N :=
  let r := StakingPoolSpec.record_of p u in
  (StakingPoolModel.total_staked_balance p * StakingPoolModel.stake_shares r / StakingPoolModel.total_stake_shares p,
   StakingPoolModel.unstaked r).

Record system := mkSystem {
  sy_lockup : world;
  sy_pool : StakingPoolSpec.world
}.

Inductive sevent :=
| SLockup (ev : event)                    (** an event of the lockup that does not involve the pool *)
| SPool (ev : StakingPoolSpec.event)      (** rewards, epochs, and calls of other accounts to the pool *)
| SServe (n : nat) (locked : N).          (** the pool executes request number [n] in flight; [locked]: how much of
                                              the pool's tokens is locked by the protocol at that time *)

(** The methods of the pool the lockup calls (lockup/src/lib.rs:35-54; the calls are in owner.rs:105, 151, 194, 236,
    277, 321, 364, 405, owner_callbacks.rs:317, foundation.rs:82, 108, foundation_callbacks.rs:28, 114). *)
Definition pool_call (op : pool_op) : option StakingPoolModel.call :=
  match op with
  | PDeposit _ => Some StakingPoolModel.Deposit
  | PDepositAndStake _ => Some StakingPoolModel.DepositAndStake
  | PWithdraw a => Some (StakingPoolModel.Withdraw a)
  | PStake a => Some (StakingPoolModel.Stake a)
  | PUnstake a => Some (StakingPoolModel.Unstake a)
  | PUnstakeAll => Some StakingPoolModel.UnstakeAll
  | PGetStaked | PGetUnstaked | PGetTotal => None
  end.
Definition pool_view (op : pool_op) (p : StakingPoolModel.pool) (u : account_id) : res N :=
  match op with
  | PGetStaked => StakingPoolModel.get_account_staked_balance p u
  | PGetUnstaked => StakingPoolModel.get_account_unstaked_balance p u
  | _ => StakingPoolModel.get_account_total_balance p u
  end.

(** The request in flight with number [n], if it is addressed to the pool [pid]. *)
Definition request (pid : account_id) (w : world) (n : nat) : option (pool_op * option call) :=
  match nth_error (w_msgs w) n with
  | Some (MCall (RPool q op) cb) => if String.eqb q pid then Some (op, cb) else None
  | _ => None
  end.

(** Events of the lockup's world that would be decided by the pool [pid]. *)
Definition involves (pid : account_id) (w : world) (ev : event) : bool :=
  match ev with
  | EGrowth q _ _ => String.eqb q pid
  | EDeliver n _ => match request pid w n with Some _ => true | None => false end
  | _ => false
  end.

(** The event the pool sees: its account is [pid], and the lockup calls it only by the requests in flight. *)
Definition pool_event (g : genesis) (pid : account_id) (sys : system) (ev : sevent)
    : option StakingPoolSpec.event :=
  match ev with
  | SLockup _ => None
  | SPool (StakingPoolSpec.EvCall who a l rs m) =>
      if String.eqb who (g_self g) then None else Some (StakingPoolSpec.EvCall who a l rs m)
  | SPool e => Some e
  | SServe n locked =>
      match request pid (sy_lockup sys) n with
      | Some (op, _) => option_map (StakingPoolSpec.EvCall (g_self g) (attached_to (RPool pid op)) locked [])
                                   (pool_call op)
      | None => None
      end
  end.

(** The lockup's world with new messages instead of message [n], and what it owns at the pool as the pool says. *)
Definition served (w : world) (n : nat) (new : list msg) (pools : account_id -> N * N) : world :=
  mkWorld (w_lockup w) (w_balance w) (w_time w) pools (drop_nth n (w_msgs w) ++ new)%list.

(** One event. The answer to a view is what the pool's view returns; an accepted call is answered and the
    tokens it pays to the lockup are sent there; after a rejected call the attached tokens come back. *)
Definition sstep_obs (g : genesis) (pid : account_id) (sys : system) (ev : sevent) : system * list obs :=
  let w := sy_lockup sys in
  let self := g_self g in
  match ev with
  | SLockup e =>
      if involves pid w e then (sys, [])
      else (mkSystem (step g w e) (sy_pool sys), snd (step_obs g w e))
  | SPool _ =>
      match pool_event g pid sys ev with
      | Some e =>
          let pw := fst (StakingPoolSpec.step pid (sy_pool sys) e) in
          (mkSystem (mkWorld (w_lockup w) (w_balance w) (w_time w)
                       (set_pool (w_pools w) pid (worth (StakingPoolSpec.w_pool pw) self)) (w_msgs w)) pw, [])
      | None => (sys, [])
      end
  | SServe n locked =>
      match request pid w n with
      | None => (sys, [])
      | Some (op, cb) =>
          match pool_event g pid sys ev with
          | None =>
              match pool_view op (StakingPoolSpec.w_pool (sy_pool sys)) self with
              | Ok x => (mkSystem (served w n (back cb (Some (ABalance x))) (w_pools w)) (sy_pool sys), [])
              | Panic _ => (mkSystem (served w n (back cb None) (w_pools w)) (sy_pool sys), [])
              end
          | Some e =>
              match StakingPoolSpec.step pid (sy_pool sys) e with
              | (pw, Some ps) =>
                  (mkSystem (served w n (tokens (StakingPoolSpec.sent_to self ps) ++ back cb (Some AVoid))%list
                               (set_pool (w_pools w) pid (worth (StakingPoolSpec.w_pool pw) self))) pw, [])
              | (pw, None) =>
                  (mkSystem (served w n (tokens (attached_to (RPool pid op)) ++ back cb None)%list (w_pools w)) pw, [])
              end
          end
      end
  end.

Definition sstep g pid sys ev : system := fst (sstep_obs g pid sys ev).
Fixpoint sfinal (g : genesis) (pid : account_id) (sys : system) (evs : list sevent) : system :=
  match evs with [] => sys | ev :: r => sfinal g pid (sstep g pid sys ev) r end.
Fixpoint slog (g : genesis) (pid : account_id) (sys : system) (evs : list sevent) : list obs :=
  match evs with [] => [] | ev :: r => snd (sstep_obs g pid sys ev) ++ slog g pid (sstep g pid sys ev) r end%list.

(** The history of the pool. *)
Fixpoint pool_history (g : genesis) (pid : account_id) (sys : system) (evs : list sevent)
    : list StakingPoolSpec.event :=
  match evs with
  | [] => []
  | ev :: r => match pool_event g pid sys ev with
               | Some e => e :: pool_history g pid (sstep g pid sys ev) r
               | None => pool_history g pid (sstep g pid sys ev) r
               end
  end.

(** A lockup and a pool right after their initialisation. *)
Definition sstarts (g : genesis) (pid : account_id) (sys : system) : Prop :=
  starts g (sy_lockup sys) /\ StakingPoolSpec.initial pid (sy_pool sys) /\ w_pools (sy_lockup sys) pid = (0, 0).

(** At all times so far the pool was within its limits: the roundings fit in the guarantee fund and the tokens of
    its account fit in 128 bits. *)
Definition pool_within_limits (g : genesis) (pid : account_id) (sys : system) (evs : list sevent) : Prop :=
  forall n, StakingPoolSpec.within_limits pid (sy_pool sys) (pool_history g pid sys (firstn n evs)).

(** A condition on the events that do not involve the pool: what the others do. *)
Definition other_event (ev : sevent) (P : event -> Prop) : Prop :=
  match ev with SLockup e => P e | _ => True end.
Fixpoint all_other (P : world -> event -> Prop) (g : genesis) (pid : account_id) (sys : system)
    (evs : list sevent) : Prop :=
  match evs with
  | [] => True
  | ev :: r => other_event ev (P (sy_lockup sys)) /\ all_other P g pid (sstep g pid sys ev) r
  end.
(** Other pools answer views. *)
Definition view_ok (w : world) (e : event) : Prop := view_fails w e = false.

(** Withdrawals the pool has paid and whose callback has not run. *)
Definition paid_not_recorded (m : msg) : N :=
  match m with
  | MBack (OnStakingPoolWithdraw a) (Some _) | MBack (OnStakingPoolWithdrawForTermination a) (Some _) => a
  | _ => 0
  end.

(** * Continuations in which only one account acts *)

(** How the receivers of the lockup's other requests answer: in some possible way. *)
Definition possible (answers : world -> remote -> outcome) : Prop :=
  forall w r cb, execute w r cb (answers w r) <> None.
(** How much of the pool's tokens the protocol holds locked: not more than there is, and not what the lockup has
    unstaked once its waiting time is over. *)
Definition unlocks (g : genesis) (lk : system -> N) : Prop :=
  forall sys, let pw := sy_pool sys in
    lk sys <= StakingPoolSpec.w_total pw /\
    (StakingPoolModel.unstaked_available_epoch_height (StakingPoolSpec.record_of (StakingPoolSpec.w_pool pw) (g_self g))
       <= StakingPoolSpec.w_epoch pw ->
     lk sys <= StakingPoolSpec.w_total pw - snd (worth (StakingPoolSpec.w_pool pw) (g_self g))).

(** The only events are calls of the given methods of the lockup by [who], deliveries of what is outstanding, and
    epochs. *)
Definition alone (answers : world -> remote -> outcome) (lk : system -> N) (pid who : account_id)
    (methods : call -> bool) (sys : system) (ev : sevent) : Prop :=
  match ev with
  | SLockup (ECall x 0 m) => x = who /\ methods m = true
  | SLockup (EDeliver n o) =>
      exists r cb, nth_error (w_msgs (sy_lockup sys)) n = Some (MCall r cb) /\ o = answers (sy_lockup sys) r /\
        forall q op, r <> RPool q op
  | SLockup (ERun _) => True
  | SServe _ l => l = lk sys
  | SPool (StakingPoolSpec.EvEpoch _) => True
  | _ => False
  end.
Fixpoint all_alone answers lk (g : genesis) (pid who : account_id) (methods : call -> bool) (sys : system)
    (evs : list sevent) : Prop :=
  match evs with
  | [] => True
  | ev :: r => alone answers lk pid who methods sys ev /\
               all_alone answers lk g pid who methods (sstep g pid sys ev) r
  end.

(** The tokens of the lockup and of the pool, with those in flight. *)
Definition carried (m : msg) : N :=
  match m with MCall r _ => attached_to r | MTokens a => a | MBack _ _ => 0 end.
Definition wealth (sys : system) : N :=
  StakingPoolSpec.w_total (sy_pool sys) + w_balance (sy_lockup sys) + total carried (w_msgs (sy_lockup sys)).

(** There is room for two more stake and unstake calls at the pool, and for four more epochs; all tokens fit in 128
    bits. *)
Definition roomy (g : genesis) (pid : account_id) (sys : system) (evs : list sevent) : Prop :=
  let sys' := sfinal g pid sys evs in
  StakingPoolSpec.stake_calls (StakingPoolSpec.history pid (sy_pool sys) (pool_history g pid sys evs)) + 2
    <= StakingPoolModel.STAKE_SHARE_PRICE_GUARANTEE_FUND /\
  wealth sys' < U128_BOUND /\
  StakingPoolSpec.w_epoch (sy_pool sys') + StakingPoolModel.NUM_EPOCHS_TO_UNLOCK < U64_BOUND.
