(** The staking pool inside the NEAR runtime: histories of calls, rewards and epochs, and the
    quantities the properties talk about. This file is specification: it uses the contract only
    through [exec], [new] and its views. *)
From Coq Require Import NArith List Bool String.
From Verif Require Import Prelude StakingPoolModel.
Import ListNotations.
Open Scope N_scope.

(** The pool contract, the tokens its account holds (locked plus unlocked) and the current epoch. *)
Record world := mkWorld {
  w_pool : pool;
  w_total : N;
  w_epoch : N
}.

(** What can happen next. Anybody may call any method with any deposit; at that time any part
    [locked] of the account's tokens may be locked by the protocol, and [results] are the promise
    results the call sees. Tokens may arrive at any time (validator rewards, gas rebates, plain
    transfers, refunds). Epochs may advance. Slashing is excluded: nothing else removes tokens. *)
Inductive event :=
| EvCall (who : account_id) (attached locked : N) (results : list bool) (m : call)
| EvIncome (amount : N)
| EvEpoch (n : N).

(** Tokens a list of promises sends away from the pool's account. *)
Definition outgoing (ps : list promise) : N :=
  fold_right (fun q acc => match q with PTransfer _ a => a + acc | _ => acc end) 0 ps.

(** Tokens a list of promises sends to [u]. *)
Definition sent_to (u : account_id) (ps : list promise) : N :=
  fold_right (fun q acc => match q with
                           | PTransfer r a => if String.eqb r u then a + acc else acc
                           | _ => acc end) 0 ps.

(** The account [self] of the pool has no access keys, so the only calls it makes to itself are the
    callbacks of its own promises. *)
Definition caller_possible (self who : account_id) (m : call) : bool :=
  negb (String.eqb who self) || match m with OnStakeAction => true | _ => false end.

(** One event. A call that panics, or whose transfers exceed the unlocked balance, is undone by the
    runtime. The second component is [Some promises] for an accepted call. *)
Definition step (self : account_id) (w : world) (e : event) : world * option (list promise) :=
  match e with
  | EvCall who attached locked results m =>
      if caller_possible self who m && (locked <=? w_total w) then
        let bal := w_total w - locked + attached in
        match exec (mkCtx self who attached bal locked (w_epoch w) results) (w_pool w) m with
        | Ok (p', ps) =>
            if outgoing ps <=? bal
            then (mkWorld p' (w_total w + attached - outgoing ps) (w_epoch w), Some ps)
            else (w, None)
        | Panic _ => (w, None)
        end
      else (w, None)
  | EvIncome amount => (mkWorld (w_pool w) (w_total w + amount) (w_epoch w), None)
  | EvEpoch n => (mkWorld (w_pool w) (w_total w) (w_epoch w + n), None)
  end.

(** A history entry: the world before, the event, its promises if it was an accepted call, the world
    after. *)
Record entry := mkEntry {
  en_before : world;
  en_event : event;
  en_promises : option (list promise);
  en_after : world
}.

Fixpoint history (self : account_id) (w : world) (evs : list event) : list entry :=
  match evs with
  | [] => []
  | e :: r => let '(w', o) := step self w e in mkEntry w e o w' :: history self w' r
  end.

Fixpoint final (self : account_id) (w : world) (evs : list event) : world :=
  match evs with
  | [] => w
  | e :: r => final self (fst (step self w e)) r
  end.

(** A freshly initialised pool account: [new] was accepted in some context (the two parts of the fee
    are [u32] arguments). *)
Definition initial (self : account_id) (w : world) : Prop :=
  exists c owner key f ps,
    ctx_current c = self /\ ctx_attached c = 0 /\ ctx_balance c < U128_BOUND /\
    numerator f < U32_BOUND /\ denominator f < U32_BOUND /\
    new c false owner key f = Ok (w_pool w, ps) /\
    w_total w = ctx_balance c /\ w_epoch w = ctx_epoch c.

(** * Ledgers read off a history *)

Definition sumN {A} (f : A -> N) (l : list A) : N := fold_right (fun x acc => f x + acc) 0 l.

(** Deposits attached by [u] to accepted calls. *)
Definition deposited (u : account_id) (h : list entry) : N :=
  sumN (fun en => match en_event en, en_promises en with
                  | EvCall who attached _ _ _, Some _ => if String.eqb who u then attached else 0
                  | _, _ => 0
                  end) h.

(** Tokens the pool sent to [u]. *)
Definition paid (u : account_id) (h : list entry) : N :=
  sumN (fun en => match en_promises en with Some ps => sent_to u ps | None => 0 end) h.

(** Is this call one of the stake and unstake methods? *)
Definition is_stake_call (m : call) : bool :=
  match m with
  | DepositAndStake | StakeAll | Stake _ | UnstakeAll | Unstake _ => true
  | _ => false
  end.
Definition is_unstake_call (m : call) : bool :=
  match m with UnstakeAll | Unstake _ => true | _ => false end.
Definition is_withdraw_call (m : call) : bool :=
  match m with WithdrawAll | Withdraw _ => true | _ => false end.

(** The methods that stake. *)
Definition stakes (m : call) : bool :=
  match m with DepositAndStake | StakeAll | Stake _ => true | _ => false end.

(** Number of accepted stake and unstake calls. *)
Definition stake_calls (h : list entry) : N :=
  sumN (fun en => match en_event en, en_promises en with
                  | EvCall _ _ _ _ m, Some _ => if is_stake_call m then 1 else 0
                  | _, _ => 0
                  end) h.

(** * Observable quantities of a pool *)

(** The price of a stake share in [p] is at most that in [p'] (cross-multiplied ratio). *)
Definition price_le (p p' : pool) : Prop :=
  total_staked_balance p * total_stake_shares p' <= total_staked_balance p' * total_stake_shares p.

Definition all_unstaked (p : pool) : N := sumN (fun kv => unstaked (snd kv)) (accounts p).
Definition all_shares (p : pool) : N := sumN (fun kv => stake_shares (snd kv)) (accounts p).

(** The roundings paid so far by the contract fit in its price guarantee fund of 10^12 yoctoNEAR (at
    most one unit per accepted stake or unstake call), and the tokens of the account fit in the
    128-bit balances of the protocol. *)
Definition within_limits (self : account_id) (w0 : world) (evs : list event) : Prop :=
  stake_calls (history self w0 evs) <= STAKE_SHARE_PRICE_GUARANTEE_FUND /\
  w_total (final self w0 evs) < U128_BOUND.

(** An accepted call of [u] in a history entry. *)
Definition accepted_call (u : account_id) (sel : call -> bool) (en : entry) : Prop :=
  exists attached locked results m ps,
    en_event en = EvCall u attached locked results m /\ en_promises en = Some ps /\ sel m = true.

(** [u] makes no call in [evs]. *)
Definition silent (u : account_id) (evs : list event) : Prop :=
  forall attached locked results m, ~ In (EvCall u attached locked results m) evs.

(** Methods reserved to the owner. *)
Definition is_owner_call (m : call) : bool :=
  match m with
  | UpdateStakingKey _ | UpdateRewardFeeFraction _ | Vote _ _ | PauseStaking | ResumeStaking => true
  | _ => false
  end.

(** The two methods that do not distribute rewards first. *)
Definition is_plain (m : call) : bool :=
  match m with OnStakeAction | Vote _ _ => true | _ => false end.

(** The part of the account's balance that the contract has not accounted for. *)
Definition pending (w : world) : N := w_total w - last_total_balance (w_pool w).

(** The record the contract keeps for [u]; absent means all zero. *)
Definition record_of (p : pool) (u : account_id) : account :=
  match mget u (accounts p) with Some acc => acc | None => mkAccount 0 0 0 end.
