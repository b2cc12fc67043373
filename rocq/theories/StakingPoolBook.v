(** The book of a staking pool: what each call does to what the pool owes its delegators, in exact
    arithmetic, without a word about the code. This file is specification: of the contract it only
    uses the names of the methods ([call]), of the promises ([promise]) and of the fee ([fraction]),
    and [read] at the end, which says where the contract keeps each column of the book. *)
From Coq Require Import NArith List Bool String.
From Verif Require Import Prelude StakingPoolModel StakingPoolSpec.
Import ListNotations.
Open Scope N_scope.

Record book := mkBook {
  b_unstaked : account_id -> N;    (* tokens of each account that earn nothing *)
  b_shares : account_id -> N;      (* stake shares of each account *)
  b_available : account_id -> N;   (* the epoch from which the unstaked tokens can be taken out *)
  b_staked : N;                    (* tokens behind all the shares *)
  b_issued : N;                    (* all shares *)
  b_known : N;                     (* tokens already accounted for *)
  b_epoch : N;                     (* epoch of the last distribution of rewards *)
  b_fee : fraction;                (* the owner's part of a reward *)
  b_owner : account_id;
  b_key : public_key;
  b_paused : bool
}.

Definition rounded_up (a d : N) : N := (a + (d - 1)) / d.

(** The line of [u] becomes [(un, sh, av)]. A line with nothing on it is erased. *)
Definition write (u : account_id) (un sh av : N) (b : book) : book :=
  mkBook (fun v => if String.eqb v u then un else b_unstaked b v)
         (fun v => if String.eqb v u then sh else b_shares b v)
         (fun v => if String.eqb v u then (if (un =? 0) && (sh =? 0) then 0 else av)
                   else b_available b v)
         (b_staked b) (b_issued b) (b_known b) (b_epoch b) (b_fee b) (b_owner b) (b_key b)
         (b_paused b).

(** New totals. *)
Definition totals (staked issued known : N) (b : book) : book :=
  mkBook (b_unstaked b) (b_shares b) (b_available b) staked issued known (b_epoch b) (b_fee b)
         (b_owner b) (b_key b) (b_paused b).

(** In a new epoch, the tokens that arrived since the last one are a reward: they all go behind the
    shares, and the owner gets new shares worth their fee, at the price that includes the rest. *)
Definition distribute (total epoch : N) (b : book) : book :=
  if b_epoch b =? epoch then b
  else
    let reward := total - b_known b in
    let fee := numerator (b_fee b) * reward / denominator (b_fee b) in
    let minted := b_issued b * fee / (b_staked b + (reward - fee)) in
    mkBook (b_unstaked b)
           (fun v => if String.eqb v (b_owner b) then b_shares b v + minted else b_shares b v)
           (b_available b) (b_staked b + reward) (b_issued b + minted) total epoch (b_fee b)
           (b_owner b) (b_key b) (b_paused b).

(** What the stake of [u] is worth. *)
Definition worth (u : account_id) (b : book) : N := b_staked b * b_shares b u / b_issued b.

Definition put_in (u : account_id) (a : N) (b : book) : book :=
  totals (b_staked b) (b_issued b) (b_known b + a)
    (write u (b_unstaked b u + a) (b_shares b u) (b_available b u) b).

Definition take_out (u : account_id) (a epoch : N) (b : book) : option book :=
  if (0 <? a) && (a <=? b_unstaked b u) && (b_available b u <=? epoch)
  then Some (totals (b_staked b) (b_issued b) (b_known b - a)
               (write u (b_unstaked b u - a) (b_shares b u) (b_available b u) b))
  else None.

(** As many whole shares as [a] tokens buy. The buyer pays the price rounded down, the pool adds it
    rounded up. *)
Definition buy (u : account_id) (a : N) (b : book) : option book :=
  let n := b_issued b * a / b_staked b in
  let price := b_staked b * n / b_issued b in
  if (0 <? n) && (price <=? b_unstaked b u)
  then Some (totals (b_staked b + rounded_up (b_staked b * n) (b_issued b)) (b_issued b + n)
               (b_known b)
               (write u (b_unstaked b u - price) (b_shares b u + n) (b_available b u) b))
  else None.

(** As few whole shares as bring [a] tokens. The seller gets the price rounded up, the pool removes
    it rounded down, and the seller's unstaked tokens are kept for four epochs. *)
Definition sell (u : account_id) (a epoch : N) (b : book) : option book :=
  let n := rounded_up (b_issued b * a) (b_staked b) in
  if (0 <? a) && (a <=? worth u b)
  then Some (totals (b_staked b - b_staked b * n / b_issued b) (b_issued b - n) (b_known b)
               (write u (b_unstaked b u + rounded_up (b_staked b * n) (b_issued b))
                  (b_shares b u - n) (epoch + 4) b))
  else None.

Definition rules (fee : fraction) (key : public_key) (paused : bool) (b : book) : book :=
  mkBook (b_unstaked b) (b_shares b) (b_available b) (b_staked b) (b_issued b) (b_known b)
         (b_epoch b) fee (b_owner b) key paused.

(** Stake everything that is behind the shares, unless the owner paused staking. *)
Definition stake_it (b : book) : list promise :=
  if b_paused b then [] else [PStake (b_staked b) (b_key b) true].

Definition and_then (o : option book) (f : book -> book * list promise)
    : option (book * list promise) :=
  match o with Some b => Some (f b) | None => None end.

Definition takes_deposit (m : call) : bool :=
  match m with Deposit | DepositAndStake => true | _ => false end.

(** The numbers of a call are 128-bit amounts and 32-bit fees. *)
Definition typed (m : call) : bool :=
  match m with
  | Withdraw a | Stake a | Unstake a => a <? U128_BOUND
  | UpdateRewardFeeFraction f => (numerator f <? U32_BOUND) && (denominator f <? U32_BOUND)
  | _ => true
  end.

(** A call of [m] by [u] with [attached] tokens, in [epoch], at a pool account that holds [total]
    tokens apart from them, [locked] of which are locked: refused, or the new book and the promises
    made. *)
Definition play (self u : account_id) (attached total locked epoch : N) (results : list bool)
    (m : call) (b : book) : option (book * list promise) :=
  let b1 := distribute total epoch b in
  let new_epoch := negb (b_epoch b =? epoch) in
  let quietly := fun b' => (b', if new_epoch then stake_it b' else []) in
  let loudly := fun b' => (b', stake_it b') in
  let by_owner := String.eqb u (b_owner b) in
  let pay := fun a => and_then (if a <=? total - locked then take_out u a epoch b1 else None)
                 (fun b' => (b', PTransfer u a :: if new_epoch then stake_it b' else [])) in
  if negb (typed m) || (negb (takes_deposit m) && negb (attached =? 0)) then None
  else match m with
  | OnStakeAction =>
      if String.eqb u self then
        match results with
        | [ok] => Some (b, if negb ok && (0 <? locked) then [PStake 0 (b_key b) false] else [])
        | _ => None
        end
      else None
  | _ =>
    if String.eqb u self then None
    else match m with
    | Ping => Some (quietly b1)
    | Deposit => Some (quietly (put_in u attached b1))
    | DepositAndStake => and_then (buy u attached (put_in u attached b1)) loudly
    | WithdrawAll => pay (b_unstaked b1 u)
    | Withdraw a => pay a
    | StakeAll => and_then (buy u (b_unstaked b1 u) b1) loudly
    | Stake a => and_then (buy u a b1) loudly
    | UnstakeAll => and_then (sell u (worth u b1) epoch b1) loudly
    | Unstake a => and_then (sell u a epoch b1) loudly
    | UpdateStakingKey k =>
        if by_owner then Some (loudly (rules (b_fee b1) k (b_paused b1) b1)) else None
    | UpdateRewardFeeFraction f =>
        if by_owner && (0 <? denominator f) && (numerator f <=? denominator f)
        then Some (quietly (rules f (b_key b1) (b_paused b1) b1)) else None
    | Vote a v =>
        if by_owner && is_valid_account_id a then Some (b, [PVote a v]) else None
    | PauseStaking =>
        if by_owner && negb (b_paused b)
        then Some (rules (b_fee b1) (b_key b1) true b1, [PStake 0 (b_key b1) false]) else None
    | ResumeStaking =>
        if by_owner && b_paused b then Some (loudly (rules (b_fee b1) (b_key b1) false b1)) else None
    | OnStakeAction => None
    end
  end.

(** The book a contract's state stands for. *)
Definition read (p : pool) : book :=
  mkBook (fun u => unstaked (record_of p u)) (fun u => stake_shares (record_of p u))
         (fun u => unstaked_available_epoch_height (record_of p u))
         (total_staked_balance p) (total_stake_shares p) (last_total_balance p)
         (last_epoch_height p) (reward_fee_fraction p) (owner_id p) (stake_public_key p) (paused p).

(** The same book, line by line. *)
Definition same (b b' : book) : Prop :=
  (forall u, b_unstaked b u = b_unstaked b' u /\ b_shares b u = b_shares b' u /\
             b_available b u = b_available b' u) /\
  b_staked b = b_staked b' /\ b_issued b = b_issued b' /\ b_known b = b_known b' /\
  b_epoch b = b_epoch b' /\ b_fee b = b_fee b' /\ b_owner b = b_owner b' /\ b_key b = b_key b' /\
  b_paused b = b_paused b'.

(** The code did what the book says. *)
Definition agrees (w : world) (attached : N) (did : world * option (list promise))
    (says : option (book * list promise)) : Prop :=
  match snd did, says with
  | None, None => fst did = w
  | Some ps, Some (b', ps') =>
      ps = ps' /\ same (read (w_pool (fst did))) b' /\
      w_total (fst did) = w_total w + attached - outgoing ps /\ w_epoch (fst did) = w_epoch w
  | _, _ => False
  end.

(** * The book of a whole history *)

(** The book, with the tokens of the account and the epoch. *)
Record ledger := mkLedger { l_book : book; l_total : N; l_epoch : N }.

Definition play_event (self : account_id) (l : ledger) (e : event)
    : ledger * option (list promise) :=
  match e with
  | EvCall u attached locked results m =>
      match play self u attached (l_total l) locked (l_epoch l) results m (l_book l) with
      | Some (b', ps) => (mkLedger b' (l_total l + attached - outgoing ps) (l_epoch l), Some ps)
      | None => (l, None)
      end
  | EvIncome a => (mkLedger (l_book l) (l_total l + a) (l_epoch l), None)
  | EvEpoch n => (mkLedger (l_book l) (l_total l) (l_epoch l + n), None)
  end.

(** The answers, and the last page. *)
Fixpoint play_all (self : account_id) (l : ledger) (evs : list event)
    : list (option (list promise)) * ledger :=
  match evs with
  | [] => ([], l)
  | e :: r =>
      let '(l', o) := play_event self l e in
      let '(os, l'') := play_all self l' r in (o :: os, l'')
  end.

Definition open_ledger (w : world) : ledger := mkLedger (read (w_pool w)) (w_total w) (w_epoch w).

(** The numbers of the account stay within the types of the protocol at every call, and no more is
    locked than there is. *)
Definition modest (en : entry) : Prop :=
  match en_event en with
  | EvCall _ attached locked _ _ =>
      w_total (en_before en) + attached + 1 < U128_BOUND /\ locked <= w_total (en_before en) /\
      w_epoch (en_before en) + 4 < U64_BOUND
  | _ => True
  end.
