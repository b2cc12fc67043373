(** The world around one staking pool factory: its account balance, the accounts that exist, and the messages
    in flight. Messages are executed one at a time, in any order.

    Specification: the factory is used only through [exec], the pool only through its [new]. Assumed of the
    runtime: only the receipt of a creation and the holder of a factory key create sub-accounts of the factory;
    a receipt that fails does so as a whole and its tokens are back on the factory's account before the
    callback runs; callbacks have the gas they need. *)
From Coq Require Import NArith List Bool String.
From Verif Require Import Prelude Messages PoolFactoryModel.
From Verif Require StakingPoolModel.
Import ListNotations.
Open Scope string_scope.
Open Scope N_scope.
Module SM := StakingPoolModel.

(** A message in flight. *)
Inductive msg :=
| MCreate (a : account_id) (amount : N) (args : pool_args) (cb : call)  (** a creation, with its tokens *)
| MBack (cb : call) (ok : bool)                    (** the creation was executed; its callback is due *).

Record world := mkWorld {
  w_factory : factory;
  w_balance : N;                  (** balance of the factory account *)
  w_accounts : uset account_id;   (** the accounts that exist *)
  w_msgs : list msg
}.

Inductive event :=
| ECall (who : account_id) (attached : N) (m : call)    (** somebody calls any method *)
| ECreate (n : nat) (enough_gas : bool) (epoch : N)     (** creation number [n] in flight is executed *)
| ERun (n : nat)                                        (** callback number [n] in flight is executed *)
| EIncome (x : N)                                       (** somebody sends tokens to the factory *)
| EAccount (a : account_id).                            (** an account is created by other means *)

(** What an observer sees. *)
Inductive obs :=
| BAccepted (who : account_id) (a : account_id) (amount : N)    (** a call of [who] started the creation of [a] *)
| BRejected (who : account_id) (m : call)                       (** a call failed *)
| BCreated (who : account_id) (a : account_id) (amount : N) (p : SM.pool)
                                      (** [a] was created with [amount]; the creation was paid by [who] *)
| BRefund (to : account_id) (amount : N)                        (** the factory sent tokens *)
| BWhitelist (whitelist : account_id) (a : account_id)          (** the factory asked [whitelist] to add [a] *)
| BStuck (cb : call).                                           (** a callback failed *)

Definition tokens_of (p : promise) : N :=
  match p with PCreate _ x _ _ => x | PTransfer _ x => x | PAddStakingPool _ _ => 0 end.
Definition total_tokens (ps : list promise) : N := fold_right (fun p x => tokens_of p + x) 0 ps.
Definition msgs_of (ps : list promise) : list msg :=
  flat_map (fun p => match p with PCreate a x args cb => [MCreate a x args cb] | _ => [] end) ps.
Definition obs_of (who : account_id) (ps : list promise) : list obs :=
  map (fun p => match p with
                | PCreate a x _ _ => BAccepted who a x
                | PTransfer to x => BRefund to x
                | PAddStakingPool w a => BWhitelist w a
                end) ps.

(** One call of the factory: [None] if it fails. A call that sends more than the account holds fails. *)
Definition run (self : account_id) (w : world) (who : account_id) (attached : N) (results : list bool) (m : call)
    : option (world * list obs) :=
  match exec (mkCtx self who attached results) (w_factory w) m with
  | Ok (s, ps) =>
      if total_tokens ps <=? w_balance w + attached
      then Some (mkWorld s (w_balance w + attached - total_tokens ps) (w_accounts w) (w_msgs w ++ msgs_of ps),
                 obs_of who ps)
      else None
  | Panic _ => None
  end%list.

(** Who paid for a creation, as its callback records. *)
Definition payer (cb : call) : account_id :=
  match cb with OnStakingPoolCreate _ _ who => who | CreateStakingPool _ _ _ _ => "" end.

(** The receipt that creates a pool: it fails if the account exists, or for lack of gas, or if the pool's
    [new] panics. *)
Definition create_pool (self : account_id) (w : world) (a : account_id) (amount : N) (args : pool_args)
    (enough_gas : bool) (epoch : N) : option SM.pool :=
  if smem a (w_accounts w) || negb enough_gas then None
  else match SM.new (SM.mkCtx a self 0 amount 0 epoch []) false (a_owner_id args) (a_stake_public_key args)
               (a_reward_fee_fraction args) with
       | Ok (p, _) => Some p
       | Panic _ => None
       end.

Definition step_obs (self : account_id) (w : world) (ev : event) : world * list obs :=
  match ev with
  | ECall who attached m =>
      match run self w who attached [] m with
      | Some r => r
      | None => (w, [BRejected who m])
      end
  | ECreate n gas epoch =>
      match nth_error (w_msgs w) n with
      | Some (MCreate a amount args cb) =>
          match create_pool self w a amount args gas epoch with
          | Some p => (mkWorld (w_factory w) (w_balance w) (sinsert a (w_accounts w))
                         (drop_nth n (w_msgs w) ++ [MBack cb true]), [BCreated (payer cb) a amount p])
          | None => (mkWorld (w_factory w) (w_balance w + amount) (w_accounts w)
                       (drop_nth n (w_msgs w) ++ [MBack cb false]), [])
          end
      | _ => (w, [])
      end
  | ERun n =>
      match nth_error (w_msgs w) n with
      | Some (MBack cb ok) =>
          let w1 := mkWorld (w_factory w) (w_balance w) (w_accounts w) (drop_nth n (w_msgs w)) in
          match run self w1 self 0 [ok] cb with
          | Some r => r
          | None => (w1, [BStuck cb])
          end
      | _ => (w, [])
      end
  | EIncome x => (mkWorld (w_factory w) (w_balance w + x) (w_accounts w) (w_msgs w), [])
  | EAccount a => (mkWorld (w_factory w) (w_balance w) (sinsert a (w_accounts w)) (w_msgs w), [])
  end%list.

Definition step (self : account_id) (w : world) (ev : event) : world := fst (step_obs self w ev).
Fixpoint final (self : account_id) (w : world) (evs : list event) : world :=
  match evs with [] => w | ev :: r => final self (step self w ev) r end.
(** Everything observed, oldest first. *)
Fixpoint log (self : account_id) (w : world) (evs : list event) : list obs :=
  match evs with [] => [] | ev :: r => snd (step_obs self w ev) ++ log self (step self w ev) r end%list.

(** Would this call succeed now? *)
Definition accepts (self : account_id) (w : world) (who : account_id) (attached : N) (m : call) : bool :=
  match run self w who attached [] m with Some _ => true | None => false end.

(** Right after a successful initialisation: nothing is in flight. *)
Definition starts (whitelist : account_id) (w : world) : Prop :=
  new false whitelist = Ok (w_factory w) /\ w_msgs w = [].

(** * Reading the log *)

(** Who paid how much for which creation. *)
Definition accepted (l : list obs) : list (account_id * N) :=
  flat_map (fun o => match o with BAccepted who _ x => [(who, x)] | _ => [] end) l.
Definition created (l : list obs) : list (account_id * N) :=
  flat_map (fun o => match o with BCreated who _ x _ => [(who, x)] | _ => [] end) l.
Definition refunded (l : list obs) : list (account_id * N) :=
  flat_map (fun o => match o with BRefund to x => [(to, x)] | _ => [] end) l.
Definition created_pools (l : list obs) : list account_id :=
  flat_map (fun o => match o with BCreated _ a _ _ => [a] | _ => [] end) l.
Definition whitelisted (l : list obs) : list (account_id * account_id) :=
  flat_map (fun o => match o with BWhitelist w a => [(w, a)] | _ => [] end) l.
Definition stuck (l : list obs) : list call :=
  flat_map (fun o => match o with BStuck cb => [cb] | _ => [] end) l.
Definition incomes (evs : list event) : N :=
  fold_right (fun ev x => match ev with EIncome y => y + x | _ => x end) 0 evs.

(** * What is in flight *)

(** Creations that are neither finished nor refunded: not yet executed, or executed without success. *)
Definition pending_creations (w : world) : list (account_id * account_id * N) :=
  flat_map (fun m => match m with
                     | MCreate a x _ (OnStakingPoolCreate _ _ who) => [(who, a, x)]
                     | MBack (OnStakingPoolCreate a x who) false => [(who, a, x)]
                     | _ => []
                     end) (w_msgs w).
(** Their payers and deposits; their accounts. *)
Definition pending (w : world) : list (account_id * N) :=
  map (fun c => (fst (fst c), snd c)) (pending_creations w).
Definition pending_pools (w : world) : list account_id := map (fun c => snd (fst c)) (pending_creations w).
(** Pools that exist and for which the callback is due. *)
Definition to_whitelist (w : world) : list account_id :=
  flat_map (fun m => match m with MBack (OnStakingPoolCreate a _ _) true => [a] | _ => [] end) (w_msgs w).
(** The deposits of failed creations, on the factory's account until they are refunded. *)
Definition to_refund (w : world) : N :=
  fold_right (fun m x => match m with MBack (OnStakingPoolCreate _ y _) false => y + x | _ => x end) 0 (w_msgs w).

(** [name] names a direct sub-account [a] of [self]. *)
Definition direct_subaccount (self : account_id) (name : string) (a : account_id) : Prop :=
  a = name ++ "." ++ self /\ name <> "" /\ has_dot name = false /\ is_valid_account_id a = true.

(** A reward fee between 0 and 1. *)
Definition valid_fee (f : fraction) : Prop := SM.denominator f <> 0 /\ SM.numerator f <= SM.denominator f.
