(** The world around one lockup factory: its account balance, the accounts that exist, and the messages in
    flight. Messages are executed one at a time, in any order.

    Specification: the factory is used only through [exec], the lockup only through its [new]. Assumed of the
    runtime: a receipt that fails does so as a whole and its tokens are back on the factory's account before the
    callback runs; callbacks have the gas they need. *)
From Coq Require Import NArith List Bool String Ascii.
From Verif Require Import Prelude Messages LockupFactoryModel.
From Verif Require LockupModel LockupWorld.
Import ListNotations.
Open Scope string_scope.
Open Scope N_scope.

(** A message in flight. *)
Inductive msg :=
| MCreate (a : account_id) (amount : N) (args : lockup_args) (cb : call)  (** a creation, with its tokens *)
| MBack (cb : call) (ok : bool)                    (** the creation was executed; its callback is due *).

Record world := mkWorld {
  w_factory : factory;
  w_balance : N;                  (** balance of the factory account *)
  w_accounts : uset account_id;   (** the accounts that exist *)
  w_msgs : list msg
}.

(** What does not change: the id of the factory account, and the hash functions. *)
Record genesis := mkGenesis {
  g_self : account_id;
  g_sha256 : string -> string;
  g_hash : LM.vesting_schedule -> string -> string
}.

Inductive event :=
| ECall (who : account_id) (attached : N) (m : call)    (** somebody calls any method *)
| ECreate (n : nat) (enough_gas : bool) (time : N)      (** creation number [n] in flight is executed *)
| ERun (n : nat)                                        (** callback number [n] in flight is executed *)
| EIncome (x : N)                                       (** somebody sends tokens to the factory *)
| EAccount (a : account_id).                            (** an account is created by other means *)

(** What an observer sees. *)
Inductive obs :=
| BAccepted (who : account_id) (a : account_id) (amount : N)    (** a call of [who] started the creation of [a] *)
| BRejected (who : account_id) (m : call)                       (** a call failed *)
| BCreated (who : account_id) (a : account_id) (amount : N) (time : N) (p : LM.contract)
                                      (** [a] was created with [amount]; the creation was paid by [who] *)
| BRefund (to : account_id) (amount : N)                        (** the factory sent tokens *)
| BStuck (cb : call).                                           (** a callback failed *)

Definition tokens_of (p : promise) : N := match p with PCreate _ x _ _ => x | PTransfer _ x => x end.
Definition total_tokens (ps : list promise) : N := fold_right (fun p x => tokens_of p + x) 0 ps.
Definition msgs_of (ps : list promise) : list msg :=
  flat_map (fun p => match p with PCreate a x args cb => [MCreate a x args cb] | _ => [] end) ps.
Definition obs_of (who : account_id) (ps : list promise) : list obs :=
  map (fun p => match p with
                | PCreate a x _ _ => BAccepted who a x
                | PTransfer to x => BRefund to x
                end) ps.

(** One call of the factory: [None] if it fails. A call that sends more than the account holds fails. *)
Definition run (g : genesis) (w : world) (who : account_id) (attached : N) (results : list bool) (m : call)
    : option (world * list obs) :=
  match exec (mkCtx (g_self g) who attached results (g_sha256 g)) (w_factory w) m with
  | Ok (s, ps) =>
      if total_tokens ps <=? w_balance w + attached
      then Some (mkWorld s (w_balance w + attached - total_tokens ps) (w_accounts w) (w_msgs w ++ msgs_of ps),
                 obs_of who ps)
      else None
  | Panic _ => None
  end%list.

(** Who paid for a creation, as its callback records. *)
Definition payer (cb : call) : account_id :=
  match cb with OnLockupCreate _ _ who => who | _ => "" end.

(** The lockup's [new] with given arguments, on a fresh account [a] holding [amount]. *)
Definition new_lockup (g : genesis) (a : account_id) (amount : N) (args : lockup_args) (time : N)
    : res LM.contract :=
  LM.new (LM.mkCtx a (g_self g) 0 time amount [] (g_hash g)) false (a_owner_account_id args)
    (a_lockup_duration args) (a_lockup_timestamp args) (a_transfers_information args) (a_vesting_schedule args)
    (a_release_duration args) (a_staking_pool_whitelist_account_id args) (a_foundation_account_id args).

(** The receipt that creates a lockup: it fails if the account exists, or for lack of gas, or if the lockup's
    [new] panics. *)
Definition create_lockup (g : genesis) (w : world) (a : account_id) (amount : N) (args : lockup_args)
    (enough_gas : bool) (time : N) : option LM.contract :=
  if smem a (w_accounts w) || negb enough_gas then None
  else match new_lockup g a amount args time with Ok p => Some p | Panic _ => None end.

Definition step_obs (g : genesis) (w : world) (ev : event) : world * list obs :=
  match ev with
  | ECall who attached m =>
      match run g w who attached [] m with
      | Some r => r
      | None => (w, [BRejected who m])
      end
  | ECreate n gas time =>
      match nth_error (w_msgs w) n with
      | Some (MCreate a amount args cb) =>
          match create_lockup g w a amount args gas time with
          | Some p => (mkWorld (w_factory w) (w_balance w) (sinsert a (w_accounts w))
                         (drop_nth n (w_msgs w) ++ [MBack cb true]), [BCreated (payer cb) a amount time p])
          | None => (mkWorld (w_factory w) (w_balance w + amount) (w_accounts w)
                       (drop_nth n (w_msgs w) ++ [MBack cb false]), [])
          end
      | _ => (w, [])
      end
  | ERun n =>
      match nth_error (w_msgs w) n with
      | Some (MBack cb ok) =>
          let w1 := mkWorld (w_factory w) (w_balance w) (w_accounts w) (drop_nth n (w_msgs w)) in
          match run g w1 (g_self g) 0 [ok] cb with
          | Some r => r
          | None => (w1, [BStuck cb])
          end
      | _ => (w, [])
      end
  | EIncome x => (mkWorld (w_factory w) (w_balance w + x) (w_accounts w) (w_msgs w), [])
  | EAccount a => (mkWorld (w_factory w) (w_balance w) (sinsert a (w_accounts w)) (w_msgs w), [])
  end%list.

Definition step (g : genesis) (w : world) (ev : event) : world := fst (step_obs g w ev).
Fixpoint final (g : genesis) (w : world) (evs : list event) : world :=
  match evs with [] => w | ev :: r => final g (step g w ev) r end.
(** Everything observed, oldest first. *)
Fixpoint log (g : genesis) (w : world) (evs : list event) : list obs :=
  match evs with [] => [] | ev :: r => snd (step_obs g w ev) ++ log g (step g w ev) r end%list.

(** Would this call succeed now? *)
Definition accepts (g : genesis) (w : world) (who : account_id) (attached : N) (m : call) : bool :=
  match run g w who attached [] m with Some _ => true | None => false end.

(** Right after a successful initialisation: nothing is in flight. The factory's own account has a valid name,
    and SHA-256 gives 32 bytes. *)
Record starts (g : genesis) (whitelist foundation : account_id) (w : world) : Prop := mkStarts {
  st_new : new (g_self g) false whitelist foundation = Ok (w_factory w);
  st_msgs : w_msgs w = [];
  st_self : is_valid_account_id (g_self g) = true;
  st_sha256 : forall s, slen (g_sha256 g s) = 32
}.

(** * Reading the log *)

(** Who paid how much for which creation. *)
Definition accepted (l : list obs) : list (account_id * N) :=
  flat_map (fun o => match o with BAccepted who _ x => [(who, x)] | _ => [] end) l.
Definition created (l : list obs) : list (account_id * N) :=
  flat_map (fun o => match o with BCreated who _ x _ _ => [(who, x)] | _ => [] end) l.
Definition refunded (l : list obs) : list (account_id * N) :=
  flat_map (fun o => match o with BRefund to x => [(to, x)] | _ => [] end) l.
Definition created_lockups (l : list obs) : list account_id :=
  flat_map (fun o => match o with BCreated _ a _ _ _ => [a] | _ => [] end) l.
Definition stuck (l : list obs) : list call :=
  flat_map (fun o => match o with BStuck cb => [cb] | _ => [] end) l.
Definition incomes (evs : list event) : N :=
  fold_right (fun ev x => match ev with EIncome y => y + x | _ => x end) 0 evs.

(** * What is in flight *)

(** The payers and deposits of the creations that are neither finished nor refunded: not yet executed, or
    executed without success. *)
Definition pending (w : world) : list (account_id * N) :=
  flat_map (fun m => match m with
                     | MCreate _ x _ (OnLockupCreate _ _ who) => [(who, x)]
                     | MBack (OnLockupCreate _ x who) false => [(who, x)]
                     | _ => []
                     end) (w_msgs w).
(** The deposits of failed creations, on the factory's account until they are refunded. *)
Definition to_refund (w : world) : N :=
  fold_right (fun m x => match m with MBack (OnLockupCreate _ y _) false => y + x | _ => x end) 0 (w_msgs w).

(** * Names *)

Fixpoint has_dot (s : string) : bool :=
  match s with
  | EmptyString => false
  | String c r => Ascii.eqb c "."%char || has_dot r
  end.
(** [name] names a direct sub-account [a] of [self]. *)
Definition direct_subaccount (self : account_id) (name : string) (a : account_id) : Prop :=
  a = name ++ "." ++ self /\ name <> "" /\ has_dot name = false /\ is_valid_account_id a = true.

(** The first twenty bytes of the hash of the owner's name. *)
Definition fingerprint (g : genesis) (owner : account_id) : string := substring 0 20 (g_sha256 g owner).

(** The name of the lockup account of an owner. *)
Definition lockup_name (g : genesis) (owner : account_id) : account_id :=
  hex_encode (fingerprint g owner) ++ "." ++ g_self g.

(** The numbers of a call are 64-bit numbers. *)
Definition call_in_range (m : call) : Prop :=
  match m with
  | Create _ duration timestamp vesting release _ =>
      duration < U64_BOUND /\ LockupWorld.u64_opt timestamp /\ LockupWorld.u64_opt release /\
      match vesting with Some (LM.ArgSchedule vs) => LockupWorld.u64_schedule vs | _ => True end
  | _ => True
  end.
