(** Model of the lockup factory: lockup-factory/src/lib.rs and utils.rs. Definitions only.
    Logging is not modelled; gas amounts are in GasModel. *)
From Coq Require Import NArith List Bool String Ascii.
From Verif Require Import Prelude.
From Verif Require LockupModel.
Import ListNotations.
Open Scope string_scope.
Open Scope N_scope.
Module LM := LockupModel.

(** lockup-factory/src/lib.rs:13, 34 *)
Definition TRANSFERS_STARTED : N := 1602614338293769340.
Definition MIN_ATTACHED_BALANCE : N := 3500000000000000000000000.

(** lockup-factory/src/lib.rs:49-52 [LockupFactory] *)
Record factory := mkFactory {
  whitelist_account_id : account_id;
  foundation_account_id : account_id
}.

(** [ctx_sha256]: SHA-256 as a function from byte strings to byte strings, not modelled further. *)
Record ctx := mkCtx {
  ctx_current : account_id;
  ctx_predecessor : account_id;
  ctx_attached : N;
  ctx_results : list bool;      (** the promise results: did they succeed *)
  ctx_sha256 : string -> string
}.

(** lockup-factory/src/lib.rs:54-65 [LockupArgs]: the arguments of the lockup's [new]. The types of
    lockup-factory/src/types.rs are those of the lockup contract. *)
Record lockup_args := mkArgs {
  a_owner_account_id : account_id;
  a_lockup_duration : N;
  a_lockup_timestamp : option N;
  a_transfers_information : LM.transfers_info;
  a_vesting_schedule : option LM.schedule_or_hash;
  a_release_duration : option N;
  a_staking_pool_whitelist_account_id : account_id;
  a_foundation_account_id : option account_id
}.

(** Public methods that change state. *)
Inductive call :=
| Create (owner_account_id : account_id) (lockup_duration : N) (lockup_timestamp : option N)
    (vesting_schedule : option LM.schedule_or_hash) (release_duration : option N)
    (whitelist_account_id : option account_id)
| OnLockupCreate (lockup_account_id : account_id) (attached_deposit : N) (predecessor_account_id : account_id).

(** Promises. [PCreate a amount args cb]: create account [a], deploy the lockup code, transfer [amount] to it
    and call its [new] with [args], all in one receipt; then call [cb] on the factory. *)
Inductive promise :=
| PCreate (a : account_id) (amount : N) (args : lockup_args) (cb : call)
| PTransfer (to : account_id) (amount : N).

(** lockup-factory/src/lib.rs:75-90. The arguments are [ValidAccountId]s: an invalid one is refused when the
    arguments are decoded. *)
Definition new (current : account_id) (state_exists : bool) (whitelist foundation : account_id) : res factory :=
  assert! is_valid_account_id whitelist && is_valid_account_id foundation
    orelse "Failed to deserialize input from JSON." ;;
  assert! negb state_exists orelse "The contract is already initialized" ;;
  assert! slen current <=? 23
    orelse "The account ID of this contract can't be more than 23 characters" ;;
  Ok (mkFactory whitelist foundation).

(** lockup-factory/src/lib.rs:93-105 *)
Definition get_foundation_account_id (s : factory) : account_id := foundation_account_id s.
Definition get_lockup_master_account_id (c : ctx) : account_id := ctx_current c.
Definition get_min_attached_balance : N := MIN_ATTACHED_BALANCE.

(** [hex::encode] (library code, not in /repo): two lower-case digits for each byte. *)
Definition hex_digit (n : N) : ascii := ascii_of_N (if n <? 10 then 48 + n else 87 + n).
Fixpoint hex_encode (s : string) : string :=
  match s with
  | EmptyString => ""
  | String c r => String (hex_digit (N_of_ascii c / 16)) (String (hex_digit (N_of_ascii c mod 16)) (hex_encode r))
  end.

(** lockup-factory/src/lib.rs:119-121 *)
Definition lockup_account_id (c : ctx) (owner : account_id) : res account_id :=
  let byte_slice := ctx_sha256 c owner in
  assert! 20 <=? slen byte_slice orelse "range end index 20 out of range for slice" ;;
  Ok (hex_encode (substring 0 20 byte_slice) ++ "." ++ ctx_current c).

(** lockup-factory/src/lib.rs:108-166. The owner and the whitelist are [ValidAccountId]s. *)
Definition create (c : ctx) (s : factory) (owner : account_id) (duration : N) (timestamp : option N)
    (vesting : option LM.schedule_or_hash) (release : option N) (whitelist : option account_id)
    : res (factory * list promise) :=
  assert! is_valid_account_id owner && match whitelist with Some a => is_valid_account_id a | None => true end
    orelse "Failed to deserialize input from JSON." ;;
  assert! MIN_ATTACHED_BALANCE <=? ctx_attached c orelse "Not enough attached deposit" ;;
  let! a := lockup_account_id c owner in
  let foundation := match vesting with Some _ => Some (foundation_account_id s) | None => None end in
  let wl := match whitelist with Some a => a | None => whitelist_account_id s end in
  Ok (s, [PCreate a (ctx_attached c)
            (mkArgs owner duration timestamp (LM.TransfersEnabled TRANSFERS_STARTED) vesting release wl foundation)
            (OnLockupCreate a (ctx_attached c) (ctx_predecessor c))]).

(** lockup-factory/src/utils.rs:7-13 [is_promise_success] *)
Definition is_promise_success (c : ctx) : res bool :=
  match ctx_results c with
  | [b] => Ok b
  | _ => Panic "Contract expected a result on the callback"
  end.

(** lockup-factory/src/lib.rs:171-198; [assert_self] is utils.rs:3-5. *)
Definition on_lockup_create (c : ctx) (s : factory) (a : account_id) (deposit : N) (caller : account_id)
    : res (factory * list promise) :=
  assert! String.eqb (ctx_predecessor c) (ctx_current c) orelse "assertion failed: `(left == right)`" ;;
  let! created := is_promise_success c in
  Ok (s, if created : bool then [] else [PTransfer caller deposit]).

(** Dispatch. Only [create] is payable (line 107). *)
Definition exec (c : ctx) (s : factory) (m : call) : res (factory * list promise) :=
  match m with
  | Create owner duration timestamp vesting release whitelist =>
      create c s owner duration timestamp vesting release whitelist
  | OnLockupCreate a deposit caller =>
      assert! ctx_attached c =? 0 orelse "Method on_lockup_create doesn't accept deposit" ;;
      on_lockup_create c s a deposit caller
  end.
