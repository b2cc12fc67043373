(** Model of the whitelist contract: whitelist/src/lib.rs. Definitions only.

    The two [LookupSet]s are modelled down to the keys of the contract's storage: near-sdk 2.0.0
    stores an element under the set's prefix followed by the Borsh encoding of the element, which for
    a string is its length as four little-endian bytes and then its bytes. *)
From Coq Require Import NArith List Bool String Ascii.
From Verif Require Import Prelude.
Import ListNotations.
Open Scope string_scope.
Open Scope N_scope.

Definition byte (n : N) : ascii := ascii_of_N (n mod 256).

(** Borsh [u32] and [String]. *)
Definition borsh_u32 (n : N) : string :=
  String (byte n) (String (byte (n / 256)) (String (byte (n / 65536)) (String (byte (n / 16777216)) ""))).
Definition borsh_string (s : string) : string := borsh_u32 (slen s) ++ s.

(** [LookupSet] (near-sdk 2.0.0, not in /repo): [contains], [insert], [remove] on the storage keys. *)
Definition storage := uset string.
Definition lookup_key (prefix : string) (a : account_id) : string := prefix ++ borsh_string a.
Definition ls_contains (prefix : string) (st : storage) (a : account_id) : bool :=
  smem (lookup_key prefix a) st.
Definition ls_insert (prefix : string) (st : storage) (a : account_id) : storage * bool :=
  (sinsert (lookup_key prefix a) st, negb (smem (lookup_key prefix a) st)).
Definition ls_remove (prefix : string) (st : storage) (a : account_id) : storage * bool :=
  (sremove (lookup_key prefix a) st, smem (lookup_key prefix a) st).

(** whitelist/src/lib.rs:8-21 [WhitelistContract]; the prefixes are those of lines 41-42. The root
    object lives under the storage key "STATE". *)
Definition STATE_KEY : string := "STATE".
Definition WHITELIST_PREFIX : string := "w".
Definition FACTORY_PREFIX : string := "f".
Record contract := mkContract {
  foundation_account_id : account_id;
  keys : storage
}.

Record ctx := mkCtx { ctx_predecessor : account_id; ctx_attached : N }.

(** whitelist/src/lib.rs:33-44 *)
Definition new (state_exists : bool) (foundation : account_id) : res contract :=
  assert! negb state_exists orelse "Already initialized" ;;
  assert! is_valid_account_id foundation orelse "The NEAR Foundation account ID is invalid" ;;
  Ok (mkContract foundation []).

(** whitelist/src/lib.rs:51-57 *)
Definition is_whitelisted (s : contract) (p : account_id) : res bool :=
  assert! is_valid_account_id p orelse "The given account ID is invalid" ;;
  Ok (ls_contains WHITELIST_PREFIX (keys s) p).

(** whitelist/src/lib.rs:60-66 *)
Definition is_factory_whitelisted (s : contract) (f : account_id) : res bool :=
  assert! is_valid_account_id f orelse "The given account ID is invalid" ;;
  Ok (ls_contains FACTORY_PREFIX (keys s) f).

(** whitelist/src/lib.rs:135-141 *)
Definition assert_called_by_foundation (c : ctx) (s : contract) : res unit :=
  require (String.eqb (ctx_predecessor c) (foundation_account_id s)) "Can only be called by NEAR Foundation".

(** whitelist/src/lib.rs:75-87 *)
Definition add_staking_pool (c : ctx) (s : contract) (p : account_id) : res (contract * bool) :=
  assert! is_valid_account_id p orelse "The given account ID is invalid" ;;
  let! _ := if negb (ls_contains FACTORY_PREFIX (keys s) (ctx_predecessor c))
            then assert_called_by_foundation c s else Ok tt in
  let '(st, b) := ls_insert WHITELIST_PREFIX (keys s) p in
  Ok (mkContract (foundation_account_id s) st, b).

(** whitelist/src/lib.rs:97-104 *)
Definition remove_staking_pool (c : ctx) (s : contract) (p : account_id) : res (contract * bool) :=
  let! _ := assert_called_by_foundation c s in
  assert! is_valid_account_id p orelse "The given account ID is invalid" ;;
  let '(st, b) := ls_remove WHITELIST_PREFIX (keys s) p in
  Ok (mkContract (foundation_account_id s) st, b).

(** whitelist/src/lib.rs:109-116 *)
Definition add_factory (c : ctx) (s : contract) (f : account_id) : res (contract * bool) :=
  assert! is_valid_account_id f orelse "The given account ID is invalid" ;;
  let! _ := assert_called_by_foundation c s in
  let '(st, b) := ls_insert FACTORY_PREFIX (keys s) f in
  Ok (mkContract (foundation_account_id s) st, b).

(** whitelist/src/lib.rs:121-128 *)
Definition remove_factory (c : ctx) (s : contract) (f : account_id) : res (contract * bool) :=
  let! _ := assert_called_by_foundation c s in
  assert! is_valid_account_id f orelse "The given account ID is invalid" ;;
  let '(st, b) := ls_remove FACTORY_PREFIX (keys s) f in
  Ok (mkContract (foundation_account_id s) st, b).

Inductive call :=
| AddStakingPool (p : account_id)
| RemoveStakingPool (p : account_id)
| AddFactory (f : account_id)
| RemoveFactory (f : account_id).

(** No method is [#[payable]]: near-sdk 2.0.0 rejects an attached deposit. *)
Definition exec (c : ctx) (s : contract) (m : call) : res (contract * bool) :=
  assert! ctx_attached c =? 0 orelse "Method doesn't accept deposit" ;;
  match m with
  | AddStakingPool p => add_staking_pool c s p
  | RemoveStakingPool p => remove_staking_pool c s p
  | AddFactory f => add_factory c s f
  | RemoveFactory f => remove_factory c s f
  end.
