(** Model of the wrapped NEAR token: w-near/src/lib.rs, w_near.rs, legacy_storage.rs. Definitions only.

    The contract takes most of its methods from near-contract-standards 3.1.0 through two macros (w-near/src/lib.rs:
    43-44); that library is not in /repo and is modelled from its published source. Logs, memos and messages are
    not modelled. *)
From Coq Require Import NArith List Bool String.
From Verif Require Import Prelude.
Import ListNotations.
Open Scope string_scope.
Open Scope N_scope.

(** near-contract-standards fungible_token/core_impl.rs [FungibleToken]; w-near/src/lib.rs:29-31 [Contract] wraps it. *)
Record token := mkToken {
  accounts : umap account_id N;
  total_supply : N;
  account_storage_usage : N
}.

(** near-sdk 3.1.0 [env::storage_byte_cost] *)
Definition STORAGE_BYTE_COST : N := 10 ^ 19.
(** near-contract-standards core_impl.rs *)
Definition GAS_FOR_RESOLVE_TRANSFER : N := 5000000000000.
Definition GAS_FOR_FT_TRANSFER_CALL : N := 25000000000000 + GAS_FOR_RESOLVE_TRANSFER.

(** What a receiver's [ft_on_transfer] may come back with. *)
Inductive result := Failed | Undecodable | Unused (n : N).

Record ctx := mkCtx {
  ctx_current : account_id;
  ctx_predecessor : account_id;
  ctx_attached : N;
  ctx_prepaid_gas : N;
  ctx_result : option result   (** [None]: the call is not a callback *)
}.

Inductive promise :=
| PTransfer (to : account_id) (amount : N)
| PTransferCall (sender receiver : account_id) (amount : N) (gas : N)
    (** [ft_on_transfer] of [receiver], then [ft_resolve_transfer] of this contract *).

Inductive value := VNone | VBool (b : bool) | VAmount (n : N) | VStorage (total available : N).

Inductive call :=
| New
| NearDeposit
| NearWithdraw (amount : N)
| FtTransfer (receiver : account_id) (amount : N)
| FtTransferCall (receiver : account_id) (amount : N)
| FtResolveTransfer (sender receiver : account_id) (amount : N)
| StorageDeposit (account : option account_id) (registration_only : option bool)
| StorageWithdraw (amount : option N)
| StorageUnregister (force : option bool).

(** w-near/src/lib.rs:36-40, with [FungibleToken::new] and [measure_account_storage_usage], which inserts and
    removes an account of 64 bytes. *)
Definition new : token := mkToken [] 0 (40 + (1 + 4 + 64) + 16).

(** Library: [storage_balance_bounds]; w-near/src/legacy_storage.rs:5-7 [storage_minimum_balance]. *)
Definition storage_min (t : token) : res N := mul128 (account_storage_usage t) STORAGE_BYTE_COST.

(** Library: [internal_unwrap_balance_of]. *)
Definition unwrap_balance_of (t : token) (a : account_id) : res N :=
  expect (mget a (accounts t)) "The account is not registered".

(** Library: [internal_deposit]. *)
Definition internal_deposit (t : token) (a : account_id) (amount : N) : res token :=
  let! balance := unwrap_balance_of t a in
  let! balance := add128 balance amount in
  let! supply := add128 (total_supply t) amount in
  Ok (mkToken (minsert a balance (accounts t)) supply (account_storage_usage t)).

(** Library: [internal_withdraw]. *)
Definition internal_withdraw (t : token) (a : account_id) (amount : N) : res token :=
  let! balance := unwrap_balance_of t a in
  let! balance := sub_chk balance amount in
  let! supply := sub_chk (total_supply t) amount in
  Ok (mkToken (minsert a balance (accounts t)) supply (account_storage_usage t)).

(** Library: [internal_transfer]. *)
Definition internal_transfer (t : token) (sender receiver : account_id) (amount : N) : res token :=
  assert! negb (String.eqb sender receiver) orelse "Sender and receiver should be different" ;;
  assert! 0 <? amount orelse "The amount should be a positive number" ;;
  let! t := internal_withdraw t sender amount in
  internal_deposit t receiver amount.

(** Library: [internal_register_account]. *)
Definition internal_register_account (t : token) (a : account_id) : res token :=
  assert! negb (mmem a (accounts t)) orelse "The account is already registered" ;;
  Ok (mkToken (minsert a 0 (accounts t)) (total_supply t) (account_storage_usage t)).

Definition assert_one_yocto (c : ctx) : res unit :=
  require (ctx_attached c =? 1) "Requires attached deposit of exactly 1 yoctoNEAR".

(** w-near/src/w_near.rs:12-29 *)
Definition near_deposit (c : ctx) (t : token) : res (token * list promise * value) :=
  let amount := ctx_attached c in
  assert! 0 <? amount orelse "Requires positive attached deposit" ;;
  let a := ctx_predecessor c in
  let! '(t, amount) :=
    if negb (mmem a (accounts t)) then
      let! min := storage_min t in
      assert! min <=? amount orelse "ERR_DEPOSIT_TOO_SMALL" ;;
      let! t := internal_register_account t a in
      let! min := storage_min t in
      let! amount := sub_chk amount min in
      Ok (t, amount)
    else Ok (t, amount) in
  let! t := internal_deposit t a amount in
  Ok (t, [], VNone).

(** w-near/src/w_near.rs:37-46 *)
Definition near_withdraw (c : ctx) (t : token) (amount : N) : res (token * list promise * value) :=
  let! _ := assert_one_yocto c in
  let a := ctx_predecessor c in
  let! t := internal_withdraw t a amount in
  let! x := add128 amount 1 in
  Ok (t, [PTransfer a x], VNone).

(** Library: [ft_transfer]. *)
Definition ft_transfer (c : ctx) (t : token) (receiver : account_id) (amount : N) : res (token * list promise * value) :=
  let! _ := assert_one_yocto c in
  let! t := internal_transfer t (ctx_predecessor c) receiver amount in
  Ok (t, [], VNone).

(** Library: [ft_transfer_call]. *)
Definition ft_transfer_call (c : ctx) (t : token) (receiver : account_id) (amount : N)
    : res (token * list promise * value) :=
  let! _ := assert_one_yocto c in
  let sender := ctx_predecessor c in
  let! t := internal_transfer t sender receiver amount in
  let! gas := sub_chk (ctx_prepaid_gas c) GAS_FOR_FT_TRANSFER_CALL in
  Ok (t, [PTransferCall sender receiver amount gas], VNone).

(** Library: [internal_ft_resolve_transfer]: the new state and the amount used. *)
Definition internal_resolve (t : token) (r : result) (sender receiver : account_id) (amount : N) : res (token * N) :=
  let unused := match r with
                | Unused n => N.min amount n
                | Undecodable | Failed => amount
                end in
  if 0 <? unused then
    let receiver_balance := match mget receiver (accounts t) with Some b => b | None => 0 end in
    if 0 <? receiver_balance then
      let refund := N.min receiver_balance unused in
      let! rest := sub_chk receiver_balance refund in
      let acs := minsert receiver rest (accounts t) in
      match mget sender acs with
      | Some sender_balance =>
          let! b := add128 sender_balance refund in
          let! used := sub_chk amount refund in
          Ok (mkToken (minsert sender b acs) (total_supply t) (account_storage_usage t), used)
      | None =>
          let! supply := sub_chk (total_supply t) refund in
          Ok (mkToken acs supply (account_storage_usage t), amount)
      end
    else Ok (t, amount)
  else Ok (t, amount).

(** Library: [ft_resolve_transfer], a private method. *)
Definition ft_resolve_transfer (c : ctx) (t : token) (sender receiver : account_id) (amount : N)
    : res (token * list promise * value) :=
  assert! String.eqb (ctx_predecessor c) (ctx_current c) orelse "Method ft_resolve_transfer is private" ;;
  assert! ctx_attached c =? 0 orelse "Method ft_resolve_transfer doesn't accept deposit" ;;
  let! r := expect (ctx_result c) "no promise results" in
  let! '(t, used) := internal_resolve t r sender receiver amount in
  Ok (t, [], VAmount used).

(** Library: [storage_deposit]. *)
Definition storage_deposit (c : ctx) (t : token) (account : option account_id) : res (token * list promise * value) :=
  let amount := ctx_attached c in
  let a := match account with Some a => a | None => ctx_predecessor c end in
  let! min := storage_min t in
  if mmem a (accounts t) then
    Ok (t, if 0 <? amount then [PTransfer (ctx_predecessor c) amount] else [], VStorage min 0)
  else
    assert! min <=? amount orelse "The attached deposit is less than the minimum storage balance" ;;
    let! t := internal_register_account t a in
    let! refund := sub_chk amount min in
    Ok (t, if 0 <? refund then [PTransfer (ctx_predecessor c) refund] else [], VStorage min 0).

(** Library: [storage_withdraw]. *)
Definition storage_withdraw (c : ctx) (t : token) (amount : option N) : res (token * list promise * value) :=
  let! _ := assert_one_yocto c in
  assert! mmem (ctx_predecessor c) (accounts t) orelse "The account is not registered" ;;
  let! min := storage_min t in
  assert! (match amount with Some x => x =? 0 | None => true end)
    orelse "The amount is greater than the available storage balance" ;;
  Ok (t, [], VStorage min 0).

(** Library: [storage_unregister] and [internal_storage_unregister]. *)
Definition storage_unregister (c : ctx) (t : token) (force : option bool) : res (token * list promise * value) :=
  let! _ := assert_one_yocto c in
  let a := ctx_predecessor c in
  match mget a (accounts t) with
  | Some balance =>
      assert! (balance =? 0) || (match force with Some b => b | None => false end)
        orelse "Can't unregister the account with the positive balance without force" ;;
      let! supply := sub_chk (total_supply t) balance in
      let! min := storage_min t in
      let! x := add128 min 1 in
      Ok (mkToken (mremove a (accounts t)) supply (account_storage_usage t), [PTransfer a x], VBool true)
  | None => Ok (t, [], VBool false)
  end.

(** Views of the library. *)
Definition ft_total_supply (t : token) : N := total_supply t.
Definition ft_balance_of (t : token) (a : account_id) : N :=
  match mget a (accounts t) with Some b => b | None => 0 end.
Definition storage_balance_of (t : token) (a : account_id) : res (option (N * N)) :=
  if mmem a (accounts t) then let! min := storage_min t in Ok (Some (min, 0)) else Ok None.

(** Arguments arrive as JSON: amounts are u128, account names are valid. *)
Definition arguments_ok (cl : call) : bool :=
  match cl with
  | New | NearDeposit | StorageUnregister _ => true
  | NearWithdraw x => fits U128_BOUND x
  | FtTransfer a x | FtTransferCall a x => is_valid_account_id a && fits U128_BOUND x
  | FtResolveTransfer a b x => is_valid_account_id a && is_valid_account_id b && fits U128_BOUND x
  | StorageDeposit a _ => match a with Some a => is_valid_account_id a | None => true end
  | StorageWithdraw x => match x with Some x => fits U128_BOUND x | None => true end
  end.

(** One call, once the contract is initialised. *)
Definition exec (c : ctx) (t : token) (cl : call) : res (token * list promise * value) :=
  assert! arguments_ok cl orelse "Failed to deserialize input from JSON." ;;
  match cl with
  | New => Panic "The contract has already been initialized"
  | NearDeposit => near_deposit c t
  | NearWithdraw x => near_withdraw c t x
  | FtTransfer a x => ft_transfer c t a x
  | FtTransferCall a x => ft_transfer_call c t a x
  | FtResolveTransfer a b x => ft_resolve_transfer c t a b x
  | StorageDeposit a _ => storage_deposit c t a
  | StorageWithdraw x => storage_withdraw c t x
  | StorageUnregister f => storage_unregister c t f
  end.
