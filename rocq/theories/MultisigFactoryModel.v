(** Model of the multisig factory: multisig-factory/src/lib.rs. Definitions only. The contract has no fields
    (line 24, [Default]), so a call only reads its context. *)
From Coq Require Import NArith List Bool String.
From Verif Require Import Prelude.
From Verif Require Multisig2Model.
Import ListNotations.
Open Scope string_scope.
Open Scope N_scope.

(** multisig-factory/src/lib.rs:17-20, the type of the same name in multisig2. *)
Definition member := Multisig2Model.member.

(** multisig-factory/src/lib.rs:13 *)
Definition CREATE_CALL_GAS : N := 50000000000000.

Record ctx := mkCtx {
  ctx_current : account_id;
  ctx_predecessor : account_id;
  ctx_attached : N;
  ctx_prepaid_gas : N
}.

(** Create account [p_account], deploy the multisig2 code, transfer [p_amount] to it and call its [new] with the
    members and the number of confirmations, all in one receipt. *)
Record promise := mkPromise {
  p_account : account_id;
  p_amount : N;
  p_members : list member;
  p_num_confirmations : N;
  p_gas : N
}.

(** multisig-factory/src/lib.rs:28-49. The members pass through JSON unchanged. The runtime refuses to create a
    receipt for an account name that is not valid (not in /repo). *)
Definition create (c : ctx) (name : string) (ms : list member) (k : N) : res promise :=
  let a := name ++ "." ++ ctx_current c in
  assert! is_valid_account_id a orelse "InvalidAccountId" ;;
  let! gas := sub_chk (ctx_prepaid_gas c) CREATE_CALL_GAS in
  Ok (mkPromise a (ctx_attached c) ms k gas).
