(** Model of the voting contract: voting/src/lib.rs. Definitions only. Logging is not modelled. *)
From Coq Require Import NArith List Bool String.
From Verif Require Import Prelude.
Import ListNotations.
Open Scope string_scope.
Open Scope N_scope.

(** voting/src/lib.rs:15-24 [VotingContract]. The [HashMap] is an association list; its order stands
    for the hash map's iteration order. *)
Record contract := mkContract {
  votes : umap account_id N;
  total_voted_stake : N;
  result : option N;
  last_epoch_height : N
}.

(** The validators of the current epoch with their stakes, as the runtime knows them. *)
Definition validators := umap account_id N.

(** The values read through [near_sdk::env]. *)
Record ctx := mkCtx {
  ctx_predecessor : account_id;
  ctx_attached : N;
  ctx_epoch : N;
  ctx_timestamp : N;
  ctx_validators : validators
}.

(** [env::validator_stake] (near-sdk 2.0.0): zero for an account that is not a validator. *)
Definition validator_stake (c : ctx) (a : account_id) : N :=
  match mget a (ctx_validators c) with Some s => s | None => 0 end.

(** [env::validator_total_stake] (near-sdk 2.0.0). *)
Definition validator_total_stake (c : ctx) : N := msum (fun s => s) (ctx_validators c).

(** voting/src/lib.rs:34-43. [state_exists] is [env::state_exists()]. *)
Definition new (state_exists : bool) : res contract :=
  assert! negb state_exists orelse "The contract is already initialized" ;;
  Ok (mkContract [] 0 None 0).

(** voting/src/lib.rs:65-74. [u128] arithmetic: [2 * total_stake / 3]. *)
Definition check_result (c : ctx) (s : contract) : res contract :=
  assert! match result s with None => true | Some _ => false end
    orelse "check result is called after result is already set" ;;
  let total_stake := validator_total_stake c in
  let! d := mul128 2 total_stake in
  let! q := div_chk d 3 in
  if q <? total_voted_stake s
  then Ok (mkContract (votes s) (total_voted_stake s) (Some (ctx_timestamp c)) (last_epoch_height s))
  else Ok s.

(** voting/src/lib.rs:52-58: the loop over the old votes; [acc] is the state under construction. *)
Fixpoint retally (c : ctx) (old : umap account_id N) (acc : umap account_id N) (total : N)
    : res (umap account_id N * N) :=
  match old with
  | [] => Ok (acc, total)
  | (a, _) :: rest =>
      let stake := validator_stake c a in
      let! total := add128 total stake in
      retally c rest (if 0 <? stake then minsert a stake acc else acc) total
  end.

(** voting/src/lib.rs:46-63 *)
Definition ping (c : ctx) (s : contract) : res contract :=
  assert! match result s with None => true | Some _ => false end
    orelse "Voting has already ended" ;;
  if ctx_epoch c =? last_epoch_height s then Ok s
  else
    let! '(vs, total) := retally c (votes s) [] 0 in
    let! s := check_result c (mkContract vs total (result s) (last_epoch_height s)) in
    Ok (mkContract (votes s) (total_voted_stake s) (result s) (ctx_epoch c)).

(** voting/src/lib.rs:78-104 *)
Definition vote (c : ctx) (s : contract) (is_vote : bool) : res contract :=
  let! s := ping c s in
  match result s with
  | Some _ => Ok s
  | None =>
      let a := ctx_predecessor c in
      let! account_stake :=
        if is_vote then
          let stake := validator_stake c a in
          assert! 0 <? stake orelse "is not a validator" ;;
          Ok stake
        else Ok 0 in
      let voted_stake := match mget a (votes s) with Some v => v | None => 0 end in
      let vs := mremove a (votes s) in
      assert! voted_stake <=? total_voted_stake s
        orelse "invariant: voted stake is more than total voted stake" ;;
      let! t := add128 (total_voted_stake s) account_stake in
      let! t := sub_chk t voted_stake in
      if 0 <? account_stake
      then check_result c (mkContract (minsert a account_stake vs) t (result s) (last_epoch_height s))
      else Ok (mkContract vs t (result s) (last_epoch_height s))
  end.

(** Public methods that change state; neither is [#[payable]] (near-sdk 2.0.0 rejects a deposit). *)
Inductive call :=
| Ping
| Vote (is_vote : bool).

Definition exec (c : ctx) (s : contract) (m : call) : res contract :=
  assert! ctx_attached c =? 0 orelse "Method doesn't accept deposit" ;;
  match m with
  | Ping => ping c s
  | Vote b => vote c s b
  end.

(** voting/src/lib.rs:106-128. [HashMap] results are association lists. *)
Definition get_result (s : contract) : option N := result s.
Definition get_total_voted_stake (c : ctx) (s : contract) : N * N :=
  (total_voted_stake s, validator_total_stake c).
Definition get_votes (s : contract) : umap account_id N := votes s.
