(** How the contracts of /repo are written to storage: the Borsh codec of every type they persist, field by field in the
    order of the Rust declarations. Definitions only. *)
From Coq Require Import NArith List Bool String Ascii.
From Verif Require Import Prelude StorageModel Borsh.
From Verif Require LockupModel StakingPoolModel VotingModel WhitelistModel MultisigModel Multisig2Model
  PoolFactoryModel LockupFactoryModel WNearModel.
Import ListNotations.
Open Scope string_scope.
Open Scope N_scope.

(** * Lockup *)
Module LM := LockupModel.

(** lockup/src/types.rs:59-69 *)
Definition c_transfers : codec LM.transfers_info :=
  c_struct (fun t => match t with LM.TransfersEnabled n => inl n | LM.TransfersDisabled a => inr a end)
    (fun x => match x with inl n => LM.TransfersEnabled n | inr a => LM.TransfersDisabled a end)
    (c_enum (v_or c_u64 (v_last c_bytes))).
(** lockup/src/types.rs:28-54 *)
Definition c_lockup_info : codec LM.lockup_info :=
  c_struct (fun i => (LM.lockup_amount i, (LM.termination_withdrawn_tokens i, (LM.lockup_duration i,
              (LM.release_duration i, (LM.lockup_timestamp i, LM.transfers_information i))))))
    (fun '(a, (b, (c, (d, (e, f))))) => LM.mkLockup a b c d e f)
    (c_pair c_u128 (c_pair c_u128 (c_pair c_u64 (c_pair (c_option c_u64) (c_pair (c_option c_u64) c_transfers))))).
(** lockup/src/types.rs:73-80 *)
Definition c_tx_status : codec LM.tx_status :=
  c_struct (fun s => match s with LM.Idle => inl tt | LM.Busy => inr tt end)
    (fun x => match x with inl _ => LM.Idle | inr _ => LM.Busy end)
    (c_enum (v_or c_unit (v_last c_unit))).
(** lockup/src/types.rs:83-94 *)
Definition c_staking : codec LM.staking_info :=
  c_struct (fun i => (LM.staking_pool_account_id i, (LM.status i, LM.deposit_amount i)))
    (fun '(a, (b, c)) => LM.mkStaking a b c)
    (c_pair c_bytes (c_pair c_tx_status c_u128)).
(** lockup/src/types.rs:97-108 *)
Definition c_schedule : codec LM.vesting_schedule :=
  c_struct (fun v => (LM.start_timestamp v, (LM.cliff_timestamp v, LM.end_timestamp v)))
    (fun '(a, (b, c)) => LM.mkSchedule a b c)
    (c_pair c_u64 (c_pair c_u64 c_u64)).
(** lockup/src/types.rs:160-177 *)
Definition c_termination_status : codec LM.termination_status :=
  c_struct (fun s => match s with
      | LM.VestingTerminatedWithDeficit => inl tt
      | LM.UnstakingInProgress => inr (inl tt)
      | LM.EverythingUnstaked => inr (inr (inl tt))
      | LM.WithdrawingFromStakingPoolInProgress => inr (inr (inr (inl tt)))
      | LM.ReadyToWithdraw => inr (inr (inr (inr (inl tt))))
      | LM.WithdrawingFromAccountInProgress => inr (inr (inr (inr (inr tt)))) end)
    (fun x => match x with
      | inl _ => LM.VestingTerminatedWithDeficit
      | inr (inl _) => LM.UnstakingInProgress
      | inr (inr (inl _)) => LM.EverythingUnstaked
      | inr (inr (inr (inl _))) => LM.WithdrawingFromStakingPoolInProgress
      | inr (inr (inr (inr (inl _)))) => LM.ReadyToWithdraw
      | inr (inr (inr (inr (inr _)))) => LM.WithdrawingFromAccountInProgress end)
    (c_enum (v_or c_unit (v_or c_unit (v_or c_unit (v_or c_unit (v_or c_unit (v_last c_unit))))))).
(** lockup/src/types.rs:180-190 *)
Definition c_termination : codec LM.termination_info :=
  c_struct (fun t => (LM.unvested_amount t, LM.t_status t)) (fun '(a, b) => LM.mkTermination a b)
    (c_pair c_u128 c_termination_status).
(** lockup/src/types.rs:140-156 *)
Definition c_vesting : codec LM.vesting_info :=
  c_struct (fun v => match v with
      | LM.VNone => inl tt
      | LM.VHash h => inr (inl h)
      | LM.VSchedule s => inr (inr (inl s))
      | LM.VTerminating t => inr (inr (inr t)) end)
    (fun x => match x with
      | inl _ => LM.VNone
      | inr (inl h) => LM.VHash h
      | inr (inr (inl s)) => LM.VSchedule s
      | inr (inr (inr t)) => LM.VTerminating t end)
    (c_enum (v_or c_unit (v_or c_bytes (v_or c_schedule (v_last c_termination))))).
(** lockup/src/lib.rs:119-141 *)
Definition c_lockup : codec LM.contract :=
  c_struct (fun s => (LM.owner_account_id s, (LM.lockup_information s, (LM.vesting_information s,
              (LM.staking_pool_whitelist_account_id s, (LM.staking_information s, LM.foundation_account_id s))))))
    (fun '(a, (b, (c, (d, (e, f))))) => LM.mkContract a b c d e f)
    (c_pair c_bytes (c_pair c_lockup_info (c_pair c_vesting (c_pair c_bytes
       (c_pair (c_option c_staking) (c_option c_bytes)))))).
(** lockup/src/types.rs:197-210: what is hashed to commit to a vesting schedule *)
Definition c_schedule_with_salt : codec (LM.vesting_schedule * string) := c_pair c_schedule c_bytes.

(** * The objects of the collections (near-sdk, not in /repo): index prefix, then for each vector its length and prefix *)
Fixpoint drop_last (s : string) : string :=
  match s with EmptyString => "" | String _ EmptyString => "" | String c r => String c (drop_last r) end.
Definition c_vector : codec (N * string) := c_pair c_u64 c_bytes.
Definition c_unordered_map : codec handle :=
  c_only (fun h => h_kind h = UnorderedMap)
  (c_struct (fun h => (h_prefix h ++ "i", ((h_keys h, keys_prefix h), (h_values h, values_prefix h))))
    (fun '(p, ((k, _), (v, _))) => mkHandle UnorderedMap (drop_last p) k v)
    (c_pair c_bytes (c_pair c_vector c_vector))).
Definition c_unordered_set : codec handle :=
  c_only (fun h => h_kind h = UnorderedSet /\ h_values h = 0)
  (c_struct (fun h => (h_prefix h ++ "i", (h_keys h, keys_prefix h)))
    (fun '(p, (k, _)) => mkHandle UnorderedSet (drop_last p) k 0)
    (c_pair c_bytes c_vector)).
Definition c_lookup (k : kind) : codec handle :=
  c_only (fun h => h_kind h = k /\ h_keys h = 0 /\ h_values h = 0)
  (c_struct h_prefix (fun p => mkHandle k p 0 0) c_bytes).

(** * Staking pool. The accounts are in the collection; the state holds its object. *)
Module SP := StakingPoolModel.
(** staking-pool/src/lib.rs:42-56 *)
Definition c_account : codec SP.account :=
  c_struct (fun a => (SP.unstaked a, (SP.stake_shares a, SP.unstaked_available_epoch_height a)))
    (fun '(a, (b, c)) => SP.mkAccount a b c)
    (c_pair c_u128 (c_pair c_u128 c_u64)).
(** staking-pool/src/lib.rs:125-130 *)
Definition c_fraction : codec SP.fraction :=
  c_struct (fun f => (SP.numerator f, SP.denominator f)) (fun '(a, b) => SP.mkFraction a b) (c_pair c_u32 c_u32).
(** staking-pool/src/lib.rs:87-117 *)
Definition pool_fields (p : SP.pool) (h : handle) :=
  (SP.owner_id p, (SP.stake_public_key p, (SP.last_epoch_height p, (SP.last_total_balance p, (SP.total_stake_shares p,
    (SP.total_staked_balance p, (SP.reward_fee_fraction p, (h, SP.paused p)))))))).
Definition pool_of_fields (accounts : umap account_id SP.account)
    (f : account_id * (public_key * (N * (N * (N * (N * (SP.fraction * (handle * bool)))))))) : SP.pool * handle :=
  let '(a, (b, (c, (d, (e, (g, (i, (h, j)))))))) := f in (SP.mkPool a b c d e g i accounts j, h).
Definition c_pool_fields := c_pair c_bytes (c_pair c_bytes (c_pair c_u64 (c_pair c_u128 (c_pair c_u128 (c_pair c_u128
  (c_pair c_fraction (c_pair c_unordered_map c_bool))))))).

(** * Voting: the votes are a [HashMap] inside the state. *)
Module VM := VotingModel.
(** voting/src/lib.rs:14-23 *)
Definition c_voting : codec VM.contract :=
  c_struct (fun s => (VM.votes s, (VM.total_voted_stake s, (VM.result s, VM.last_epoch_height s))))
    (fun '(a, (b, (c, d))) => VM.mkContract a b c d)
    (c_pair (c_list (c_pair c_bytes c_u128)) (c_pair c_u128 (c_pair (c_option c_u64) c_u64))).

(** * Whitelist: two lookup sets. *)
(** whitelist/src/lib.rs:8-20 *)
Definition c_whitelist_fields := c_pair c_bytes (c_pair (c_lookup LookupSet) (c_lookup LookupSet)).

(** * Multisig *)
Module MM := MultisigModel.
(** multisig/src/lib.rs:19-25 *)
Definition c_permission : codec MM.permission :=
  c_struct (fun p => (MM.allowance p, (MM.perm_receiver p, MM.method_names p)))
    (fun '(a, (b, c)) => MM.mkPermission a b c)
    (c_pair (c_option c_u128) (c_pair c_bytes (c_list c_bytes))).
(** multisig/src/lib.rs:28-60 *)
Definition c_action : codec MM.action :=
  c_struct (fun a => match a with
      | MM.Transfer n => inl n
      | MM.CreateAccount => inr (inl tt)
      | MM.DeployContract code => inr (inr (inl code))
      | MM.AddKey pk p => inr (inr (inr (inl (pk, p))))
      | MM.DeleteKey pk => inr (inr (inr (inr (inl pk))))
      | MM.FunctionCall m x d g => inr (inr (inr (inr (inr (inl (m, (x, (d, g))))))))
      | MM.SetNumConfirmations n => inr (inr (inr (inr (inr (inr (inl n))))))
      | MM.SetActiveRequestsLimit n => inr (inr (inr (inr (inr (inr (inr n)))))) end)
    (fun x => match x with
      | inl n => MM.Transfer n
      | inr (inl _) => MM.CreateAccount
      | inr (inr (inl code)) => MM.DeployContract code
      | inr (inr (inr (inl (pk, p)))) => MM.AddKey pk p
      | inr (inr (inr (inr (inl pk)))) => MM.DeleteKey pk
      | inr (inr (inr (inr (inr (inl (m, (x, (d, g)))))))) => MM.FunctionCall m x d g
      | inr (inr (inr (inr (inr (inr (inl n)))))) => MM.SetNumConfirmations n
      | inr (inr (inr (inr (inr (inr (inr n)))))) => MM.SetActiveRequestsLimit n end)
    (c_enum (v_or c_u128 (v_or c_unit (v_or c_bytes (v_or (c_pair c_bytes (c_option c_permission)) (v_or c_bytes
       (v_or (c_pair c_bytes (c_pair c_bytes (c_pair c_u128 c_u64))) (v_or c_u32 (v_last c_u32))))))))).
(** multisig/src/lib.rs:62-68 *)
Definition c_request : codec MM.request :=
  c_struct (fun r => (MM.receiver_id r, MM.actions r)) (fun '(a, b) => MM.mkRequest a b)
    (c_pair c_bytes (c_list c_action)).
(** multisig/src/lib.rs:70-77 *)
Definition c_signed_request : codec MM.signed_request :=
  c_struct (fun r => (MM.the_request r, (MM.signer_pk r, MM.added_timestamp r)))
    (fun '(a, (b, c)) => MM.mkSigned a b c)
    (c_pair c_request (c_pair c_bytes c_u64)).
(** The [HashSet] of confirmations of one request: multisig/src/lib.rs:85, multisig2/src/lib.rs:128. *)
Definition c_confirmations : codec (list string) := c_list c_bytes.
(** multisig/src/lib.rs:79-89 *)
Definition multisig_fields (s : MM.contract) (requests confirmations num_requests_pk : handle) :=
  (MM.num_confirmations s, (MM.request_nonce s, (requests, (confirmations, (num_requests_pk,
    MM.active_requests_limit s))))).
Definition multisig_of_fields (s : MM.contract) (f : N * (N * (handle * (handle * (handle * N)))))
    : MM.contract * (handle * handle * handle) :=
  let '(a, (b, (r, (c, (n, d))))) := f in
  (MM.mkContract a b (MM.requests s) (MM.confirmations s) (MM.num_requests_pk s) d, (r, c, n)).
Definition c_multisig_fields := c_pair c_u32 (c_pair c_u32 (c_pair c_unordered_map (c_pair c_unordered_map
  (c_pair c_unordered_map c_u32)))).

(** * Multisig2 *)
Module M2 := Multisig2Model.
(** multisig2/src/lib.rs:95-100 *)
Definition c_member : codec M2.member :=
  c_struct (fun m => match m with M2.AccessKey k => inl k | M2.Account a => inr a end)
    (fun x => match x with inl k => M2.AccessKey k | inr a => M2.Account a end)
    (c_enum (v_or c_bytes (v_last c_bytes))).
(** multisig2/src/lib.rs:28-35 *)
Definition c_permission2 : codec M2.permission :=
  c_struct (fun p => (M2.allowance p, (M2.perm_receiver p, M2.method_names p)))
    (fun '(a, (b, c)) => M2.mkPermission a b c)
    (c_pair (c_option c_u128) (c_pair c_bytes (c_list c_bytes))).
(** multisig2/src/lib.rs:38-73 *)
Definition c_action2 : codec M2.action :=
  c_struct (fun a => match a with
      | M2.Transfer n => inl n
      | M2.CreateAccount => inr (inl tt)
      | M2.DeployContract code => inr (inr (inl code))
      | M2.AddMember m => inr (inr (inr (inl m)))
      | M2.DeleteMember m => inr (inr (inr (inr (inl m))))
      | M2.AddKey pk p => inr (inr (inr (inr (inr (inl (pk, p))))))
      | M2.FunctionCall m x d g => inr (inr (inr (inr (inr (inr (inl (m, (x, (d, g)))))))))
      | M2.SetNumConfirmations n => inr (inr (inr (inr (inr (inr (inr (inl n)))))))
      | M2.SetActiveRequestsLimit n => inr (inr (inr (inr (inr (inr (inr (inr n))))))) end)
    (fun x => match x with
      | inl n => M2.Transfer n
      | inr (inl _) => M2.CreateAccount
      | inr (inr (inl code)) => M2.DeployContract code
      | inr (inr (inr (inl m))) => M2.AddMember m
      | inr (inr (inr (inr (inl m)))) => M2.DeleteMember m
      | inr (inr (inr (inr (inr (inl (pk, p)))))) => M2.AddKey pk p
      | inr (inr (inr (inr (inr (inr (inl (m, (x, (d, g))))))))) => M2.FunctionCall m x d g
      | inr (inr (inr (inr (inr (inr (inr (inl n))))))) => M2.SetNumConfirmations n
      | inr (inr (inr (inr (inr (inr (inr (inr n))))))) => M2.SetActiveRequestsLimit n end)
    (c_enum (v_or c_u128 (v_or c_unit (v_or c_bytes (v_or c_member (v_or c_member
       (v_or (c_pair c_bytes (c_option c_permission2))
       (v_or (c_pair c_bytes (c_pair c_bytes (c_pair c_u128 c_u64))) (v_or c_u32 (v_last c_u32)))))))))).
(** multisig2/src/lib.rs:76-82 *)
Definition c_request2 : codec M2.request :=
  c_struct (fun r => (M2.receiver_id r, M2.actions r)) (fun '(a, b) => M2.mkRequest a b)
    (c_pair c_bytes (c_list c_action2)).
(** multisig2/src/lib.rs:85-92 *)
Definition c_signed_request2 : codec M2.signed_request :=
  c_struct (fun r => (M2.the_request r, (M2.the_member r, M2.added_timestamp r)))
    (fun '(a, (b, c)) => M2.mkSigned a b c)
    (c_pair c_request2 (c_pair c_member c_u64)).
(** multisig2/src/lib.rs:116-133 *)
Definition multisig2_fields (s : M2.contract) (members requests confirmations num_requests_pk : handle) :=
  (members, (M2.num_confirmations s, (M2.request_nonce s, (requests, (confirmations, (num_requests_pk,
    M2.active_requests_limit s)))))).
Definition multisig2_of_fields (s : M2.contract) (f : handle * (N * (N * (handle * (handle * (handle * N))))))
    : M2.contract * (handle * handle * handle * handle) :=
  let '(m, (a, (b, (r, (c, (n, d)))))) := f in
  (M2.mkContract (M2.members s) a b (M2.requests s) (M2.confirmations s) (M2.num_requests_pk s) d, (m, r, c, n)).
Definition c_multisig2_fields := c_pair c_unordered_set (c_pair c_u32 (c_pair c_u32 (c_pair c_unordered_map
  (c_pair (c_lookup LookupMap) (c_pair (c_lookup LookupMap) c_u32))))).

(** * Factories *)
(** staking-pool-factory/src/lib.rs:38-46 *)
Definition c_pool_factory_fields := c_pair c_bytes c_unordered_set.
(** lockup-factory/src/lib.rs:47-52 *)
Module LF := LockupFactoryModel.
Definition c_lockup_factory : codec LF.factory :=
  c_struct (fun f => (LF.whitelist_account_id f, LF.foundation_account_id f)) (fun '(a, b) => LF.mkFactory a b)
    (c_pair c_bytes c_bytes).

(** * wNEAR: w-near/src/lib.rs:27-31, with near-contract-standards core_impl.rs [FungibleToken] *)
Module WM := WNearModel.
Definition token_fields (t : WM.token) (h : handle) := (h, (WM.total_supply t, WM.account_storage_usage t)).
Definition token_of_fields (accounts : umap account_id N) (f : handle * (N * N)) : WM.token * handle :=
  let '(h, (a, b)) := f in (WM.mkToken accounts a b, h).
Definition c_token_fields := c_pair (c_lookup LookupMap) (c_pair c_u128 c_u64).

(** * What storage costs. Protocol parameters (not in /repo): 10^19 yoctoNEAR per byte
    (lockup/src/lib.rs:31-33 counts on it), 100 bytes for an account, 40 more for each record; an access key is stored
    with its public key, of at most 65 bytes, a nonce of 8 bytes and the kind of permission, one byte. *)
Definition BYTE_COST : N := 10 ^ 19.
Definition ACCOUNT_BYTES : N := 100.
Definition RECORD_BYTES : N := 40.
Definition FULL_ACCESS_KEY_BYTES : N := 65 + 8 + 1 + RECORD_BYTES.
(** The size of lockup/res/lockup_contract.wasm. *)
Definition LOCKUP_CODE_BYTES : N := 345224.
(** The bytes an account takes with this code, this state under the key "STATE", and [keys] full access keys. *)
Definition account_bytes (code : N) (state : string) (keys : N) : N :=
  ACCOUNT_BYTES + code + (RECORD_BYTES + slen STATE_KEY + slen state) + keys * FULL_ACCESS_KEY_BYTES.
Definition lockup_storage_cost (s : LM.contract) (keys : N) : N :=
  account_bytes LOCKUP_CODE_BYTES (to_bytes c_lockup s) keys * BYTE_COST.
