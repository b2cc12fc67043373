(** What the theorems about the texts between contracts speak of. *)
From Coq Require Import NArith List Bool String.
From Verif Require Import Prelude JsonModel WireModel.
Import ListNotations.
Open Scope string_scope.
Open Scope N_scope.

(** The message goes to this account, which reads it as this request. *)
Definition gets {A} (reads : string -> string -> option A) (m : option message) (receiver : account_id) (x : A) : Prop :=
  exists msg, m = Some msg /\ to msg = receiver /\ reads (method msg) (args msg) = Some x.

(** What the lockup [self] wants of its pool. *)
Definition wanted (self : account_id) (op : LM.pool_op) : pool_request :=
  match op with
  | LM.PDeposit _ => PoolCall SM.Deposit
  | LM.PDepositAndStake _ => PoolCall SM.DepositAndStake
  | LM.PWithdraw n => PoolCall (SM.Withdraw n)
  | LM.PStake n => PoolCall (SM.Stake n)
  | LM.PUnstake n => PoolCall (SM.Unstake n)
  | LM.PUnstakeAll => PoolCall SM.UnstakeAll
  | LM.PGetStaked => PoolStaked self
  | LM.PGetUnstaked => PoolUnstaked self
  | LM.PGetTotal => PoolTotal self
  end.
Definition asks_balance (op : LM.pool_op) : bool :=
  match op with LM.PGetStaked | LM.PGetUnstaked | LM.PGetTotal => true | _ => false end.

(** The values the Rust types of a request can hold: amounts are [u128], gas is [u64], the numbers of confirmations
    and of active requests are [u32]; the account IDs of near-sdk 4 are valid ones. *)
Definition fits_option (b : N) (o : option N) : Prop := match o with Some n => n < b | None => True end.
Definition schedule_fits (s : LM.vesting_schedule) : Prop :=
  LM.start_timestamp s < U64_BOUND /\ LM.cliff_timestamp s < U64_BOUND /\ LM.end_timestamp s < U64_BOUND.
Definition lockup_fits (m : LM.call) : Prop :=
  match m with
  | LM.DepositToStakingPool a | LM.DepositAndStake a | LM.WithdrawFromStakingPool a | LM.Stake a | LM.Unstake a
  | LM.Transfer a _ | LM.OnStakingPoolDeposit a | LM.OnStakingPoolDepositAndStake a | LM.OnStakingPoolWithdraw a
  | LM.OnStakingPoolStake a | LM.OnStakingPoolUnstake a | LM.OnStakingPoolUnstakeForTermination a
  | LM.OnStakingPoolWithdrawForTermination a | LM.OnWithdrawUnvestedAmount a _ => a < U128_BOUND
  | LM.TerminateVesting (Some (s, _)) => schedule_fits s
  | _ => True
  end.
Definition fraction_fits (f : SM.fraction) : Prop := SM.numerator f < U32_BOUND /\ SM.denominator f < U32_BOUND.
Definition pool_fits (m : SM.call) : Prop :=
  match m with
  | SM.Withdraw a | SM.Stake a | SM.Unstake a => a < U128_BOUND
  | SM.UpdateRewardFeeFraction f => fraction_fits f
  | _ => True
  end.
Definition action1_fits (a : M1.action) : Prop :=
  match a with
  | M1.Transfer n => n < U128_BOUND
  | M1.AddKey _ (Some p) => fits_option U128_BOUND (M1.allowance p)
  | M1.FunctionCall _ _ d g => d < U128_BOUND /\ g < U64_BOUND
  | M1.SetNumConfirmations n | M1.SetActiveRequestsLimit n => n < U32_BOUND
  | _ => True
  end.
Definition request1_fits (r : M1.request) : Prop := Forall action1_fits (M1.actions r).
Definition member_fits (m : M2.member) : Prop :=
  match m with M2.AccessKey _ => True | M2.Account a => is_valid_account_id a = true end.
Definition action2_fits (a : M2.action) : Prop :=
  match a with
  | M2.Transfer n => n < U128_BOUND
  | M2.AddMember m | M2.DeleteMember m => member_fits m
  | M2.AddKey _ (Some p) => fits_option U128_BOUND (M2.allowance p) /\ is_valid_account_id (M2.perm_receiver p) = true
  | M2.FunctionCall _ _ d g => d < U128_BOUND /\ g < U64_BOUND
  | M2.SetNumConfirmations n | M2.SetActiveRequestsLimit n => n < U32_BOUND
  | _ => True
  end.
Definition request2_fits (r : M2.request) : Prop :=
  is_valid_account_id (M2.receiver_id r) = true /\ Forall action2_fits (M2.actions r).
Definition multisig_fits (m : M1.call) : Prop :=
  match m with
  | M1.CAddRequest r | M1.CAddRequestAndConfirm r => request1_fits r
  | M1.CDeleteRequest i | M1.CConfirm i => i < U32_BOUND
  end.
Definition multisig2_fits (m : M2.call) : Prop :=
  match m with
  | M2.CAddRequest r | M2.CAddRequestAndConfirm r => request2_fits r
  | M2.CDeleteRequest i | M2.CConfirm i => i < U32_BOUND
  end.

(** What a receiver of tokens takes out of [ft_on_transfer] (NEP-141): who sent, how much, and the note. *)
Definition reads_on_transfer (name args : string) : option (account_id * N * string) :=
  if String.eqb name "ft_on_transfer" then
    arguments args (fun o =>
      let? s := field "sender_id" account o in
      let? a := field "amount" U128 o in
      let? m := field "msg" rd_str o in
      Some (s, a, m))
  else None.
