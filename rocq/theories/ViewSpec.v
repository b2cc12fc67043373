(** What the views of the contracts are documented to show. The JSON forms are those of WireApi.v and the ones below;
    what they are filled with comes from the books of the contracts and from their histories. Stated without reference
    to how views are written. *)
From Coq Require Import NArith List Bool String Permutation.
From Verif Require Import Prelude JsonModel JsonSpec WireModel WireSpec WireApi.
From Verif Require StakingPoolBook LockupBook LockupSpec.
Import ListNotations.
Open Scope string_scope.
Open Scope N_scope.

Module SB := StakingPoolBook.
Module LB := LockupBook.
Module LS := LockupSpec.

(** Whoever asks for the view, with any text that gives its arguments, gets the text of a value like that. *)
Definition answers (view : string -> string -> option string) (name : string) (args : list (string * json))
    (like : json -> Prop) : Prop :=
  forall text, gives text args -> exists answer v, view name text = Some answer /\ document answer v /\ like v.
(** This very value; or, the view fails. *)
Definition shows view name args (v : json) : Prop := answers view name args (eq v).
Definition fails (view : string -> string -> option string) name args : Prop :=
  forall text, gives text args -> view name text = None.
(** An array of these values, in any order. *)
Definition array_of (l : list json) (v : json) : Prop := exists l', v = JArr l' /\ Permutation l' l.
(** Nothing else is a view. *)
Definition only (view : string -> string -> option string) (names : list string) : Prop :=
  forall name text answer, view name text = Some answer -> In name names.

(** The staking pool's account of [u]. *)
Definition account_of (epoch : N) (b : SB.book) (u : account_id) : json :=
  JObj [("account_id", JStr u); ("unstaked_balance", amount (SB.b_unstaked b u));
        ("staked_balance", amount (SB.worth u b)); ("can_withdraw", JBool (SB.b_available b u <=? epoch))].

(** The stages of a termination, and the vesting information of a lockup. *)
Definition stage_of (t : LM.termination_status) : json :=
  match t with
  | LM.VestingTerminatedWithDeficit => JStr "VestingTerminatedWithDeficit"
  | LM.UnstakingInProgress => JStr "UnstakingInProgress"
  | LM.EverythingUnstaked => JStr "EverythingUnstaked"
  | LM.WithdrawingFromStakingPoolInProgress => JStr "WithdrawingFromStakingPoolInProgress"
  | LM.ReadyToWithdraw => JStr "ReadyToWithdraw"
  | LM.WithdrawingFromAccountInProgress => JStr "WithdrawingFromAccountInProgress"
  end.
Definition vesting_of (v : LM.vesting_info) : json :=
  match v with
  | LM.VNone => JStr "None"
  | LM.VHash h => JObj [("VestingHash", base64 h)]
  | LM.VSchedule s => JObj [("VestingSchedule", schedule_of s)]
  | LM.VTerminating t =>
      JObj [("Terminating", JObj [("unvested_amount", amount (LM.unvested_amount t)); ("status", stage_of (LM.t_status t))])]
  end.

(** A string that is itself the text of a member. *)
Definition names_member (v : json) (m : M2.member) : Prop := exists s, v = JStr s /\ document s (member_of m).

(** The views of each contract. *)
Definition pool_view_names : list string :=
  ["get_account_unstaked_balance"; "get_account_staked_balance"; "get_account_total_balance";
   "is_account_unstaked_balance_available"; "get_total_staked_balance"; "get_owner_id"; "get_reward_fee_fraction";
   "get_staking_key"; "is_staking_paused"; "get_account"; "get_number_of_accounts"; "get_accounts"].
Definition lockup_view_names : list string :=
  ["get_owner_account_id"; "get_staking_pool_account_id"; "get_known_deposited_balance"; "get_termination_status";
   "get_terminated_unvested_balance"; "get_terminated_unvested_balance_deficit"; "get_locked_amount";
   "get_locked_vested_amount"; "get_unvested_amount"; "get_vesting_information"; "get_owners_balance"; "get_balance";
   "get_liquid_owners_balance"; "are_transfers_enabled"].
Definition multisig_view_names : list string :=
  ["get_request"; "get_num_requests_pk"; "list_request_ids"; "get_confirmations"; "get_num_confirmations";
   "get_request_nonce"].
Definition multisig2_view_names : list string :=
  ["get_members"; "get_request"; "get_num_requests_per_member"; "list_request_ids"; "get_confirmations";
   "get_num_confirmations"; "get_request_nonce"].
Definition voting_view_names : list string := ["get_result"; "get_total_voted_stake"; "get_votes"].
Definition whitelist_view_names : list string := ["is_whitelisted"; "is_factory_whitelisted"].
Definition wnear_view_names : list string :=
  ["ft_total_supply"; "ft_balance_of"; "storage_balance_bounds"; "storage_balance_of"; "ft_metadata";
   "storage_minimum_balance"].
Definition pool_factory_view_names : list string := ["get_min_attached_balance"; "get_number_of_staking_pools_created"].
Definition lockup_factory_view_names : list string :=
  ["get_foundation_account_id"; "get_lockup_master_account_id"; "get_min_attached_balance"].
