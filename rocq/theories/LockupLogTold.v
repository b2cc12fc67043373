(** The log of a lockup tells its books: what is told in one call. *)
From Coq Require Import NArith List Bool String Ascii Lia.
From Verif Require Import Prelude PreludeFacts LockupModel LockupWorld LockupSpec LockupFacts LockupInv LockupLogModel LockupLogSpec LockupLogProofs.
From Verif Require PoolLogProofs.
Import ListNotations.
Open Scope string_scope.
Open Scope N_scope.

(** * One call *)
Definition op_pool (o : operation) : option account_id :=
  match o with
  | ODeposit _ p | ODepositAndStake _ p | OFetch p | OWithdraw _ p | OQuery p | OStake _ p | OUnstake _ p
  | OUnstakeAll p | OTUnstake _ p | OTWithdraw _ p => Some p
  | OTQueryStaked | OTQueryUnstaked => None
  end.
Definition cb_of (o : operation) : call :=
  match o with
  | ODeposit x _ => OnStakingPoolDeposit x
  | ODepositAndStake x _ => OnStakingPoolDepositAndStake x
  | OFetch _ => OnGetAccountTotalBalance
  | OWithdraw x _ => OnStakingPoolWithdraw x
  | OQuery _ => OnGetAccountUnstakedBalanceToWithdrawByOwner
  | OStake x _ => OnStakingPoolStake x
  | OUnstake x _ => OnStakingPoolUnstake x
  | OUnstakeAll _ => OnStakingPoolUnstakeAll
  | OTQueryStaked => OnGetAccountStakedBalanceToUnstake
  | OTUnstake x _ => OnStakingPoolUnstakeForTermination x
  | OTQueryUnstaked => OnGetAccountUnstakedBalanceToWithdraw
  | OTWithdraw x _ => OnStakingPoolWithdrawForTermination x
  end.
Record core (n : notes) (s : contract) : Prop := mkCore {
  c_tells : tells n s;
  c_pool : forall p, get_staking_pool_account_id s = Some p -> has_space p = false;
  c_poll : forall p, transfers_information (lockup_information s) = TransfersDisabled p -> has_space p = false;
  c_op : forall o p, n_op n = Some o -> op_pool o = Some p -> get_staking_pool_account_id s = Some p;
  c_stage : match n_op n with
            | Some OTQueryStaked | Some (OTUnstake _ _) => exists u, n_term n = Some (u, SUnstaking)
            | Some OTQueryUnstaked | Some (OTWithdraw _ _) => exists u, n_term n = Some (u, SWithdrawing)
            | _ => True
            end;
  c_paying : forall u x r, n_term n = Some (u, SPaying x r) -> x <= u /\ has_space r = false;
  c_taken : n_term n = None -> n_foundation n = true -> n_taken n = 0
}.
Definition pre (n : notes) (m : call) : Prop :=
  match m with
  | OnWhitelistIsWhitelisted p => has_space p = false
  | OnWithdrawUnvestedAmount x r => exists u, n_term n = Some (u, SPaying x r)
  | _ => staking_callback m = true -> exists o, n_op n = Some o /\ cb_of o = m
  end.
Definition sent_by (a : account_id) (p : option promise) : N :=
  match p with
  | Some q => match p_remote q with RTransfer r x => if String.eqb r a then x else 0 | _ => 0 end
  | None => 0
  end.
Definition fits_msg (n : notes) (m : msg) : Prop :=
  match m with
  | MCall (RPool _ _) cb => exists o, n_op n = Some o /\ cb = Some (cb_of o)
  | MCall (RTransfer r x) (Some _) => exists u, n_term n = Some (u, SPaying x r)
  | MCall (RIsWhitelisted _ p) _ => has_space p = false
  | MBack cb _ => pre n cb
  | _ => True
  end.
Definition asked (p : promise) : msg := MCall (p_remote p) (option_map fst (p_then p)).
Definition is_paying (n : notes) : bool := match n_term n with Some (_, SPaying _ _) => true | _ => false end.

Definition told (n : notes) (s' : contract) (pr : option promise) (l : list string) : Prop :=
  exists fs n', Forall2 says l fs /\ note_facts n fs = Some n' /\ core n' s' /\
    (forall a, n_sent n' a = n_sent n a + sent_by a pr) /\
    (n_op n' = n_op n \/ n_op n' = None \/ exists p, pr = Some p /\ staking_msg (asked p) = true) /\
    (n_term n' = n_term n \/ is_paying n' = false \/ exists p, pr = Some p /\ tcnt (asked p) = 1) /\
    match pr with Some p => fits_msg n' (asked p) | None => True end.

Lemma valid_no_space a : is_valid_account_id a = true -> has_space a = false.
Proof. apply PoolLogProofs.valid_no_space. Qed.

Lemma add_sent_to (f : account_id -> N) a r x :
  (if String.eqb r a then f a + x else f a) = f a + (if String.eqb r a then x else 0).
Proof. destruct (String.eqb r a); lia. Qed.
Lemma add_sent (f : account_id -> N) a : f a = f a + 0.
Proof. now rewrite N.add_0_r. Qed.

Ltac units := repeat match goal with x : unit |- _ => destruct x end.
Ltac open_asserts :=
  unfold assert_owner, assert_self, assert_staking_pool_is_idle, assert_no_termination, assert_staking_pool_is_not_selected,
    assert_transfers_disabled, assert_transfers_enabled, are_transfers_enabled, assert_no_staking_or_idle,
    assert_vesting, assert_called_by_foundation, set_staking_pool_status, set_termination_status, update_deposit, the_pool, expect,
    get_known_deposited_balance, get_termination_status, get_terminated_unvested_balance, ask_l in *;
  cbn [staking_information vesting_information lockup_information foundation_account_id owner_account_id
       staking_pool_whitelist_account_id set_staking set_vesting set_lockup set_foundation
       transfers_information termination_withdrawn_tokens lockup_amount] in *.
Ltac split_var x := is_var x; destruct x.
Ltac crunch :=
  repeat (units;
    match goal with
    | H : Ok _ = Ok _ |- _ => injection H; clear H; intros; subst
    | H : Panic _ = Ok _ |- _ => discriminate H
    | H : bind (match ?x with _ => _ end) _ = Ok _ |- _ => split_var x; cbn [bind] in H
    | H : bind _ _ = Ok _ |- _ =>
        let x := fresh "x" in let E := fresh "E" in apply bind_ok in H; destruct H as (x & E & H); cbv beta in H
    | H : require _ _ = Ok _ |- _ => apply require_ok in H
    | H : negb _ = true |- _ => apply negb_true_iff in H
    | H : String.eqb _ _ = true |- _ => apply String.eqb_eq in H
    | H : add128 _ _ = Ok _ |- _ => unfold add128 in H; apply add_chk_ok in H; destruct H as [H _]
    | H : sub_chk _ _ = Ok _ |- _ => apply sub_chk_ok in H; destruct H as [? H]
    | H : (match ?x with _ => _ end) = Ok _ |- _ => split_var x
    | H : (if ?x then _ else _) = Ok _ |- _ => let B := fresh "B" in destruct x eqn:B
    | H : (match ?x with _ => _ end) = true |- _ => split_var x; try discriminate H
    | H : (match ?x with _ => _ end) = false |- _ => split_var x; try discriminate H
    end; cbn [status staking_pool_account_id deposit_amount unvested_amount t_status
              staking_information vesting_information lockup_information foundation_account_id owner_account_id
              set_staking set_vesting set_lockup set_foundation transfers_information termination_withdrawn_tokens] in *).

Ltac open_lines :=
  unfold exec_l, select_staking_pool_l, unselect_staking_pool_l, deposit_to_staking_pool_l, deposit_and_stake_l,
      refresh_staking_pool_balance_l, withdraw_from_staking_pool_l, withdraw_all_from_staking_pool_l, stake_l, unstake_l,
      unstake_all_l, check_transfers_vote_l, transfer_l, add_full_access_key_l, on_whitelist_is_whitelisted_l,
      on_staking_pool_deposit_l, on_staking_pool_deposit_and_stake_l, on_staking_pool_withdraw_l, on_staking_pool_stake_l,
      on_staking_pool_unstake_l, on_staking_pool_unstake_all_l, on_get_result_from_transfer_poll_l,
      on_get_account_total_balance_l, on_get_account_unstaked_balance_to_withdraw_by_owner_l, terminate_vesting_l,
      termination_prepare_to_withdraw_l, termination_withdraw_l, on_get_account_staked_balance_to_unstake_l,
      on_staking_pool_unstake_for_termination_l, on_get_account_unstaked_balance_to_withdraw_l,
      on_staking_pool_withdraw_for_termination_l, on_withdraw_unvested_amount_l in *.
Ltac state_simpl :=
  cbn [staking_information vesting_information lockup_information foundation_account_id owner_account_id
       staking_pool_whitelist_account_id set_staking set_vesting set_lockup set_foundation
       transfers_information termination_withdrawn_tokens lockup_amount status staking_pool_account_id deposit_amount
       unvested_amount t_status n_known n_op n_pool n_enabled n_term n_taken n_foundation n_sent is_none negb option_map] in *.
(** Facts with an equation between constructors on the left. *)
Ltac use_eqs :=
  repeat match goal with
  | H : Some _ = None |- _ => discriminate H
  | H : None = Some _ |- _ => discriminate H
  | H : true = false |- _ => discriminate H
  | H : false = true |- _ => discriminate H
  | H : Some _ = Some _ |- _ => injection H; clear H; intros; subst
  | H : is_none ?o = true |- _ => destruct o; [discriminate H|clear H]
  | H : is_none ?o = false |- _ => destruct o; [clear H|discriminate H]
  | H : exists _, _ |- _ => destruct H
  | H : _ /\ _ |- _ => destruct H
  end.
Ltac start C H :=
  open_lines;
  match type of C with core ?n ?s =>
    destruct s as [ow [la tk du re ts tr] [|h|vs|[u tst]] wl [[p [] d]|] fo];
    destruct n as [kn op pl en [[u' stg]|] ta fd se] end;
  destruct C as [[T1 T2 T3 T4 T5 T6 T7] C1 C2 C3 C4 C5 C6];
  open_asserts; unfold busy, get_staking_pool_account_id in *; state_simpl;
  use_eqs; try discriminate; try (crunch; state_simpl; use_eqs).
Ltac pool_named :=
  match goal with
  | T3 : forall p, ?pl = Some p -> Some ?q = Some p |- _ =>
      assert (pl = None \/ pl = Some q) as [->| ->]
        by (let p := fresh in destruct pl as [p|]; [right; specialize (T3 p eq_refl); congruence|left; reflexivity])
  | T3 : forall p, ?pl = Some p -> None = Some p |- _ =>
      assert (pl = None) as ->
        by (let p := fresh in destruct pl as [p|]; [specialize (T3 p eq_refl); congruence|reflexivity])
  | _ => idtac
  end.
Ltac calc :=
  cbn [note_facts note_fact];
  repeat (unfold names, begins, ends, goes_on, known, moves, sends, fits, sets, next; cbn -[N.add N.sub N.eqb N.ltb N.leb N.min String.eqb];
    match goal with
    | |- context [String.eqb ?p ?p] => rewrite String.eqb_refl
    | |- context [N.eqb ?p ?p] => rewrite N.eqb_refl
    | H : ?a = true |- context [?a] => rewrite H
    | H : ?a = false |- context [?a] => rewrite H
    end); cbn -[N.add N.sub N.eqb N.ltb N.leb N.min String.eqb]; try reflexivity.
Ltac settle := cbn; intros; use_eqs; subst; cbn [op_pool] in *; use_eqs; eauto using add_sent, add_sent_to, valid_no_space; try congruence; try (apply N.eqb_eq; assumption);
  try (eexists; split; [reflexivity|exact I]);
  try (split; [reflexivity|eexists; split; [reflexivity|exact I]]);
  try match goal with
      | C4 : match ?o with _ => _ end |- match ?o with _ => _ end =>
          destruct o; first [exact I | let Q := fresh in destruct C4 as [? Q]; discriminate Q]
      end.
Ltac lines := repeat (constructor; [once (econstructor; eauto using valid_no_space)|]); constructor.
Ltac staged :=
  try match goal with |- context [if ?b then VestingTerminatedWithDeficit else ReadyToWithdraw] => destruct b end;
  try match goal with
      | |- context [N.min ?u ?b] =>
          let M := fresh in let M' := fresh in
          pose proof (N.le_min_l u b) as M; pose proof (proj2 (N.leb_le _ _) M) as M';
          generalize dependent (N.min u b); intros
      end;
  try match goal with C6 : None = None -> true = true -> ?t = 0 |- _ => pose proof (C6 eq_refl eq_refl); subst t end;
  try match goal with
      | H : tells_status ?g ?t |- _ => first [is_var t; fail 1 | is_var g; destruct g; cbn in H; try contradiction]
      end.
Ltac tell :=
  staged; pool_named; eexists; eexists; (split; [once lines|]); (split; [calc|]);
  (split; [constructor; [constructor; settle|settle..]|]);
  (split; [settle|]); (split; [settle|]); (split; [settle|]); settle.
Ltac called_back P :=
  match goal with E : ctx_predecessor ?c = ctx_current ?c |- _ => specialize (P E) end;
  cbn [pre staking_callback] in P; state_simpl;
  repeat match type of P with
  | true = true -> _ => specialize (P eq_refl)
  | exists _, _ => destruct P as [? P]
  | _ /\ _ => let Q := fresh in destruct P as [Q P]; subst
  | cb_of ?o = _ => is_var o; destruct o; cbn [cb_of] in P; try discriminate P; try (injection P as P; try subst)
  end; use_eqs; try discriminate;
  try match goal with
      | C3 : forall o q, Some ?op = Some o -> op_pool o = Some q -> _ = Some q |- _ =>
          let Q := fresh in pose proof (C3 _ _ eq_refl eq_refl) as Q; injection Q as Q; subst
      end;
  try match goal with |- context [if ?b then _ else _] => is_var b; destruct b end.
Definition callback (m : call) : bool :=
  match m with
  | OnWhitelistIsWhitelisted _ | OnGetResultFromTransferPoll | OnWithdrawUnvestedAmount _ _ => true
  | _ => staking_callback m
  end.
