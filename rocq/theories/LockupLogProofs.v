(** Proofs about the log of a lockup. *)
From Coq Require Import NArith List Bool String Ascii Lia.
From Verif Require Import Prelude PreludeFacts LockupModel LockupWorld LockupSpec LockupFacts LockupInv LockupLogModel LockupLogSpec.
From Verif Require JsonModel PoolLogProofs.
Import ListNotations.
Open Scope string_scope.
Open Scope N_scope.

(** * Without the lines, the code is the same *)
Definition drop_l (r : res output_l) : res (contract * option promise) :=
  match r with Ok (s, p, _) => Ok (s, p) | Panic e => Panic e end.
Definition has_pool (s : contract) : Prop := exists p, the_pool s = Ok p.
Lemma status_has s st s' : set_staking_pool_status s st = Ok s' -> has_pool s'.
Proof. unfold set_staking_pool_status. intros H. inv_res. now eexists. Qed.
Lemma deposit_has s f s' : update_deposit s f = Ok s' -> has_pool s'.
Proof. unfold update_deposit. intros H. inv_res. now eexists. Qed.
Lemma term_has s st s' : set_termination_status s st = Ok s' -> has_pool s -> has_pool s'.
Proof. unfold set_termination_status. destruct (vesting_information s); intros H; inv_res. auto. Qed.
Lemma exec_same c s m : drop_l (exec_l c s m) = exec c s m.
Proof.
  unfold exec_l, exec. destruct (require (ctx_attached c =? 0) _); cbn [bind drop_l]; [|reflexivity].
  destruct m;
    cbv beta zeta delta [select_staking_pool_l unselect_staking_pool_l deposit_to_staking_pool_l deposit_and_stake_l
      refresh_staking_pool_balance_l withdraw_from_staking_pool_l withdraw_all_from_staking_pool_l stake_l unstake_l
      unstake_all_l check_transfers_vote_l transfer_l add_full_access_key_l on_whitelist_is_whitelisted_l
      on_staking_pool_deposit_l on_staking_pool_deposit_and_stake_l on_staking_pool_withdraw_l on_staking_pool_stake_l
      on_staking_pool_unstake_l on_staking_pool_unstake_all_l on_get_result_from_transfer_poll_l
      on_get_account_total_balance_l on_get_account_unstaked_balance_to_withdraw_by_owner_l terminate_vesting_l
      termination_prepare_to_withdraw_l termination_withdraw_l on_get_account_staked_balance_to_unstake_l
      on_staking_pool_unstake_for_termination_l on_get_account_unstaked_balance_to_withdraw_l
      on_staking_pool_withdraw_for_termination_l on_withdraw_unvested_amount_l ask_l
      select_staking_pool unselect_staking_pool deposit_to_staking_pool deposit_and_stake
      refresh_staking_pool_balance withdraw_from_staking_pool withdraw_all_from_staking_pool stake unstake
      unstake_all check_transfers_vote transfer add_full_access_key on_whitelist_is_whitelisted
      on_staking_pool_deposit on_staking_pool_deposit_and_stake on_staking_pool_withdraw on_staking_pool_stake
      on_staking_pool_unstake on_staking_pool_unstake_all on_get_result_from_transfer_poll
      on_get_account_total_balance on_get_account_unstaked_balance_to_withdraw_by_owner terminate_vesting
      termination_prepare_to_withdraw termination_withdraw on_get_account_staked_balance_to_unstake
      on_staking_pool_unstake_for_termination on_get_account_unstaked_balance_to_withdraw
      on_staking_pool_withdraw_for_termination on_withdraw_unvested_amount ask];
    repeat (match goal with
            | |- ?a = ?a => reflexivity
            | |- context [bind ?x _] => destruct x as [?|?] eqn:?; cbn [bind drop_l]
            | |- context [drop_l (if ?x then _ else _)] => destruct x; cbn [bind drop_l]
            | |- context [drop_l (match ?x with _ => _ end)] => destruct x; cbn [bind drop_l]
            end); try reflexivity;
    match goal with
    | H : the_pool ?a = Panic _ |- _ =>
        let F := fresh in assert (F : has_pool a) by eauto using status_has, deposit_has, term_has;
        destruct F as [? F]; congruence
    end.
Qed.

(** * The lines can be read in one way only *)
Lemma dec_inj n m : dec n = dec m -> n = m.
Proof. apply PoolLogProofs.dec_inj. Qed.
Lemma dec_split n m c d r r' : JsonModel.is_digit c = false -> JsonModel.is_digit d = false ->
  dec n ++ String c r = dec m ++ String d r' -> n = m /\ String c r = String d r'.
Proof. apply PoolLogProofs.dec_split. Qed.
Lemma word_split a b r r' : has_space a = false -> has_space b = false ->
  a ++ String " " r = b ++ String " " r' -> a = b /\ r = r'.
Proof. apply PoolLogProofs.word_split. Qed.
Lemma append_length a b : String.length (a ++ b) = (String.length a + String.length b)%nat.
Proof. induction a; cbn; auto. Qed.
Lemma append_cancel a b t : a ++ t = b ++ t -> a = b.
Proof.
  revert b. induction a as [|c a IH]; intros [|d b] E; cbn in E; auto.
  - exfalso. apply (f_equal String.length) in E. cbn in E. rewrite append_length in E. lia.
  - exfalso. apply (f_equal String.length) in E. cbn in E. rewrite append_length in E. lia.
  - injection E as <- E. f_equal. auto.
Qed.
Lemma number_or_word n c d r r' : JsonModel.is_digit c = false -> JsonModel.is_digit d = false -> Ascii.eqb c d = false ->
  dec n ++ String c r <> String d r'.
Proof.
  intros C D N E. change (String d r') with ("" ++ String d r') in E.
  apply PoolLogProofs.digits_split in E; auto; [|apply PoolLogProofs.dec_digits]. destruct E as [_ E]. injection E as -> E.
  rewrite Ascii.eqb_refl in N. discriminate.
Qed.
Ltac number_or_word E :=
  exfalso; (apply number_or_word in E || (symmetry in E; apply number_or_word in E)); [exact E|reflexivity..].
Ltac read E :=
  cbn [append] in E; try discriminate E;
  try (injection E as E;
       repeat first
         [ discriminate E
         | apply dec_inj in E; subst; reflexivity
         | apply dec_split in E; [|reflexivity|reflexivity]; destruct E as [? E]; subst
         | number_or_word E
         | apply word_split in E; [|assumption|assumption]; destruct E as [? E]; subst
         | apply append_cancel in E; subst; reflexivity
         | injection E as E
         | subst; reflexivity ]);
  try reflexivity.
Lemma says_inj' s f s' f' : says s f -> says s' f' -> s = s' -> f = f'.
Proof. intros S S'. destruct S; destruct S'; intros E; read E. Qed.
Lemma says_inj s f f' : says s f -> says s f' -> f = f'.
Proof. intros S S'. now apply (says_inj' s f s f'). Qed.
