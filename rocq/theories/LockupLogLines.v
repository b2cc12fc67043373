(** The log of a lockup: the lines of one call. *)
From Coq Require Import NArith List Bool String Ascii Lia.
From Verif Require Import Prelude PreludeFacts LockupModel LockupWorld LockupSpec LockupFacts LockupInv LockupLogModel LockupLogSpec LockupLogProofs LockupLogTold.
Import ListNotations.
Open Scope string_scope.
Open Scope N_scope.

Ltac go c s H :=
  open_lines; destruct s as [ow [la tk du re ts tr] ve wl [[p st d]|] fo];
  destruct c as [cu pd at_ tm ba rs ha]; unfold is_promise_success, callback_balance, callback_poll, callback_bool, callback_arg in *;
  cbn [ctx_current ctx_predecessor ctx_attached ctx_timestamp ctx_balance ctx_results ctx_hash] in *;
  open_asserts; unfold get_staking_pool_account_id in *; cbn [option_map staking_pool_account_id staking_information] in *;
  crunch.

Lemma call_lines c s m s' pr l : plain_names s m -> exec_l c s m = Ok (s', pr, l) ->
  match pr with
  | Some q => exists f, announces (p_remote q) (option_map fst (p_then q)) = Some f /\ Forall2 says l [f]
  | None => Forall2 says l (reports c s m s')
  end.
Proof.
  intros (P1 & P2 & P3) H.
  destruct m; go c s H.
  all: try match goal with
           | H : match match ?v with _ => _ end with _ => _ end = Ok _ |- _ =>
               destruct v as [| | |[? []]]; cbn [t_status] in H; crunch
           end.
  all: try (eexists; split; [reflexivity|]; lines).
  all: unfold reports, get_staking_pool_account_id, get_termination_status, get_terminated_unvested_balance;
    cbn [option_map staking_pool_account_id staking_information vesting_information unvested_amount t_status
         ctx_results ctx_balance set_vesting set_staking set_lockup set_foundation].
  all: try match goal with
           | |- context [if match ?o with Some _ => true | None => false end then _ else _] => destruct o
           | |- context [get_account_balance ?b =? 0] =>
               replace (get_account_balance b =? 0) with (b <=? MIN_BALANCE_FOR_STORAGE)
                 by (unfold get_account_balance, sat_sub; destruct (N.leb_spec b MIN_BALANCE_FOR_STORAGE);
                     symmetry; [apply N.eqb_eq|apply N.eqb_neq]; lia);
               destruct (b <=? MIN_BALANCE_FOR_STORAGE)
           end.
  all: lines.
Qed.
