(** What the staking pool does for an account that calls it, in the terms the lockup's world uses. *)
From Coq Require Import NArith List Bool String Lia.
From Verif Require Import Prelude PreludeFacts StakingPoolModel StakingPoolSpec ShareMath
  StakingPoolProofs StakingPoolHistory.
Import ListNotations.
Open Scope N_scope.

Lemma record_acct p u : record_of p u = acct p u.
Proof. reflexivity. Qed.

Lemma ping_acct S0 c p p1 b u :
  pinv S0 p -> internal_ping c p = Ok (p1, b) ->
  pinv S0 p1 /\ unstaked (acct p1 u) = unstaked (acct p u).
Proof.
  intros I H. apply internal_ping_ok in H. destruct H as [(_ & -> & _)|(_ & _ & E)]; [auto|].
  pose proof (ping_inv _ _ _ _ I E) as (I' & _ & _ & _ & _ & F). split; [exact I'|apply F].
Qed.

(** Withdrawing: exactly the amount is sent, and it was unstaked. *)
Lemma withdraw_sends S0 k self w u at_ l rs a w' ps :
  winv S0 k w -> step self w (EvCall u at_ l rs (Withdraw a)) = (w', Some ps) ->
  sent_to u ps = a /\ a <= unstaked (acct (w_pool w) u).
Proof.
  intros W H. apply step_call_some in H. destruct H as (_ & _ & p' & E & _ & _).
  apply exec_ok in E. destruct E as (_ & _ & [(X & _)|(_ & p1 & need & EP & B & ->)]); [discriminate X|].
  destruct (ping_acct _ _ _ _ _ u (wi_pool _ _ _ W) EP) as (I1 & HU).
  destruct B as (_ & B & _). cbn [call_ctx ctx_predecessor] in *.
  split; [|now rewrite <- HU]. rewrite sent_transfer, sent_restake_if, String.eqb_refl. lia.
Qed.

(** Unstaking moves at least what was asked for. *)
Lemma unstake_moves S0 k self w u at_ l rs a w' ps :
  winv S0 k w -> step self w (EvCall u at_ l rs (Unstake a)) = (w', Some ps) ->
  unstaked (acct (w_pool w) u) + a <= unstaked (acct (w_pool w') u).
Proof.
  intros W H. apply step_call_some in H. destruct H as (_ & _ & p' & E & _ & ->).
  apply exec_ok in E. destruct E as (_ & _ & [(X & _)|(_ & p1 & need & EP & n & B & ->)]); [discriminate X|].
  destruct (ping_acct _ _ _ _ _ u (wi_pool _ _ _ W) EP) as (I1 & HU).
  destruct (unstake_inv _ _ _ _ _ _ I1 B) as (_ & _ & _ & _ & _ & _ & HA & _ & F).
  destruct (F u) as (_ & G & _). cbn [call_ctx ctx_predecessor w_pool] in *.
  rewrite keqb_refl in G. rewrite G, HU. lia.
Qed.

(** Only withdrawals pay. *)
Lemma others_send_nothing S0 k self w u at_ l rs m w' ps :
  winv S0 k w -> step self w (EvCall u at_ l rs m) = (w', Some ps) -> is_withdraw_call m = false ->
  sent_to u ps = 0.
Proof.
  intros W H Hm. apply step_call_some in H. destruct H as (_ & _ & p' & E & _ & _).
  destruct (exec_rel _ _ _ _ _ _ (wi_pool _ _ _ W) E) as (r & _ & _ & HS & HO).
  rewrite HS. destruct (keqb _ _); [|reflexivity].
  destruct (N.eq_dec (outgoing ps) 0) as [->|Z]; [reflexivity|]. apply HO in Z. congruence.
Qed.

(** Nobody else can lower either balance. *)
Lemma others_keep S0 k self w e w' o u :
  winv S0 k w -> step self w e = (w', o) -> event_caller e <> Some u ->
  T_ (w_pool w) * stake_shares (acct (w_pool w) u) / S_ (w_pool w)
    <= T_ (w_pool w') * stake_shares (acct (w_pool w') u) / S_ (w_pool w') /\
  unstaked (acct (w_pool w') u) = unstaked (acct (w_pool w) u).
Proof.
  intros W H NE. destruct (step_inv _ _ _ _ _ _ _ W H) as (W' & P & _ & F & _).
  destruct (F u NE) as (HU & _ & HS & _). split; [|exact HU].
  eapply staked_value_mono; [apply W|apply W'|exact P|exact HS].
Qed.

Lemma own_value S0 k self w u at_ l rs m w' ps :
  winv S0 k w -> step self w (EvCall u at_ l rs m) = (w', Some ps) ->
  value (w_pool w) u + at_ <= value (w_pool w') u + sent_to u ps.
Proof.
  intros W H. destruct (step_inv _ _ _ _ _ _ _ W H) as (_ & _ & V & _). specialize (V u).
  cbn [event_in event_out] in V. now rewrite String.eqb_refl in V.
Qed.

Lemma value_fits S0 k w u :
  winv S0 k w -> k <= STAKE_SHARE_PRICE_GUARANTEE_FUND -> w_total w < U128_BOUND ->
  value (w_pool w) u < U128_BOUND.
Proof.
  intros W K B. destruct (bounds _ _ _ u W K B) as (B1 & B2 & B3 & B4 & B5). unfold value. lia.
Qed.

Lemma total_view_ok p u b : get_account_total_balance p u = Ok b -> b = value p u.
Proof.
  unfold get_account_total_balance, get_account. intros H. inv_res.
  match goal with H : staked_amount_from_num_shares_rounded_down _ _ = Ok _ |- _ => apply amount_down_ok in H; destruct H as (_ & -> & _) end.
  cbn. unfold value. reflexivity.
Qed.
Lemma staked_view_ok p u b : get_account_staked_balance p u = Ok b -> b = T_ p * stake_shares (acct p u) / S_ p.
Proof.
  unfold get_account_staked_balance, get_account. intros H. inv_res.
  match goal with H : staked_amount_from_num_shares_rounded_down _ _ = Ok _ |- _ => apply amount_down_ok in H; destruct H as (_ & -> & _) end.
  reflexivity.
Qed.
Lemma unstaked_view_ok p u b : get_account_unstaked_balance p u = Ok b -> b = unstaked (acct p u).
Proof. unfold get_account_unstaked_balance, get_account. intros H. inv_res. reflexivity. Qed.
