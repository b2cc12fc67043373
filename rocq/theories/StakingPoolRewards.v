(** The split of the rewards (C87). *)
From Coq Require Import NArith List Bool String Lia.
From Verif Require Import Prelude PreludeFacts StakingPoolModel StakingPoolSpec ShareMath StakingPoolProofs
  StakingPoolHistory StakingPoolAccept StakingPoolFacts StakingPoolCustomer.
Import ListNotations.
Open Scope string_scope.
Open Scope N_scope.

Lemma share_ge : forall T S s s1 R f n b, 0 < S -> S <= T -> f <= R -> s <= s1 ->
  n * (T + (R - f)) <= S * f -> b * S <= T * s ->
  b + b * (R - f) / T <= (T + R) * s1 / (S + n).
Proof.
  intros T S s s1 R f n b HS HT Hf Hs Hn Hb.
  assert (ER : R = R - f + f) by lia. set (d := R - f) in *. clearbody d. subst R. clear Hf.
  apply N.div_le_lower_bound; [lia|].
  set (q := b * d / T). assert (Q : q * T <= b * d) by (unfold q; rewrite N.mul_comm; apply N.mul_div_le; lia).
  assert (A : (b + q) * T <= b * (T + d)) by nia.
  assert (B : (S + n) * (T + d) <= S * (T + (d + f))).
  { replace (S * (T + (d + f))) with (S * (T + d) + S * f) by nia. nia. }
  assert (C : (b + q) * S <= (T + d) * s).
  { apply N.mul_le_mono_pos_l with T; [lia|].
    replace (T * ((b + q) * S)) with ((b + q) * T * S) by lia.
    transitivity (b * (T + d) * S); [nia|].
    replace (b * (T + d) * S) with ((b * S) * (T + d)) by lia.
    transitivity (T * s * (T + d)); [nia|]. lia. }
  apply N.mul_le_mono_pos_l with (S * (T + d)); [nia|].
  replace (S * (T + d) * ((S + n) * (b + q))) with ((b + q) * S * ((S + n) * (T + d))) by lia.
  transitivity ((T + d) * s * (S * (T + (d + f)))); [now apply N.mul_le_mono|].
  replace ((T + d) * s * (S * (T + (d + f)))) with (S * (T + d) * ((T + (d + f)) * s)) by lia.
  apply N.mul_le_mono_l. now apply N.mul_le_mono_l.
Qed.
Lemma share_le : forall T S s R f n b, 0 < S -> S <= T -> f <= R ->
  S * f < (n + 1) * (T + (R - f)) -> T * s < (b + 1) * S ->
  (T + R) * s / (S + n) * T * (S + n) < (S + n + 1) * (T + (R - f)) * (b + 1).
Proof.
  intros T S s R f n b HS HT Hf Hn Hb.
  assert (ER : R = R - f + f) by lia. set (d := R - f) in *. clearbody d. subst R. clear Hf.
  set (q := (T + (d + f)) * s / (S + n)).
  assert (Q : q * (S + n) <= (T + (d + f)) * s) by (unfold q; rewrite N.mul_comm; apply N.mul_div_le; lia).
  assert (B : S * (T + (d + f)) < (S + n + 1) * (T + d)).
  { replace (S * (T + (d + f))) with (S * (T + d) + S * f) by nia. nia. }
  apply N.mul_lt_mono_pos_l with S; [lia|].
  apply N.le_lt_trans with (S * (T + (d + f)) * (s * T)).
  { replace (S * (q * T * (S + n))) with (q * (S + n) * (T * S)) by lia.
    transitivity ((T + (d + f)) * s * (T * S)); [now apply N.mul_le_mono_r|lia]. }
  apply N.le_lt_trans with ((S + n + 1) * (T + d) * (s * T)); [apply N.mul_le_mono_r; lia|].
  replace (S * ((S + n + 1) * (T + d) * (b + 1))) with ((S + n + 1) * (T + d) * ((b + 1) * S)) by lia.
  apply N.mul_lt_mono_pos_l; [nia|lia].
Qed.
Section Rewards.
Variables (self : account_id) (w0 : world) (evs : list event) (v : account_id) (locked : N) (results : list bool)
          (w1 : world) (ps : list promise).
Hypothesis HI : initial self w0.
Let w := final self w0 evs.
Let p := w_pool w.
Let p1 := w_pool w1.
Let reward := pending w.
Let fee := numerator (reward_fee_fraction p) * reward / denominator (reward_fee_fraction p).
Hypothesis UP : last_epoch_height p <> w_epoch w.
Hypothesis ST : step self w (EvCall v 0 locked results Ping) = (w1, Some ps).

Lemma rewards_effect :
  (exists S0, pinv S0 p) /\ fee <= reward /\
  T_ p1 = T_ p + reward /\ S_ p1 = S_ p + S_ p * fee / (T_ p + (reward - fee)) /\
  (forall u, stake_shares (acct p u) <= stake_shares (acct p1 u)) /\
  (forall u, unstaked (acct p1 u) = unstaked (acct p u)) /\
  (forall u, u <> owner_id p -> acct p1 u = acct p u).
Proof.
  destruct (reach self w0 evs HI) as (W & _). fold w in W.
  pose proof (wi_pool _ _ _ W) as I. fold p in I.
  apply step_call_some in ST. destruct ST as (_ & HL & p' & E & _ & EW).
  assert (EP : p1 = p') by (subst p1; rewrite EW; reflexivity).
  destruct (exec_split _ _ _ _ _ E eq_refl) as (_ & _ & q & need & HP & -> & ->).
  fold p in HP. apply internal_ping_ok in HP. destruct HP as [(_ & _ & X)|(_ & _ & PE)].
  { cbn in X. congruence. }
  pose proof (ping_inv _ _ _ _ I PE) as (_ & _ & _ & _ & _ & F).
  destruct PE as (r & f & n & HB & Hf & Hfr & HT & Hn & HTb & HSb & Hl & EQ).
  cbn [ctx_locked ctx_balance ctx_attached call_ctx ctx_epoch] in HB.
  assert (R : reward = r) by (unfold reward, pending; fold p; lia).
  assert (FE : fee = f) by (unfold fee; rewrite R; symmetry; exact Hf).
  rewrite EP, R, FE. split; [eauto|]. split; [exact Hfr|]. split; [rewrite EQ; reflexivity|].
  split; [rewrite EQ, <- Hn; reflexivity|].
  repeat split; intros u; [| |intros NE]; now apply F.
Qed.
Lemma reward_split :
  fee <= reward /\ get_total_staked_balance p1 = get_total_staked_balance p + reward /\
  total_stake_shares p1 = total_stake_shares p + total_stake_shares p * fee / (total_staked_balance p + (reward - fee)).
Proof. destruct rewards_effect as (_ & A & B & C & _). auto. Qed.
Lemma reward_proportional u b b1 :
  get_account_staked_balance p u = Ok b -> get_account_staked_balance p1 u = Ok b1 ->
  let T := get_total_staked_balance p in
  b + b * (reward - fee) / T <= b1 /\
  (u <> owner_id p ->
     b1 * T * total_stake_shares p1 < (total_stake_shares p1 + 1) * (T + (reward - fee)) * (b + 1)).
Proof.
  intros B B1 T. destruct rewards_effect as ((S0 & I) & Hf & ET & ES & MS & _ & SA).
  assert (SP : 0 < S_ p).
  { unfold get_account_staked_balance, get_account in B. inv_res.
    match goal with H : staked_amount_from_num_shares_rounded_down p _ = Ok _ |- _ => apply amount_down_ok in H; destruct H as (? & _) end. lia. }
  pose proof (pi_price _ _ I) as PR. assert (TP : 0 < T_ p) by lia.
  apply staked_view_ok in B, B1. change T with (T_ p).
  set (n := S_ p * fee / (T_ p + (reward - fee))) in *.
  assert (N1 : n * (T_ p + (reward - fee)) <= S_ p * fee) by (unfold n; rewrite N.mul_comm; apply N.mul_div_le; lia).
  assert (N2 : S_ p * fee < (n + 1) * (T_ p + (reward - fee)))
    by (rewrite (N.mul_comm (n + 1)), N.add_1_r; apply N.mul_succ_div_gt; lia).
  rewrite ET, ES in B1. split.
  - rewrite B1. apply (share_ge (T_ p) (S_ p) (stake_shares (acct p u))); auto.
    rewrite B, N.mul_comm. apply N.mul_div_le. lia.
  - intros NE. rewrite B1, ES, SA by auto. apply share_le; auto.
    rewrite (N.mul_comm (b + 1)), N.add_1_r, B. apply N.mul_succ_div_gt. lia.
Qed.
Lemma reward_keeps_unstaked u b b1 :
  get_account_unstaked_balance p u = Ok b -> get_account_unstaked_balance p1 u = Ok b1 -> b1 = b.
Proof.
  intros B B1. apply unstaked_view_ok in B, B1. destruct rewards_effect as (_ & _ & _ & _ & _ & U & _). congruence.
Qed.
End Rewards.
