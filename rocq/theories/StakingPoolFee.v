(** What the owner's fee does to everybody's stake (C123). *)
From Coq Require Import NArith List Bool String Lia.
From Verif Require Import Prelude PreludeFacts StakingPoolModel StakingPoolSpec ShareMath StakingPoolProofs
  StakingPoolHistory StakingPoolAccept StakingPoolFacts StakingPoolCustomer StakingPoolRewards StakingPoolFeeLater.
Import ListNotations.
Open Scope string_scope.
Open Scope N_scope.

(** Tokens arrive and epochs pass. *)
Definition no_call (e : event) : Prop := match e with EvCall _ _ _ _ _ => False | _ => True end.

(** [f] is at most [g]. *)
Definition fraction_le (f g : fraction) : Prop := numerator f * denominator g <= numerator g * denominator f.

Lemma quiet self es : Forall no_call es -> exists a b,
  forall w, final self w es = mkWorld (w_pool w) (w_total w + a) (w_epoch w + b).
Proof.
  induction 1 as [|e es He _ (a & b & IH)].
  - exists 0, 0. intros [q t n]. cbn. f_equal; lia.
  - destruct e as [| x | n]; [destruct He| |].
    + exists (x + a), b. intros w. cbn. rewrite IH. cbn. f_equal; lia.
    + exists a, (n + b). intros w. cbn. rewrite IH. cbn. f_equal; lia.
Qed.

Lemma minted_mono T S r f g : f <= g -> g <= r -> S <= T -> S * f / (T + (r - f)) <= S * g / (T + (r - g)).
Proof.
  intros A B C. destruct (N.eq_dec T 0) as [->|P].
  { assert (S = 0) by lia. subst S. cbn. destruct (0 + (r - f)); cbn; lia. }
  transitivity (S * f / (T + (r - g))).
  - apply N.div_le_compat_l. lia.
  - apply N.div_le_mono; [lia|]. now apply N.mul_le_mono_l.
Qed.

Lemma fee_mono f g r : denominator f <> 0 -> denominator g <> 0 -> fraction_le f g ->
  numerator f * r / denominator f <= numerator g * r / denominator g.
Proof. intros A B L. apply value_mono; auto. lia. Qed.

Lemma owner_mono T S s m n : s <= S -> 0 < S + m -> m <= n -> T * (s + m) / (S + m) <= T * (s + n) / (S + n).
Proof.
  intros A B C. assert (E : n = m + (n - m)) by lia. set (d := n - m) in *. clearbody d. subst n.
  apply N.div_le_lower_bound; [lia|].
  pose proof (N.mul_div_le (T * (s + m)) (S + m) ltac:(lia)) as LO.
  assert (QT : T * (s + m) / (S + m) <= T).
  { apply N.div_le_upper_bound; [lia|]. rewrite (N.mul_comm (S + m)). apply N.mul_le_mono_l. lia. }
  set (q := T * (s + m) / (S + m)) in *. clearbody q.
  replace ((S + (m + d)) * q) with ((S + m) * q + d * q) by lia.
  replace (T * (s + (m + d))) with (T * (s + m) + d * T) by lia.
  apply N.add_le_mono; [exact LO|]. now apply N.mul_le_mono_l.
Qed.

Lemma set_fee_call self w o locked results f w1 ps :
  step self w (EvCall o 0 locked results (UpdateRewardFeeFraction f)) = (w1, Some ps) ->
  o = owner_id (w_pool w1) /\ denominator f <> 0 /\ reward_fee_fraction (w_pool w1) = f /\
  w_total w1 = w_total w /\ w_epoch w1 = w_epoch w /\
  exists p need, internal_ping (call_ctx self w o 0 locked results) (w_pool w) = Ok (p, need) /\
                 w_pool w1 = set_fraction f p.
Proof.
  intros H. apply step_call_some in H. destruct H as (_ & HL & p' & E & _ & ->).
  destruct (exec_split _ _ _ _ _ E eq_refl) as (_ & _ & p1 & need & HP & O & D & _ & -> & ->).
  cbn [ctx_predecessor call_ctx] in O.
  assert (X : outgoing (restake_if need (set_fraction f p1)) = 0) by apply outgoing_restake_if.
  cbn [w_pool w_total w_epoch]. rewrite X. repeat split; auto; [lia|]. eauto.
Qed.

(** From two worlds in which only the fee differs. *)
Lemma lower_fee_from self w0 e1 e2 o f g p t n es v l r v1 qs1 v2 qs2 :
  initial self w0 ->
  final self w0 e1 = mkWorld (set_fraction f p) t n -> final self w0 e2 = mkWorld (set_fraction g p) t n ->
  o = owner_id p -> denominator f <> 0 -> denominator g <> 0 ->
  fraction_le f g -> Forall no_call es ->
  step self (final self w0 (e1 ++ es)) (EvCall v 0 l r Ping) = (v1, Some qs1) ->
  step self (final self w0 (e2 ++ es)) (EvCall v 0 l r Ping) = (v2, Some qs2) ->
  get_total_staked_balance (w_pool v1) = get_total_staked_balance (w_pool v2) /\
  forall u b1 b2,
    get_account_staked_balance (w_pool v1) u = Ok b1 -> get_account_staked_balance (w_pool v2) u = Ok b2 ->
    (u <> o -> b2 <= b1) /\ (u = o -> b1 <= b2).
Proof.
  intros HI H1 H2 O1 D1 D2 L Q P1 P2.
  destruct (quiet self es Q) as (a & b & QE).
  assert (X1 : final self w0 (e1 ++ es) = mkWorld (set_fraction f p) (t + a) (n + b)) by (rewrite final_app, QE, H1; reflexivity).
  assert (X2 : final self w0 (e2 ++ es) = mkWorld (set_fraction g p) (t + a) (n + b)) by (rewrite final_app, QE, H2; reflexivity).
  destruct (N.eq_dec (last_epoch_height p) (n + b)) as [SE|NE].
  - apply (ping_same_epoch _ _ _ _ _ _ _ _ HI) in P1; [|rewrite X1; exact SE].
    apply (ping_same_epoch _ _ _ _ _ _ _ _ HI) in P2; [|rewrite X2; exact SE].
    rewrite X1 in P1. rewrite X2 in P2. destruct P1 as (-> & _). destruct P2 as (-> & _).
    split; [reflexivity|]. intros u b1 b2 B1 B2. apply staked_view_ok in B1, B2. cbn in B1, B2. subst. split; reflexivity.
  - pose proof (rewards_effect _ _ _ _ _ _ _ _ HI ltac:(rewrite X1; exact NE) P1) as ((S0 & I) & Hf & ET & ES & _ & _ & SA).
    pose proof (rewards_effect _ _ _ _ _ _ _ _ HI ltac:(rewrite X2; exact NE) P2) as ((S0' & I') & Hf' & ET' & ES' & _ & _ & SA').
    destruct (ping_rewards _ _ _ _ _ _ _ _ HI ltac:(rewrite X1; exact NE) P1) as (rw & m & _ & _ & _ & _ & MS & MO & _).
    destruct (ping_rewards _ _ _ _ _ _ _ _ HI ltac:(rewrite X2; exact NE) P2) as (rw' & m' & _ & _ & _ & _ & MS' & MO' & _).
    rewrite X1 in *. rewrite X2 in *.
    unfold pending in *.
    cbn [w_pool w_total set_fraction reward_fee_fraction last_total_balance total_staked_balance total_stake_shares owner_id] in *.
    set (R := t + a - last_total_balance p) in *.
    set (k1 := numerator f * R / denominator f) in *. set (k2 := numerator g * R / denominator g) in *.
    assert (K : k1 <= k2) by (apply fee_mono; auto).
    assert (M : m <= m').
    { pose proof (minted_mono (total_staked_balance p) (total_stake_shares p) R k1 k2 K Hf' (pi_price _ _ I)). lia. }
    split; [unfold get_total_staked_balance; lia|].
    intros u b1 b2 B1 B2.
    assert (P : 0 < total_stake_shares (w_pool v1) /\ 0 < total_stake_shares (w_pool v2)).
    { unfold get_account_staked_balance, get_account in B1, B2. split; inv_res;
      match goal with H : staked_amount_from_num_shares_rounded_down ?q _ = Ok _ |- 0 < total_stake_shares ?q =>
        apply amount_down_ok in H; lia end. }
    apply staked_view_ok in B1, B2. subst b1 b2. split.
    + intros NO. rewrite SA, SA' by congruence. cbn [accounts set_fraction]. rewrite ET, ET'.
      apply value_mono; [lia|lia| |reflexivity]. apply N.mul_le_mono_l. lia.
    + intros ->. rewrite !get_account_eq, <- O1 in MO, MO'. cbn [accounts set_fraction] in MO, MO'.
      pose proof (shares_le _ _ o I) as SL. cbn [accounts set_fraction total_stake_shares] in SL.
      rewrite MO, MO', ET, ET', MS, MS'. apply owner_mono; lia.
Qed.

Lemma lower_fee self w0 evs o locked results f g w1 ps1 w2 ps2 ds es v l r v1 qs1 v2 qs2 :
  initial self w0 ->
  let w := final self w0 evs in
  step self w (EvCall o 0 locked results (UpdateRewardFeeFraction f)) = (w1, Some ps1) ->
  step self w (EvCall o 0 locked results (UpdateRewardFeeFraction g)) = (w2, Some ps2) ->
  fraction_le f g -> Forall same_epoch ds -> Forall keeps_fee ds -> Forall no_call es ->
  step self (final self w1 (ds ++ es)) (EvCall v 0 l r Ping) = (v1, Some qs1) ->
  step self (final self w2 (ds ++ es)) (EvCall v 0 l r Ping) = (v2, Some qs2) ->
  get_total_staked_balance (w_pool v1) = get_total_staked_balance (w_pool v2) /\
  forall u b1 b2,
    get_account_staked_balance (w_pool v1) u = Ok b1 -> get_account_staked_balance (w_pool v2) u = Ok b2 ->
    (u <> o -> b2 <= b1) /\ (u = o -> b1 <= b2).
Proof.
  intros HI w H1 H2 L SE KF Q P1 P2.
  destruct (set_fee_call _ _ _ _ _ _ _ _ H1) as (O1 & D1 & F1 & T1 & E1 & p & need & HP & W1).
  destruct (set_fee_call _ _ _ _ _ _ _ _ H2) as (O2 & D2 & F2 & T2 & E2 & p' & need' & HP' & W2).
  rewrite HP in HP'. injection HP' as <- <-.
  assert (A : alike w1 w2).
  { repeat split; [exists f; now rewrite W1, W2|congruence|congruence|]. rewrite W2, E2.
    apply ping_keeps in HP. cbn in *. tauto. }
  destruct (alike_history self ds SE _ _ A) as (_ & (h & PE) & TE & EE & _).
  pose proof (fee_kept self ds KF w1) as K1. pose proof (fee_kept self ds KF w2) as K2. rewrite F1 in K1. rewrite F2 in K2.
  rewrite PE in K1. cbn in K1. subst h.
  set (c1 := EvCall o 0 locked results (UpdateRewardFeeFraction f)) in *.
  set (c2 := EvCall o 0 locked results (UpdateRewardFeeFraction g)) in *.
  assert (R : forall c k ys, fst (step self w c) = k -> final self k ys = final self w0 (evs ++ c :: ys)).
  { intros c k ys <-. rewrite final_app. reflexivity. }
  assert (R1 : forall ys, final self w1 ys = final self w0 (evs ++ c1 :: ys)) by (intros; apply R; now rewrite H1).
  assert (R2 : forall ys, final self w2 ys = final self w0 (evs ++ c2 :: ys)) by (intros; apply R; now rewrite H2).
  rewrite R1 in P1. rewrite R2 in P2. 
  replace (evs ++ c1 :: ds ++ es)%list with ((evs ++ c1 :: ds) ++ es)%list in P1 by now rewrite <- app_assoc.
  replace (evs ++ c2 :: ds ++ es)%list with ((evs ++ c2 :: ds) ++ es)%list in P2 by now rewrite <- app_assoc.
  assert (OW : o = owner_id (w_pool (final self w2 ds))).
  { destruct (reach self w0 (evs ++ [c2]) HI) as (_ & _ & _ & OA & _).
    destruct (reach self w0 (evs ++ c2 :: ds) HI) as (_ & _ & _ & OB & _).
    rewrite <- R2 in OA, OB. cbn [final] in OA. congruence. }
  apply (lower_fee_from self w0 (evs ++ c1 :: ds) (evs ++ c2 :: ds) o f g (w_pool (final self w2 ds))
           (w_total (final self w2 ds)) (w_epoch (final self w2 ds)) es v l r v1 qs1 v2 qs2 HI); auto.
  - rewrite <- R1. destruct (final self w1 ds). cbn in *. now subst.
  - rewrite <- R2. destruct (final self w2 ds) as [[]]. cbn in *. now subst.
Qed.

Lemma rest_mono f x y : denominator f <> 0 -> numerator f <= denominator f -> x <= y ->
  numerator f * x / denominator f <= x -> numerator f * y / denominator f <= y ->
  x - numerator f * x / denominator f <= y - numerator f * y / denominator f.
Proof.
  intros D L XY A B. assert (E : y = x + (y - x)) by lia. set (d := y - x) in *. clearbody d.
  assert (H : numerator f * y / denominator f <= numerator f * x / denominator f + d).
  { rewrite <- N.div_add by exact D. apply N.div_le_mono; [exact D|]. subst y.
    rewrite N.mul_add_distr_l, (N.mul_comm d). apply N.add_le_mono_l, N.mul_le_mono_r, L. }
  lia.
Qed.

(** [A] and [B] are what the stake of all others is worth, [m] and [n] the shares minted for the owner. *)
Lemma up_to_a_share T S s x y k h A B m n : 0 < S -> S <= T -> s <= S -> A <= B ->
  T + x = A + k -> T + y = B + h -> 0 < A ->
  S * k < (m + 1) * A -> n * B <= S * h ->
  (T + x) * s / (S + m) <= (T + y) * s / (S + n) + (T + x) / (S + m) + 1.
Proof.
  intros HS HT Hs AB EA EB PA HM HN.
  set (c := A * s / S).
  assert (C1 : A * s < (c + 1) * S) by (unfold c; rewrite (N.mul_comm (_ + 1)), N.add_1_r; apply N.mul_succ_div_gt; lia).
  assert (C2 : c <= (T + y) * s / (S + n)).
  { apply N.div_le_lower_bound; [lia|].
    assert (CB : S * c <= B * s).
    { transitivity (A * s); [apply N.mul_div_le; lia|]. now apply N.mul_le_mono_r. }
    assert (X : (S + n) * B <= S * (T + y)) by (rewrite EB; nia).
    apply N.mul_le_mono_pos_l with (S * B); [nia|].
    replace (S * B * ((S + n) * c)) with (S * c * ((S + n) * B)) by lia.
    transitivity (B * s * (S * (T + y))); [now apply N.mul_le_mono|lia]. }
  assert (C3 : c <= T + x).
  { unfold c. apply N.div_le_upper_bound; [lia|]. rewrite N.mul_comm. apply N.mul_le_mono; lia. }
  set (b := (T + x) * s / (S + m)).
  assert (B1 : b * (S + m) <= (T + x) * s) by (unfold b; rewrite N.mul_comm; apply N.mul_div_le; lia).
  assert (X : S * (T + x) <= (S + m + 1) * A) by (rewrite EA; nia).
  assert (Y : b * (S + m) < (S + m + 1) * (c + 1)).
  { apply N.mul_lt_mono_pos_l with S; [exact HS|].
    apply N.le_lt_trans with ((S + m + 1) * (A * s)).
    - transitivity (S * ((T + x) * s)); [now apply N.mul_le_mono_l|].
      replace (S * ((T + x) * s)) with (S * (T + x) * s) by lia.
      replace ((S + m + 1) * (A * s)) with ((S + m + 1) * A * s) by lia. now apply N.mul_le_mono_r.
    - replace (S * ((S + m + 1) * (c + 1))) with ((S + m + 1) * ((c + 1) * S)) by lia.
      apply N.mul_lt_mono_pos_l; [lia|exact C1]. }
  assert (Z : b <= c + 1 + (T + x) / (S + m)).
  { destruct (N.le_gt_cases b (c + 1)) as [|G]; [lia|].
    assert (W : b - (c + 1) <= (T + x) / (S + m)).
    { apply N.div_le_lower_bound; [lia|].
      assert (E : b = c + 1 + (b - (c + 1))) by lia. set (e := b - (c + 1)) in *. clearbody e. rewrite E in Y. nia. }
    lia. }
  lia.
Qed.

Lemma more_rewards self w0 evs x y es v l r v1 qs1 v2 qs2 :
  initial self w0 ->
  let w := final self w0 evs in
  x <= y -> Forall no_call es ->
  step self (final self w (EvIncome x :: es)) (EvCall v 0 l r Ping) = (v1, Some qs1) ->
  step self (final self w (EvIncome y :: es)) (EvCall v 0 l r Ping) = (v2, Some qs2) ->
  get_total_staked_balance (w_pool v1) <= get_total_staked_balance (w_pool v2) /\
  forall u b1 b2, u <> owner_id (w_pool w) ->
    get_account_staked_balance (w_pool v1) u = Ok b1 -> get_account_staked_balance (w_pool v2) u = Ok b2 ->
    b1 <= b2 + get_total_staked_balance (w_pool v1) / total_stake_shares (w_pool v1) + 1.
Proof.
  intros HI w XY Q P1 P2. destruct (quiet self es Q) as (a & b & QE).
  assert (R : forall z, final self w (EvIncome z :: es) = final self w0 (evs ++ EvIncome z :: es)).
  { intros z. rewrite final_app. reflexivity. }
  assert (X : forall z, final self w0 (evs ++ EvIncome z :: es) = mkWorld (w_pool w) (w_total w + z + a) (w_epoch w + b)).
  { intros z. rewrite <- R. cbn [final step fst]. rewrite QE. reflexivity. }
  rewrite R in P1, P2. set (p := w_pool w) in *.
  destruct (N.eq_dec (last_epoch_height p) (w_epoch w + b)) as [SE|NE].
  - apply (ping_same_epoch _ _ _ _ _ _ _ _ HI) in P1; [|rewrite X; exact SE].
    apply (ping_same_epoch _ _ _ _ _ _ _ _ HI) in P2; [|rewrite X; exact SE].
    rewrite X in P1, P2. destruct P1 as (-> & _). destruct P2 as (-> & _). cbn [w_pool].
    split; [reflexivity|]. intros u b1 b2 _ B1 B2. rewrite B1 in B2. injection B2 as ->. lia.
  - pose proof (rewards_effect _ _ _ _ _ _ _ _ HI ltac:(rewrite X; exact NE) P1) as ((S0 & I) & Hf & ET & ES & _ & _ & SA).
    pose proof (rewards_effect _ _ _ _ _ _ _ _ HI ltac:(rewrite X; exact NE) P2) as (_ & Hf' & ET' & ES' & _ & _ & SA').
    rewrite X in *. unfold pending in *. cbn [w_pool w_total] in *.
    set (R1 := w_total w + x + a - last_total_balance p) in *.
    set (R2 := w_total w + y + a - last_total_balance p) in *.
    set (f := reward_fee_fraction p) in *.
    set (k1 := numerator f * R1 / denominator f) in *. set (k2 := numerator f * R2 / denominator f) in *.
    assert (RR : R1 <= R2) by lia.
    assert (K : R1 - k1 <= R2 - k2) by (apply rest_mono; auto; apply I).
    unfold get_total_staked_balance. rewrite ET, ET'. split; [lia|].
    intros u b1 b2 NO B1 B2. apply staked_view_ok in B1, B2.
    rewrite ET, ES, SA in B1 by exact NO. rewrite ET', ES', SA' in B2 by exact NO. rewrite ES. subst b1 b2.
    pose proof (pi_price _ _ I) as PR. pose proof (shares_le _ _ u I) as SL.
    destruct (N.eq_dec (total_stake_shares p) 0) as [Z|NZ].
    { assert (s0 : stake_shares (acct_of (accounts p) u) = 0) by lia. rewrite s0, N.mul_0_r.
      apply N.le_0_l. }
    apply up_to_a_share with (k := k1) (h := k2) (A := total_staked_balance p + (R1 - k1)) (B := total_staked_balance p + (R2 - k2));
      try lia.
    + rewrite (N.mul_comm (_ + 1)), N.add_1_r. apply N.mul_succ_div_gt. lia.
    + rewrite N.mul_comm. apply N.mul_div_le. lia.
Qed.
