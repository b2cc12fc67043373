(** When the staking pool accepts calls. *)
From Coq Require Import NArith List Bool String Lia Permutation.
From Verif Require Import Prelude PreludeFacts StakingPoolModel StakingPoolSpec ShareMath
  StakingPoolProofs StakingPoolHistory.
Import ListNotations.
Open Scope N_scope.

Ltac ok_step :=
  match goal with
  | |- context [bind (require ?c ?m) _] => rewrite (require_true c m) by lia; cbn [bind]
  | |- context [bind (sub_chk ?a ?b) _] => rewrite (sub_chk_intro a b) by lia; cbn [bind]
  | |- context [bind (add128 ?a ?b) _] =>
      unfold add128 at 1; rewrite (add_chk_intro U128_BOUND a b) by lia; cbn [bind]
  | |- context [bind (add64 ?a ?b) _] =>
      unfold add64 at 1; rewrite (add_chk_intro U64_BOUND a b) by lia; cbn [bind]
  | |- context [bind (Ok _) _] => cbn [bind]
  end.

Lemma U32_le_U128 : U32_BOUND <= U128_BOUND.
Proof. vm_compute. discriminate. Qed.

Lemma covered_le k p u :
  covered k p -> k <= STAKE_SHARE_PRICE_GUARANTEE_FUND ->
  T_ p + unstaked (acct p u) <= last_total_balance p.
Proof.
  unfold covered. intros. pose proof (acct_unstaked_le (accounts p) u).
  rewrite all_unstaked_eq in *. lia.
Qed.
Lemma shares_le S0 p u : pinv S0 p -> stake_shares (acct p u) + S0 <= S_ p.
Proof.
  intros I. rewrite (pi_shares _ _ I), all_shares_eq.
  pose proof (acct_shares_le (accounts p) u). lia.
Qed.

(** Rewards can always be distributed. *)
Lemma ping_accept S0 k c p :
  pinv S0 p -> covered k p -> k <= STAKE_SHARE_PRICE_GUARANTEE_FUND -> S0 <> 0 ->
  last_total_balance p + ctx_attached c <= ctx_locked c + ctx_balance c ->
  ctx_locked c + ctx_balance c < U128_BOUND ->
  exists p1 b, internal_ping c p = Ok (p1, b) /\ (b = false -> p1 = p).
Proof.
  intros I C K Z HL HB. unfold internal_ping.
  destruct (N.eqb_spec (last_epoch_height p) (ctx_epoch c)) as [EQ|NEQ]; [eauto|].
  do 2 ok_step. cbn [last_total_balance set_last_epoch]. do 2 ok_step.
  set (r := ctx_locked c + ctx_balance c - ctx_attached c - last_total_balance p).
  pose proof (covered_le k p (owner_id p) C K) as CL.
  pose proof (shares_le _ _ (owner_id p) I) as SL.
  pose proof (pi_price _ _ I) as SP.
  destruct (N.ltb_spec 0 r); [|eexists; eexists; split; [reflexivity|discriminate]].
  cbn [reward_fee_fraction set_last_epoch].
  unfold fraction_multiply.
  pose proof (pi_den _ _ I). pose proof (pi_num _ _ I). pose proof (pi_u32 _ _ I).
  pose proof U32_le_U128.
  rewrite mul256_intro by lia. cbn [bind]. rewrite div_chk_intro by auto. cbn [bind].
  set (fee := numerator (reward_fee_fraction p) * r / denominator (reward_fee_fraction p)).
  assert (FR : fee <= r) by (subst fee; apply div_le; auto; nia).
  rewrite as_u128_intro by lia. cbn [bind]. ok_step. cbn [T_ set_last_epoch].
  do 1 ok_step.
  set (q := set_total_staked _ _).
  assert (TQ : T_ q = T_ p + (r - fee)) by reflexivity.
  assert (SQ : S_ q = S_ p) by reflexivity.
  assert (NB : S_ q * fee / T_ q <= fee) by (apply div_le; rewrite ?TQ, ?SQ; [lia|nia]).
  rewrite shares_down_intro by (rewrite ?SQ in *; lia). cbn [bind].
  set (n := S_ q * fee / T_ q) in *.
  destruct (N.ltb_spec 0 n).
  - rewrite get_account_eq.
    change (accounts q) with (accounts p). change (owner_id q) with (owner_id p).
    ok_step. rewrite save_account_eq.
    change (S_ (set_accounts _ q)) with (S_ p). ok_step. cbn [T_ set_total_shares].
    change (T_ (set_accounts _ q)) with (T_ q). ok_step.
    eexists; eexists; split; [reflexivity|discriminate].
  - cbn [bind]. ok_step. eexists; eexists; split; [reflexivity|discriminate].
Qed.

Lemma unstake_accept S0 k c p a :
  pinv S0 p -> covered k p -> k <= STAKE_SHARE_PRICE_GUARANTEE_FUND -> S0 <> 0 ->
  0 < a -> a <= T_ p * stake_shares (acct p (ctx_predecessor c)) / S_ p ->
  ctx_epoch c + NUM_EPOCHS_TO_UNLOCK < U64_BOUND ->
  exists p', inner_unstake c p a = Ok p'.
Proof.
  intros I C K Z Ha HA HE.
  set (u := ctx_predecessor c) in *.
  pose proof (covered_le k p u C K) as CL. pose proof (shares_le _ _ u I) as SL.
  pose proof (pi_price _ _ I) as SP. pose proof (pi_last _ _ I) as LB. pose proof (pi_T _ _ I) as TB.
  assert (HS : S_ p <> 0) by lia. assert (HT : T_ p <> 0) by lia.
  unfold inner_unstake. fold u. rewrite get_account_eq.
  assert (HTa : a <= T_ p).
  { etransitivity; [exact HA|]. apply div_le; auto. nia. }
  apply shares_needed_iff in HA; auto.
  set (n := cdiv (S_ p * a) (T_ p)) in *.
  assert (Hn : 0 < n) by (apply cdiv_pos; auto; nia).
  assert (Hr : cdiv (T_ p * n) (S_ p) <= T_ p) by (apply cdiv_le; auto; nia).
  assert (Hrp : 0 < cdiv (T_ p * n) (S_ p)) by (apply cdiv_pos; auto; nia).
  assert (Hd : T_ p * n / S_ p <= T_ p) by (apply div_le; auto; nia).
  do 2 ok_step. rewrite shares_up_intro; auto; try lia. cbn [bind]. fold n.
  do 2 ok_step. rewrite amount_up_intro; auto; try lia. cbn [bind].
  do 4 ok_step. rewrite save_account_eq. cbn [T_ S_ set_accounts].
  rewrite amount_down_intro; cbn [T_ S_ set_accounts]; auto; try lia. cbn [bind].
  ok_step. cbn [S_ set_total_staked set_accounts]. ok_step. eauto.
Qed.

Lemma withdraw_accept k c p a :
  covered k p -> k <= STAKE_SHARE_PRICE_GUARANTEE_FUND ->
  0 < a -> a <= unstaked (acct p (ctx_predecessor c)) ->
  unstaked_available_epoch_height (acct p (ctx_predecessor c)) <= ctx_epoch c ->
  exists p', internal_withdraw c p a = Ok (p', [PTransfer (ctx_predecessor c) a]).
Proof.
  intros C K Ha HU HE. pose proof (covered_le k p (ctx_predecessor c) C K) as CL.
  unfold internal_withdraw. rewrite get_account_eq. do 4 ok_step. rewrite save_account_eq.
  cbn [last_total_balance set_accounts]. ok_step. eauto.
Qed.

Lemma deposit_accept k c p :
  covered k p -> k <= STAKE_SHARE_PRICE_GUARANTEE_FUND ->
  last_total_balance p + ctx_attached c < U128_BOUND ->
  exists p', internal_deposit c p = Ok (p', ctx_attached c).
Proof.
  intros C K HB. pose proof (covered_le k p (ctx_predecessor c) C K) as CL.
  unfold internal_deposit. rewrite get_account_eq. ok_step. rewrite save_account_eq.
  cbn [last_total_balance set_accounts]. ok_step. eauto.
Qed.

Lemma stake_accept S0 k c p a :
  pinv S0 p -> covered k p -> k <= STAKE_SHARE_PRICE_GUARANTEE_FUND -> S0 <> 0 ->
  T_ p <= S_ p * a -> a <= unstaked (acct p (ctx_predecessor c)) ->
  exists p', internal_stake c p a = Ok p'.
Proof.
  intros I C K Z Ha HU.
  set (u := ctx_predecessor c) in *.
  pose proof (covered_le k p u C K) as CL. pose proof (shares_le _ _ u I) as SL.
  pose proof (pi_price _ _ I) as SP. pose proof (pi_last _ _ I) as LB. pose proof (pi_T _ _ I) as TB.
  assert (HS : S_ p <> 0) by lia. assert (HT : T_ p <> 0) by lia.
  assert (Ha0 : 0 < a) by nia.
  unfold internal_stake. fold u. rewrite get_account_eq. ok_step.
  set (n := S_ p * a / T_ p).
  assert (Hn0 : 0 < n) by (apply N.lt_le_trans with 1; [lia|]; apply div_ge; lia).
  assert (Hna : n <= a) by (apply div_le; auto; nia).
  rewrite shares_down_intro; auto; try lia; fold n; try lia. cbn [bind]. ok_step.
  assert (Hc : T_ p * n / S_ p <= a) by now apply charge_le.
  assert (Hc0 : 0 < T_ p * n / S_ p).
  { apply N.lt_le_trans with n; [lia|]. apply div_ge; auto. nia. }
  assert (Hs : cdiv (T_ p * n) (S_ p) <= a) by now apply stake_total_le.
  rewrite amount_down_intro; auto; try lia. cbn [bind]. do 4 ok_step.
  rewrite save_account_eq. cbn [T_ S_ set_accounts].
  rewrite amount_up_intro; cbn [T_ S_ set_accounts]; auto; try lia. cbn [bind].
  ok_step. cbn [S_ set_total_staked set_accounts]. ok_step. eauto.
Qed.

(** ** Acceptance of public calls *)

Lemma winv_ping S0 k w self who attached locked results :
  winv S0 k w -> k <= STAKE_SHARE_PRICE_GUARANTEE_FUND -> S0 <> 0 ->
  w_total w + attached < U128_BOUND -> locked <= w_total w ->
  exists p1 b, internal_ping (call_ctx self w who attached locked results) (w_pool w) = Ok (p1, b) /\
    (last_epoch_height (w_pool w) = w_epoch w -> p1 = w_pool w) /\
    pinv S0 p1 /\ covered k p1 /\ last_total_balance p1 <= w_total w /\
    price_le (w_pool w) p1 /\
    (forall u, unstaked (acct p1 u) = unstaked (acct (w_pool w) u) /\
       unstaked_available_epoch_height (acct p1 u)
         = unstaked_available_epoch_height (acct (w_pool w) u) /\
       stake_shares (acct (w_pool w) u) <= stake_shares (acct p1 u) /\
       (u <> owner_id (w_pool w) -> acct p1 u = acct (w_pool w) u)).
Proof.
  intros [I C L E] K Z B HL.
  destruct (ping_accept S0 k (call_ctx self w who attached locked results) (w_pool w) I C K Z)
    as (p1 & b & H & HF); [cbn; lia|cbn; lia|].
  exists p1, b. split; [exact H|].
  pose proof (ping_rel _ _ _ _ _ I H) as (r & R & HR).
  pose proof (internal_ping_ok _ _ _ _ H) as HP.
  split; [|split; [apply R|split; [|split; [|split; [apply R|]]]]].
  - intros HE. destruct HP as [(_ & -> & _)|(_ & NE & _)]; auto. cbn in NE. congruence.
  - pose proof (cr_cov _ _ _ _ _ _ _ _ R k C) as X. now rewrite N.add_0_r in X.
  - pose proof (cr_last _ _ _ _ _ _ _ _ R). cbn in HR. lia.
  - destruct HP as [(_ & -> & _)|(_ & _ & PE)]; [intros; repeat split; auto; lia|].
    now apply (ping_inv _ _ _ _ I PE).
Qed.

Lemma exec_unstake_accept S0 k w self u locked results a :
  winv S0 k w -> k <= STAKE_SHARE_PRICE_GUARANTEE_FUND -> S0 <> 0 ->
  w_total w < U128_BOUND -> locked <= w_total w -> w_epoch w + NUM_EPOCHS_TO_UNLOCK < U64_BOUND ->
  0 < a -> a <= T_ (w_pool w) * stake_shares (acct (w_pool w) u) / S_ (w_pool w) ->
  exists p' , exec (call_ctx self w u 0 locked results) (w_pool w) (Unstake a)
    = Ok (p', internal_restake p').
Proof.
  intros W K Z B HL HE Ha HA.
  destruct (winv_ping S0 k w self u 0 locked results W K Z ltac:(lia) HL)
    as (p1 & b & H & _ & I1 & C1 & L1 & P1 & F1).
  assert (HA1 : a <= T_ p1 * stake_shares (acct p1 u) / S_ p1).
  { etransitivity; [exact HA|]. eapply staked_value_mono; eauto. apply W. apply F1. }
  assert (HB : a < U128_BOUND).
  { destruct (bounds _ _ _ u W K B). lia. }
  unfold exec. cbn [args_fit payable ctx_attached call_ctx orb].
  rewrite (require_true (fits U128_BOUND a)) by (unfold fits; lia). cbn [bind].
  rewrite (require_true (0 =? 0)) by reflexivity. cbn [bind].
  unfold unstake. fold (call_ctx self w u 0 locked results). rewrite H. cbn [bind].
  destruct (unstake_accept S0 k (call_ctx self w u 0 locked results) p1 a I1 C1 K Z Ha HA1 HE)
    as [p' ->]. cbn [bind]. eauto.
Qed.

Lemma exec_unstake_all_accept S0 k w self u locked results :
  winv S0 k w -> k <= STAKE_SHARE_PRICE_GUARANTEE_FUND -> S0 <> 0 ->
  w_total w < U128_BOUND -> locked <= w_total w -> w_epoch w + NUM_EPOCHS_TO_UNLOCK < U64_BOUND ->
  0 < T_ (w_pool w) * stake_shares (acct (w_pool w) u) / S_ (w_pool w) ->
  exists p' , exec (call_ctx self w u 0 locked results) (w_pool w) UnstakeAll
    = Ok (p', internal_restake p').
Proof.
  intros W K Z B HL HE HA.
  destruct (winv_ping S0 k w self u 0 locked results W K Z ltac:(lia) HL)
    as (p1 & b & H & _ & I1 & C1 & L1 & P1 & F1).
  assert (HA1 : T_ (w_pool w) * stake_shares (acct (w_pool w) u) / S_ (w_pool w)
                <= T_ p1 * stake_shares (acct p1 u) / S_ p1).
  { eapply staked_value_mono; eauto. apply W. apply F1. }
  unfold exec. cbn [args_fit payable ctx_attached call_ctx orb].
  rewrite !require_true by reflexivity. cbn [bind].
  unfold unstake_all. fold (call_ctx self w u 0 locked results). rewrite H. cbn [bind].
  rewrite get_account_eq. cbn [ctx_predecessor call_ctx].
  pose proof (shares_le _ _ u I1). pose proof (pi_price _ _ I1). pose proof (pi_T _ _ I1).
  assert (T_ p1 * stake_shares (acct p1 u) / S_ p1 <= T_ p1) by (apply div_le; nia).
  rewrite amount_down_intro by lia. cbn [bind].
  destruct (unstake_accept S0 k (call_ctx self w u 0 locked results) p1
    (T_ p1 * stake_shares (acct p1 u) / S_ p1) I1 C1 K Z ltac:(lia) ltac:(cbn; lia) HE)
    as [p' E]. fold (call_ctx self w u 0 locked results). rewrite E. cbn [bind]. eauto.
Qed.

Lemma exec_withdraw_accept S0 k w self u locked results a :
  winv S0 k w -> k <= STAKE_SHARE_PRICE_GUARANTEE_FUND -> S0 <> 0 ->
  w_total w < U128_BOUND -> locked <= w_total w ->
  0 < a -> a <= unstaked (acct (w_pool w) u) ->
  unstaked_available_epoch_height (acct (w_pool w) u) <= w_epoch w ->
  exists p' b, exec (call_ctx self w u 0 locked results) (w_pool w) (Withdraw a)
    = Ok (p', PTransfer u a :: restake_if b p').
Proof.
  intros W K Z B HL Ha HU HE.
  destruct (winv_ping S0 k w self u 0 locked results W K Z ltac:(lia) HL)
    as (p1 & b & H & _ & I1 & C1 & L1 & P1 & F1).
  destruct (F1 u) as (FU & FE & _).
  destruct (bounds _ _ _ u W K B) as (B1 & _ & _ & B4 & _).
  unfold exec. cbn [args_fit payable ctx_attached call_ctx orb].
  rewrite (require_true (fits U128_BOUND a)) by (unfold fits; lia). cbn [bind].
  rewrite (require_true (0 =? 0)) by reflexivity. cbn [bind].
  unfold withdraw. fold (call_ctx self w u 0 locked results). rewrite H. cbn [bind].
  destruct (withdraw_accept k (call_ctx self w u 0 locked results) p1 a C1 K Ha) as [p' E];
    [cbn; lia|cbn; lia|]. rewrite E. cbn [bind]. exists p', b. reflexivity.
Qed.

Lemma exec_withdraw_all_accept S0 k w self u locked results :
  winv S0 k w -> k <= STAKE_SHARE_PRICE_GUARANTEE_FUND -> S0 <> 0 ->
  w_total w < U128_BOUND -> locked <= w_total w ->
  0 < unstaked (acct (w_pool w) u) ->
  unstaked_available_epoch_height (acct (w_pool w) u) <= w_epoch w ->
  exists p' b, exec (call_ctx self w u 0 locked results) (w_pool w) WithdrawAll
    = Ok (p', PTransfer u (unstaked (acct (w_pool w) u)) :: restake_if b p').
Proof.
  intros W K Z B HL Ha HE.
  destruct (winv_ping S0 k w self u 0 locked results W K Z ltac:(lia) HL)
    as (p1 & b & H & _ & I1 & C1 & L1 & P1 & F1).
  destruct (F1 u) as (FU & FE & _).
  unfold exec. cbn [args_fit payable ctx_attached call_ctx orb].
  rewrite !require_true by reflexivity. cbn [bind].
  unfold withdraw_all. fold (call_ctx self w u 0 locked results). rewrite H. cbn [bind].
  rewrite get_account_eq. cbn [ctx_predecessor call_ctx]. rewrite FU.
  destruct (withdraw_accept k (call_ctx self w u 0 locked results) p1
    (unstaked (acct (w_pool w) u)) C1 K Ha) as [p' E]; [cbn; lia|cbn; lia|].
  fold (call_ctx self w u 0 locked results).
  rewrite E. cbn [bind]. exists p', b. reflexivity.
Qed.

Lemma exec_deposit_accept S0 k w self u attached locked results :
  winv S0 k w -> k <= STAKE_SHARE_PRICE_GUARANTEE_FUND -> S0 <> 0 ->
  w_total w + attached < U128_BOUND -> locked <= w_total w ->
  exists p' b, exec (call_ctx self w u attached locked results) (w_pool w) Deposit
    = Ok (p', restake_if b p').
Proof.
  intros W K Z B HL.
  destruct (winv_ping S0 k w self u attached locked results W K Z B HL)
    as (p1 & b & H & _ & I1 & C1 & L1 & P1 & F1).
  unfold exec. cbn [args_fit payable ctx_attached call_ctx orb].
  rewrite !require_true by reflexivity. cbn [bind].
  unfold deposit. fold (call_ctx self w u attached locked results). rewrite H. cbn [bind].
  destruct (deposit_accept k (call_ctx self w u attached locked results) p1 C1 K) as [p' E];
    [cbn; lia|]. rewrite E. cbn [bind]. eauto.
Qed.
