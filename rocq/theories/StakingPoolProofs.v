(** Effects of the staking pool's internal functions and the invariants of the contract. *)
From Coq Require Import NArith List Bool String Lia Permutation.
From Verif Require Import Prelude PreludeFacts StakingPoolModel StakingPoolSpec ShareMath.
Import ListNotations.
Open Scope N_scope.

Notation T_ := total_staked_balance.
Notation S_ := total_stake_shares.

(** * The account map *)

Definition nonzero (acc : account) : bool := (0 <? unstaked acc) || (0 <? stake_shares acc).

Definition save_accounts (a : account_id) (acc : account) (m : umap account_id account) :=
  if nonzero acc then minsert a acc m else mremove a m.

Lemma save_account_eq p a acc :
  internal_save_account p a acc = set_accounts (save_accounts a acc (accounts p)) p.
Proof. unfold internal_save_account, save_accounts, nonzero. now destruct (_ || _). Qed.

Definition acct_of (m : umap account_id account) (a : account_id) : account :=
  match mget a m with Some acc => acc | None => default_account end.

Lemma get_account_eq p a : internal_get_account p a = acct_of (accounts p) a.
Proof. reflexivity. Qed.

Lemma acct_of_save m a acc b :
  NoDup (mkeys m) ->
  acct_of (save_accounts a acc m) b =
  if keqb b a then (if nonzero acc then acc else default_account) else acct_of m b.
Proof.
  intros ND. unfold acct_of, save_accounts. destruct (nonzero acc).
  - rewrite mget_minsert. now destruct (keqb b a).
  - rewrite mget_mremove by auto. now destruct (keqb b a).
Qed.

Lemma nonzero_false acc : nonzero acc = false -> unstaked acc = 0 /\ stake_shares acc = 0.
Proof. unfold nonzero. lia. Qed.

Lemma acct_of_save_unstaked m a acc b :
  NoDup (mkeys m) ->
  unstaked (acct_of (save_accounts a acc m) b) =
  if keqb b a then unstaked acc else unstaked (acct_of m b).
Proof.
  intros ND. rewrite acct_of_save by auto. destruct (keqb b a); auto.
  destruct (nonzero acc) eqn:E; auto. apply nonzero_false in E. cbn. lia.
Qed.

Lemma acct_of_save_shares m a acc b :
  NoDup (mkeys m) ->
  stake_shares (acct_of (save_accounts a acc m) b) =
  if keqb b a then stake_shares acc else stake_shares (acct_of m b).
Proof.
  intros ND. rewrite acct_of_save by auto. destruct (keqb b a); auto.
  destruct (nonzero acc) eqn:E; auto. apply nonzero_false in E. cbn. lia.
Qed.

Lemma acct_of_default m a : mget a m = None -> acct_of m a = default_account.
Proof. unfold acct_of. now intros ->. Qed.

Lemma msum_save (f : account -> N) a acc m :
  f default_account = 0 -> (nonzero acc = false -> f acc = 0) ->
  msum f (save_accounts a acc m) + f (acct_of m a) = msum f m + f acc.
Proof.
  intros D Z. unfold save_accounts, acct_of. destruct (nonzero acc).
  - pose proof (msum_minsert f a acc m). destruct (mget a m); lia.
  - pose proof (msum_mremove f a m). specialize (Z eq_refl). destruct (mget a m); lia.
Qed.

Lemma msum_save_unstaked a acc m :
  msum unstaked (save_accounts a acc m) + unstaked (acct_of m a) = msum unstaked m + unstaked acc.
Proof. apply msum_save; auto. intros E; apply nonzero_false in E; lia. Qed.

Lemma msum_save_shares a acc m :
  msum stake_shares (save_accounts a acc m) + stake_shares (acct_of m a) =
  msum stake_shares m + stake_shares acc.
Proof. apply msum_save; auto. intros E; apply nonzero_false in E; lia. Qed.

Lemma NoDup_save a acc m : NoDup (mkeys m) -> NoDup (mkeys (save_accounts a acc m)).
Proof.
  unfold save_accounts. destruct (nonzero acc); [apply NoDup_minsert | apply NoDup_mremove].
Qed.

Definition entries_nonzero (m : umap account_id account) : Prop :=
  forall a acc, mget a m = Some acc -> nonzero acc = true.

Lemma entries_nonzero_save a acc m :
  NoDup (mkeys m) -> entries_nonzero m -> entries_nonzero (save_accounts a acc m).
Proof.
  intros ND E b x. unfold save_accounts. destruct (nonzero acc) eqn:Z.
  - rewrite mget_minsert. destruct (keqb b a); [congruence | apply E].
  - rewrite mget_mremove by auto. destruct (keqb b a); [discriminate | apply E].
Qed.

Lemma all_unstaked_eq p : all_unstaked p = msum unstaked (accounts p).
Proof. reflexivity. Qed.
Lemma all_shares_eq p : all_shares p = msum stake_shares (accounts p).
Proof. reflexivity. Qed.

Lemma acct_unstaked_le m a : unstaked (acct_of m a) <= msum unstaked m.
Proof.
  unfold acct_of. destruct (mget a m) eqn:E; [|cbn; lia]. now apply (msum_ge unstaked) in E.
Qed.
Lemma acct_shares_le m a : stake_shares (acct_of m a) <= msum stake_shares m.
Proof.
  unfold acct_of. destruct (mget a m) eqn:E; [|cbn; lia]. now apply (msum_ge stake_shares) in E.
Qed.

(** * Conversions *)

Lemma mul256_intro a b : a < U128_BOUND -> b < U128_BOUND -> mul256 a b = Ok (a * b).
Proof. intros. apply mul_chk_intro. rewrite U256_sq. nia. Qed.

Lemma shares_down_ok p a n :
  num_shares_from_staked_amount_rounded_down p a = Ok n ->
  T_ p <> 0 /\ n = S_ p * a / T_ p /\ n < U128_BOUND.
Proof.
  unfold num_shares_from_staked_amount_rounded_down. intros H. inv_res. repeat split; auto; lia.
Qed.
Lemma shares_up_ok p a n :
  num_shares_from_staked_amount_rounded_up p a = Ok n ->
  T_ p <> 0 /\ n = cdiv (S_ p * a) (T_ p) /\ n < U128_BOUND.
Proof.
  unfold num_shares_from_staked_amount_rounded_up. intros H. inv_res. repeat split; auto; lia.
Qed.
Lemma amount_down_ok p n a :
  staked_amount_from_num_shares_rounded_down p n = Ok a ->
  S_ p <> 0 /\ a = T_ p * n / S_ p /\ a < U128_BOUND.
Proof.
  unfold staked_amount_from_num_shares_rounded_down. intros H. inv_res. repeat split; auto; lia.
Qed.
Lemma amount_up_ok p n a :
  staked_amount_from_num_shares_rounded_up p n = Ok a ->
  S_ p <> 0 /\ a = cdiv (T_ p * n) (S_ p) /\ a < U128_BOUND.
Proof.
  unfold staked_amount_from_num_shares_rounded_up. intros H. inv_res. repeat split; auto; lia.
Qed.

Lemma shares_down_intro p a :
  T_ p <> 0 -> S_ p < U128_BOUND -> a < U128_BOUND -> S_ p * a / T_ p < U128_BOUND ->
  num_shares_from_staked_amount_rounded_down p a = Ok (S_ p * a / T_ p).
Proof.
  intros. unfold num_shares_from_staked_amount_rounded_down.
  rewrite require_true by lia. cbn [bind]. rewrite mul256_intro by auto. cbn [bind].
  rewrite div_chk_intro by auto. cbn [bind]. now apply as_u128_intro.
Qed.
Lemma amount_down_intro p n :
  S_ p <> 0 -> T_ p < U128_BOUND -> n < U128_BOUND -> T_ p * n / S_ p < U128_BOUND ->
  staked_amount_from_num_shares_rounded_down p n = Ok (T_ p * n / S_ p).
Proof.
  intros. unfold staked_amount_from_num_shares_rounded_down.
  rewrite require_true by lia. cbn [bind]. rewrite mul256_intro by auto. cbn [bind].
  rewrite div_chk_intro by auto. cbn [bind]. now apply as_u128_intro.
Qed.
Lemma add256_intro a b c :
  a < U128_BOUND -> b < U128_BOUND -> c < U128_BOUND -> add256 (a * b) c = Ok (a * b + c).
Proof. intros. apply add_chk_intro. rewrite U256_sq. nia. Qed.
Lemma shares_up_intro p a :
  T_ p <> 0 -> S_ p < U128_BOUND -> T_ p < U128_BOUND -> a < U128_BOUND ->
  cdiv (S_ p * a) (T_ p) < U128_BOUND ->
  num_shares_from_staked_amount_rounded_up p a = Ok (cdiv (S_ p * a) (T_ p)).
Proof.
  intros. unfold num_shares_from_staked_amount_rounded_up.
  rewrite require_true by lia. cbn [bind]. rewrite mul256_intro by auto. cbn [bind].
  rewrite sub_chk_intro by lia. cbn [bind]. rewrite add256_intro by (auto; lia). cbn [bind].
  rewrite div_chk_intro by auto. cbn [bind]. now apply as_u128_intro.
Qed.
Lemma amount_up_intro p n :
  S_ p <> 0 -> S_ p < U128_BOUND -> T_ p < U128_BOUND -> n < U128_BOUND ->
  cdiv (T_ p * n) (S_ p) < U128_BOUND ->
  staked_amount_from_num_shares_rounded_up p n = Ok (cdiv (T_ p * n) (S_ p)).
Proof.
  intros. unfold staked_amount_from_num_shares_rounded_up.
  rewrite require_true by lia. cbn [bind]. rewrite mul256_intro by auto. cbn [bind].
  rewrite sub_chk_intro by lia. cbn [bind]. rewrite add256_intro by (auto; lia). cbn [bind].
  rewrite div_chk_intro by auto. cbn [bind]. now apply as_u128_intro.
Qed.

(** * Effects of the internal functions *)

Definition ping_effect (c : ctx) (p p' : pool) : Prop :=
  exists reward fee n,
    ctx_locked c + ctx_balance c = last_total_balance p + reward + ctx_attached c /\
    fee = numerator (reward_fee_fraction p) * reward / denominator (reward_fee_fraction p) /\
    fee <= reward /\
    (reward = 0 \/ T_ p + (reward - fee) <> 0) /\
    n = S_ p * fee / (T_ p + (reward - fee)) /\
    (T_ p < U128_BOUND -> T_ p + reward < U128_BOUND) /\
    (S_ p < U128_BOUND -> S_ p + n < U128_BOUND) /\
    last_total_balance p + reward < U128_BOUND /\
    let acc := acct_of (accounts p) (owner_id p) in
    p' = mkPool (owner_id p) (stake_public_key p) (ctx_epoch c) (last_total_balance p + reward)
                (S_ p + n) (T_ p + reward) (reward_fee_fraction p)
                (if 0 <? n
                 then save_accounts (owner_id p)
                        (mkAccount (unstaked acc) (stake_shares acc + n)
                           (unstaked_available_epoch_height acc)) (accounts p)
                 else accounts p)
                (paused p).

Ltac pool_cbn :=
  cbn [T_ S_ set_total_staked set_total_shares set_last_epoch set_accounts set_last_total
       set_key set_fraction set_paused
       owner_id stake_public_key last_epoch_height last_total_balance reward_fee_fraction
       accounts paused unstaked stake_shares unstaked_available_epoch_height fst snd] in *.

Ltac pool_unfold :=
  rewrite ?save_account_eq, ?get_account_eq;
  unfold set_total_staked, set_total_shares, set_last_epoch, set_accounts, set_last_total,
         set_key, set_fraction, set_paused; pool_cbn.

Lemma pool_eta p :
  p = mkPool (owner_id p) (stake_public_key p) (last_epoch_height p) (last_total_balance p)
             (S_ p) (T_ p) (reward_fee_fraction p) (accounts p) (paused p).
Proof. now destruct p. Qed.

Lemma internal_ping_ok c p p' b :
  internal_ping c p = Ok (p', b) ->
  (b = false /\ p' = p /\ last_epoch_height p = ctx_epoch c) \/
  (b = true /\ last_epoch_height p <> ctx_epoch c /\ ping_effect c p p').
Proof.
  unfold internal_ping. destruct (N.eqb_spec (last_epoch_height p) (ctx_epoch c)) as [E|E].
  - intros H. inv_res. left; auto.
  - intros H. right. inv_res. cbn [last_total_balance set_last_epoch] in *.
    split; [reflexivity|]. split; [assumption|].
    destruct (N.ltb_spec 0 (ctx_locked c + ctx_balance c - ctx_attached c - last_total_balance p))
      as [R|R].
    + set (reward := ctx_locked c + ctx_balance c - ctx_attached c - last_total_balance p) in *.
      unfold fraction_multiply in *. cbn [reward_fee_fraction set_last_epoch] in *. inv_res.
      match goal with H : num_shares_from_staked_amount_rounded_down _ _ = Ok ?x |- _ =>
        apply shares_down_ok in H; destruct H as (HT & Hn & Hb); rename x into n end.
      cbn [T_ S_ set_total_staked set_last_epoch] in HT, Hn.
      exists reward.
      eexists. exists n.
      split; [subst reward; lia|]. split; [reflexivity|].
      split; [assumption|]. split; [right; assumption|]. split; [exact Hn|].
      destruct (N.ltb_spec 0 n) as [Np|Np].
      * inv_res. rewrite ?save_account_eq, ?get_account_eq in *. pool_cbn.
        repeat split; try (intros; lia).
        pool_unfold. f_equal; lia.
      * inv_res. pool_cbn.
        repeat split; try (intros; lia).
        pool_unfold. f_equal; lia.
    + inv_res. exists 0, 0, 0.
      cbn [last_total_balance set_last_epoch] in *.
      rewrite N.mul_0_r.
      assert (X : 0 / denominator (reward_fee_fraction p) = 0)
        by (destruct (denominator (reward_fee_fraction p)); reflexivity).
      assert (Y : S_ p * 0 / (T_ p + (0 - 0)) = 0)
        by (rewrite N.mul_0_r; destruct (T_ p + (0 - 0)); reflexivity).
      rewrite X, Y.
      repeat split; try lia; try (left; reflexivity); try (intros; lia).
      unfold set_last_total. cbn. f_equal; lia.
Qed.

Definition withdraw_effect (c : ctx) (p : pool) (amount : N) (p' : pool) : Prop :=
  let who := ctx_predecessor c in
  let acc := acct_of (accounts p) who in
  0 < amount /\ amount <= unstaked acc /\ unstaked_available_epoch_height acc <= ctx_epoch c /\
  amount <= last_total_balance p /\
  p' = mkPool (owner_id p) (stake_public_key p) (last_epoch_height p)
         (last_total_balance p - amount) (S_ p) (T_ p) (reward_fee_fraction p)
         (save_accounts who (mkAccount (unstaked acc - amount) (stake_shares acc)
                               (unstaked_available_epoch_height acc)) (accounts p))
         (paused p).

Lemma internal_withdraw_ok c p amount p' ps :
  internal_withdraw c p amount = Ok (p', ps) ->
  ps = [PTransfer (ctx_predecessor c) amount] /\ withdraw_effect c p amount p'.
Proof.
  unfold internal_withdraw, withdraw_effect. intros H. inv_res.
  rewrite save_account_eq, get_account_eq in *.
  cbn [T_ S_ set_accounts last_total_balance] in *.
  split; [reflexivity|]. repeat split; try lia.
Qed.

Definition deposit_effect (c : ctx) (p p' : pool) : Prop :=
  let who := ctx_predecessor c in
  let acc := acct_of (accounts p) who in
  last_total_balance p + ctx_attached c < U128_BOUND /\
  p' = mkPool (owner_id p) (stake_public_key p) (last_epoch_height p)
         (last_total_balance p + ctx_attached c) (S_ p) (T_ p) (reward_fee_fraction p)
         (save_accounts who (mkAccount (unstaked acc + ctx_attached c) (stake_shares acc)
                               (unstaked_available_epoch_height acc)) (accounts p))
         (paused p).

Lemma internal_deposit_ok c p p' a :
  internal_deposit c p = Ok (p', a) -> a = ctx_attached c /\ deposit_effect c p p'.
Proof.
  unfold internal_deposit, deposit_effect. intros H. inv_res.
  rewrite save_account_eq, get_account_eq in *.
  cbn [T_ S_ set_accounts last_total_balance] in *.
  repeat split; lia.
Qed.

Definition stake_effect (c : ctx) (p : pool) (amount n : N) (p' : pool) : Prop :=
  let who := ctx_predecessor c in
  let acc := acct_of (accounts p) who in
  let charge := T_ p * n / S_ p in
  T_ p <> 0 /\ S_ p <> 0 /\ 0 < amount /\ n = S_ p * amount / T_ p /\ 0 < n /\ 0 < charge /\
  charge <= unstaked acc /\
  T_ p + cdiv (T_ p * n) (S_ p) < U128_BOUND /\ S_ p + n < U128_BOUND /\
  p' = mkPool (owner_id p) (stake_public_key p) (last_epoch_height p) (last_total_balance p)
         (S_ p + n) (T_ p + cdiv (T_ p * n) (S_ p)) (reward_fee_fraction p)
         (save_accounts who (mkAccount (unstaked acc - charge) (stake_shares acc + n)
                               (unstaked_available_epoch_height acc)) (accounts p))
         (paused p).

Lemma internal_stake_ok c p amount p' :
  internal_stake c p amount = Ok p' -> exists n, stake_effect c p amount n p'.
Proof.
  unfold internal_stake, stake_effect. intros H. inv_res.
  repeat match goal with
  | H : num_shares_from_staked_amount_rounded_down _ _ = Ok _ |- _ =>
      apply shares_down_ok in H; destruct H as (? & ? & ?)
  | H : staked_amount_from_num_shares_rounded_down _ _ = Ok _ |- _ =>
      apply amount_down_ok in H; destruct H as (? & ? & ?)
  | H : staked_amount_from_num_shares_rounded_up _ _ = Ok _ |- _ =>
      apply amount_up_ok in H; destruct H as (? & ? & ?)
  end.
  rewrite save_account_eq, get_account_eq in *.
  cbn [T_ S_ set_accounts set_total_staked last_total_balance] in *. subst.
  eexists. repeat split; try reflexivity; try lia.
Qed.

Definition unstake_effect (c : ctx) (p : pool) (amount n : N) (p' : pool) : Prop :=
  let who := ctx_predecessor c in
  let acc := acct_of (accounts p) who in
  T_ p <> 0 /\ S_ p <> 0 /\ 0 < amount /\ n = cdiv (S_ p * amount) (T_ p) /\ 0 < n /\
  0 < cdiv (T_ p * n) (S_ p) /\ n <= stake_shares acc /\ n <= S_ p /\
  T_ p * n / S_ p <= T_ p /\
  p' = mkPool (owner_id p) (stake_public_key p) (last_epoch_height p) (last_total_balance p)
         (S_ p - n) (T_ p - T_ p * n / S_ p) (reward_fee_fraction p)
         (save_accounts who (mkAccount (unstaked acc + cdiv (T_ p * n) (S_ p)) (stake_shares acc - n)
                               (ctx_epoch c + NUM_EPOCHS_TO_UNLOCK)) (accounts p))
         (paused p).

Lemma inner_unstake_ok c p amount p' :
  inner_unstake c p amount = Ok p' -> exists n, unstake_effect c p amount n p'.
Proof.
  unfold inner_unstake, unstake_effect. intros H. inv_res.
  repeat match goal with
  | H : num_shares_from_staked_amount_rounded_up _ _ = Ok _ |- _ =>
      apply shares_up_ok in H; destruct H as (? & ? & ?)
  | H : staked_amount_from_num_shares_rounded_down _ _ = Ok _ |- _ =>
      apply amount_down_ok in H; destruct H as (? & ? & ?)
  | H : staked_amount_from_num_shares_rounded_up _ _ = Ok _ |- _ =>
      apply amount_up_ok in H; destruct H as (? & ? & ?)
  end.
  rewrite save_account_eq, get_account_eq in *.
  cbn [T_ S_ set_accounts set_total_staked last_total_balance] in *. subst.
  eexists. repeat split; try reflexivity; try lia.
Qed.

(** * Shape of an accepted call: rewards first, then the method's own effect. *)

(** What a method does after [internal_ping] turned the state into [p] and answered [need]. *)
Definition body_effect (c : ctx) (need : bool) (p : pool) (m : call) (p' : pool)
    (ps : list promise) : Prop :=
  match m with
  | Ping => p' = p /\ ps = restake_if need p'
  | Deposit => deposit_effect c p p' /\ ps = restake_if need p'
  | DepositAndStake =>
      exists p2 n, deposit_effect c p p2 /\ stake_effect c p2 (ctx_attached c) n p' /\
                   ps = internal_restake p'
  | WithdrawAll =>
      withdraw_effect c p (unstaked (acct_of (accounts p) (ctx_predecessor c))) p' /\
      ps = PTransfer (ctx_predecessor c) (unstaked (acct_of (accounts p) (ctx_predecessor c)))
             :: restake_if need p'
  | Withdraw a =>
      withdraw_effect c p a p' /\ ps = PTransfer (ctx_predecessor c) a :: restake_if need p'
  | StakeAll =>
      exists n, stake_effect c p (unstaked (acct_of (accounts p) (ctx_predecessor c))) n p' /\
                ps = internal_restake p'
  | Stake a => exists n, stake_effect c p a n p' /\ ps = internal_restake p'
  | UnstakeAll =>
      exists n, unstake_effect c p
                  (T_ p * stake_shares (acct_of (accounts p) (ctx_predecessor c)) / S_ p) n p' /\
                ps = internal_restake p'
  | Unstake a => exists n, unstake_effect c p a n p' /\ ps = internal_restake p'
  | OnStakeAction | Vote _ _ => False
  | UpdateStakingKey k =>
      ctx_predecessor c = owner_id p /\ p' = set_key k p /\ ps = internal_restake p'
  | UpdateRewardFeeFraction f =>
      ctx_predecessor c = owner_id p /\ denominator f <> 0 /\ numerator f <= denominator f /\
      p' = set_fraction f p /\ ps = restake_if need p'
  | PauseStaking =>
      ctx_predecessor c = owner_id p /\ paused p = false /\ p' = set_paused true p /\
      ps = [PStake 0 (stake_public_key p') false]
  | ResumeStaking =>
      ctx_predecessor c = owner_id p /\ paused p = true /\ p' = set_paused false p /\
      ps = internal_restake p'
  end.

(** The two methods that do not distribute rewards. *)
Definition plain_effect (c : ctx) (p : pool) (m : call) (ps : list promise) : Prop :=
  match m with
  | OnStakeAction =>
      ctx_predecessor c = ctx_current c /\
      exists r, ctx_results c = [r] /\
        ps = if negb r && (0 <? ctx_locked c) then [PStake 0 (stake_public_key p) false] else []
  | Vote a v => ctx_predecessor c = owner_id p /\ is_valid_account_id a = true /\ ps = [PVote a v]
  | _ => False
  end.

Lemma ping_keeps c p p' b :
  internal_ping c p = Ok (p', b) ->
  owner_id p' = owner_id p /\ stake_public_key p' = stake_public_key p /\ paused p' = paused p /\
  reward_fee_fraction p' = reward_fee_fraction p /\ last_epoch_height p' = ctx_epoch c.
Proof.
  intros H. apply internal_ping_ok in H.
  destruct H as [(-> & -> & E)|(-> & E & (r & f & n & _ & _ & _ & _ & _ & _ & _ & _ & ->))];
    cbn; repeat split; auto.
Qed.

Lemma exec_ok c p m p' ps :
  exec c p m = Ok (p', ps) ->
  args_fit m = true /\ (payable m = true \/ ctx_attached c = 0) /\
  ((is_plain m = true /\ p' = p /\ plain_effect c p m ps) \/
   (is_plain m = false /\
    exists p1 need, internal_ping c p = Ok (p1, need) /\ body_effect c need p1 m p' ps)).
Proof.
  unfold exec. intros H. inv_res. split; [assumption|]. split; [lia|].
  destruct m; cbn [is_plain].
  all: try (right; split; [reflexivity|]).
  all: try (unfold ping in H); try (unfold deposit in H); try (unfold deposit_and_stake in H);
       try (unfold withdraw_all in H); try (unfold withdraw in H); try (unfold stake_all in H);
       try (unfold stake in H); try (unfold unstake_all in H); try (unfold unstake in H);
       try (unfold update_staking_key in H); try (unfold update_reward_fee_fraction in H);
       try (unfold pause_staking in H); try (unfold resume_staking in H);
       try (unfold assert_owner in H); try (unfold fraction_assert_valid in H).
  - (* ping *) inv_res. destruct x1 as [p1 need]. inv_res. exists p', need. split; auto.
    cbn. auto.
  - (* deposit *) inv_res. destruct x1 as [p1 need]. inv_res. destruct x1 as [p2 a]. inv_res.
    match goal with H : internal_deposit _ _ = _ |- _ => apply internal_deposit_ok in H;
      destruct H end.
    exists p1, need. cbn. auto.
  - inv_res. destruct x1 as [p1 need]. inv_res. destruct x1 as [p2 a]. inv_res.
    match goal with H : internal_deposit _ _ = _ |- _ => apply internal_deposit_ok in H;
      destruct H end. subst.
    match goal with H : internal_stake _ _ _ = _ |- _ => apply internal_stake_ok in H;
      destruct H as [n ?] end.
    exists p1, need. cbn. split; auto. exists p2, n. auto.
  - inv_res. destruct x1 as [p1 need]. inv_res. destruct x1 as [p2 a]. inv_res.
    match goal with H : internal_withdraw _ _ _ = _ |- _ => apply internal_withdraw_ok in H;
      destruct H end. subst.
    exists p1, need. split; auto. cbn. rewrite get_account_eq in *. auto.
  - inv_res. destruct x1 as [p1 need]. inv_res. destruct x1 as [p2 a]. inv_res.
    match goal with H : internal_withdraw _ _ _ = _ |- _ => apply internal_withdraw_ok in H;
      destruct H end. subst.
    exists p1, need. split; auto. cbn. auto.
  - inv_res. destruct x1 as [p1 need]. inv_res.
    match goal with H : internal_stake _ _ _ = _ |- _ => apply internal_stake_ok in H;
      destruct H as [n ?] end.
    exists p1, need. split; auto. cbn. exists n. rewrite get_account_eq in *. auto.
  - inv_res. destruct x1 as [p1 need]. inv_res.
    match goal with H : internal_stake _ _ _ = _ |- _ => apply internal_stake_ok in H;
      destruct H as [n ?] end.
    exists p1, need. split; auto. cbn. exists n. auto.
  - inv_res. destruct x1 as [p1 need]. inv_res.
    match goal with H : staked_amount_from_num_shares_rounded_down _ _ = _ |- _ =>
      apply amount_down_ok in H; destruct H as (_ & H & _); subst end.
    match goal with H : inner_unstake _ _ _ = _ |- _ => apply inner_unstake_ok in H;
      destruct H as [n ?] end.
    exists p1, need. split; auto. cbn. exists n. rewrite get_account_eq in *. auto.
  - inv_res. destruct x1 as [p1 need]. inv_res.
    match goal with H : inner_unstake _ _ _ = _ |- _ => apply inner_unstake_ok in H;
      destruct H as [n ?] end.
    exists p1, need. split; auto. cbn. exists n. auto.
  - (* on_stake_action *) unfold on_stake_action in H. inv_res.
    destruct (ctx_results c) as [|r [|]] eqn:ER; try discriminate. inv_res.
    left. split; [reflexivity|]. split; [reflexivity|]. cbn.
    match goal with H : (_ =? _)%string = true |- _ => apply String.eqb_eq in H end.
    split; [auto|]. exists r. rewrite ER. auto.
  - inv_res. match goal with H : (_ =? _)%string = true |- _ => apply String.eqb_eq in H end.
    destruct x2 as [p1 need]. inv_res.
    match goal with H : internal_ping _ _ = _ |- _ => pose proof (ping_keeps _ _ _ _ H) end.
    exists p1, need. split; auto. cbn. intuition congruence.
  - inv_res. match goal with H : (_ =? _)%string = true |- _ => apply String.eqb_eq in H end.
    destruct x3 as [p1 need]. inv_res.
    match goal with H : internal_ping _ _ = _ |- _ => pose proof (ping_keeps _ _ _ _ H) end.
    exists p1, need. split; auto. cbn. repeat split; try lia; try auto. intuition congruence.
  - unfold vote, assert_owner in H. inv_res.
    match goal with H : (_ =? _)%string = true |- _ => apply String.eqb_eq in H end.
    left. cbn. auto.
  - inv_res. match goal with H : (_ =? _)%string = true |- _ => apply String.eqb_eq in H end.
    destruct x3 as [p1 need]. inv_res.
    match goal with H : internal_ping _ _ = _ |- _ => pose proof (ping_keeps _ _ _ _ H) end.
    exists p1, need. split; auto. cbn. rewrite negb_true_iff in *. intuition congruence.
  - inv_res. match goal with H : (_ =? _)%string = true |- _ => apply String.eqb_eq in H end.
    destruct x3 as [p1 need]. inv_res.
    match goal with H : internal_ping _ _ = _ |- _ => pose proof (ping_keeps _ _ _ _ H) end.
    exists p1, need. split; auto. cbn. intuition congruence.
Qed.

(** * Invariant of the contract state, relative to the shares [S0] minted at initialisation *)

Record pinv (S0 : N) (p : pool) : Prop := {
  pi_nodup : NoDup (mkeys (accounts p));
  pi_nz : entries_nonzero (accounts p);
  pi_shares : S_ p = S0 + all_shares p;
  pi_price : S_ p <= T_ p;
  pi_den : denominator (reward_fee_fraction p) <> 0;
  pi_num : numerator (reward_fee_fraction p) <= denominator (reward_fee_fraction p);
  pi_zero : S0 = 0 -> S_ p = 0;
  pi_u32 : denominator (reward_fee_fraction p) < U32_BOUND;
  pi_T : T_ p < U128_BOUND;
  pi_last : last_total_balance p < U128_BOUND
}.

(** The part of the tracked balance that is not owed to anybody. *)
Definition covered (k : N) (p : pool) : Prop :=
  T_ p + all_unstaked p + STAKE_SHARE_PRICE_GUARANTEE_FUND <= last_total_balance p + k.

Notation acct p u := (acct_of (accounts p) u).

Definition value (p : pool) (u : account_id) : N :=
  unstaked (acct p u) + T_ p * stake_shares (acct p u) / S_ p.

(** ** ping *)
Lemma ping_inv S0 c p p' :
  pinv S0 p -> ping_effect c p p' ->
  pinv S0 p' /\
  (exists r, T_ p' = T_ p + r /\ last_total_balance p' = last_total_balance p + r /\
             ctx_locked c + ctx_balance c = last_total_balance p' + ctx_attached c) /\
  all_unstaked p' = all_unstaked p /\
  price_le p p' /\ S_ p <= S_ p' /\
  (forall u, unstaked (acct p' u) = unstaked (acct p u) /\
             unstaked_available_epoch_height (acct p' u)
               = unstaked_available_epoch_height (acct p u) /\
             stake_shares (acct p u) <= stake_shares (acct p' u) /\
             (u <> owner_id p -> acct p' u = acct p u)).
Proof.
  intros I (r & f & n & Hb & Hf & Hfr & HT & Hn & HTb & HSb & Hl & ->).
  destruct I as [ND NZ SH PR DE NU ZE D32 TB LB]. pool_cbn.
  unfold all_shares, all_unstaked, price_le in *. pool_cbn.
  fold (@msum account_id account stake_shares) in *.
  set (acc := acct_of (accounts p) (owner_id p)) in *.
  assert (HnS : n <= f).
  { subst n. destruct (N.eq_dec r 0) as [->|R0].
    - assert (f = 0) by lia. rewrite H, N.mul_0_r.
      destruct (T_ p + (0 - 0)); cbn; lia.
    - destruct HT as [HT|HT]; [lia|]. apply div_le; auto. nia. }
  assert (Hn0 : T_ p + (r - f) = 0 -> n = 0).
  { intros Z. destruct HT as [->|HT]; lia. }
  assert (GE : S_ p + n <= T_ p + r) by lia.
  assert (PL : T_ p * (S_ p + n) <= (T_ p + r) * S_ p).
  { destruct (N.eq_dec (T_ p + (r - f)) 0) as [Z|Z].
    - assert (n = 0) by auto. nia.
    - pose proof (price_reward (T_ p) (S_ p) (r - f) f Z) as X.
      rewrite <- Hn in X. nia. }
  split; [|split; [|split; [|split; [|split]]]].
  - constructor; pool_cbn; auto.
    + destruct (0 <? n); auto. now apply NoDup_save.
    + destruct (0 <? n); auto. now apply entries_nonzero_save.
    + unfold all_shares. pool_cbn. destruct (N.ltb_spec 0 n) as [L|L].
      * pose proof (msum_save_shares (owner_id p)
          (mkAccount (unstaked acc) (stake_shares acc + n) (unstaked_available_epoch_height acc))
          (accounts p)) as X. fold acc in X. pool_cbn. unfold msum, sumN in *. lia.
      * lia.
    + intros Z. rewrite (ZE Z) in *. rewrite Hn. cbn. destruct (T_ p + (r - f)); reflexivity.
  - exists r. repeat split; lia.
  - destruct (N.ltb_spec 0 n) as [L|L]; [|reflexivity].
    pose proof (msum_save_unstaked (owner_id p)
          (mkAccount (unstaked acc) (stake_shares acc + n) (unstaked_available_epoch_height acc))
          (accounts p)) as X. fold acc in X. pool_cbn. unfold msum, sumN in *. lia.
  - exact PL.
  - lia.
  - intros u. destruct (N.ltb_spec 0 n) as [L|L]; [|repeat split; auto; lia].
    rewrite acct_of_save by auto.
    destruct (keqb_spec u (owner_id p)) as [->|NE].
    + unfold nonzero. pool_cbn. fold acc.
      destruct (N.ltb_spec 0 (stake_shares acc + n)); [|lia].
      rewrite orb_true_r. pool_cbn. repeat split; auto; try lia. congruence.
    + repeat split; auto; lia.
Qed.

(** ** deposit *)
Lemma deposit_inv S0 c p p' :
  pinv S0 p -> deposit_effect c p p' ->
  pinv S0 p' /\ T_ p' = T_ p /\ S_ p' = S_ p /\
  last_total_balance p' = last_total_balance p + ctx_attached c /\
  all_unstaked p' = all_unstaked p + ctx_attached c /\
  (forall u, stake_shares (acct p' u) = stake_shares (acct p u) /\
     unstaked (acct p' u) = unstaked (acct p u)
       + (if keqb u (ctx_predecessor c) then ctx_attached c else 0) /\
     (u <> ctx_predecessor c -> acct p' u = acct p u)).
Proof.
  intros I (HL & ->). destruct I as [ND NZ SH PR DE NU ZE D32 TB LB].
  unfold all_shares, all_unstaked in *. pool_cbn.
  set (who := ctx_predecessor c) in *. set (acc := acct_of (accounts p) who) in *.
  pose proof (msum_save_shares who (mkAccount (unstaked acc + ctx_attached c) (stake_shares acc)
    (unstaked_available_epoch_height acc)) (accounts p)) as X1.
  pose proof (msum_save_unstaked who (mkAccount (unstaked acc + ctx_attached c) (stake_shares acc)
    (unstaked_available_epoch_height acc)) (accounts p)) as X2.
  fold acc in X1, X2. pool_cbn.
  split; [|split; [|split; [|split; [|split]]]]; try lia.
  - constructor; pool_cbn; auto.
    + now apply NoDup_save.
    + now apply entries_nonzero_save.
    + unfold all_shares. pool_cbn. unfold msum, sumN in *. lia.
  - unfold msum, sumN in *. lia.
  - intros u. rewrite acct_of_save_shares, acct_of_save_unstaked by auto. pool_cbn.
    destruct (keqb_spec u who) as [->|NE].
    + subst acc. repeat split; auto. congruence.
    + repeat split; auto; try lia. intros _. rewrite acct_of_save by auto. now rewrite keqb_neq.
Qed.

(** ** withdraw *)
Lemma withdraw_inv S0 c p a p' :
  pinv S0 p -> withdraw_effect c p a p' ->
  pinv S0 p' /\ T_ p' = T_ p /\ S_ p' = S_ p /\
  last_total_balance p' + a = last_total_balance p /\
  all_unstaked p' + a = all_unstaked p /\
  (forall u, stake_shares (acct p' u) = stake_shares (acct p u) /\
     unstaked (acct p' u) + (if keqb u (ctx_predecessor c) then a else 0)
       = unstaked (acct p u) /\
     (u <> ctx_predecessor c -> acct p' u = acct p u)).
Proof.
  intros I (Ha & HU & HE & HL & ->). destruct I as [ND NZ SH PR DE NU ZE D32 TB LB].
  unfold all_shares, all_unstaked in *. pool_cbn.
  set (who := ctx_predecessor c) in *. set (acc := acct_of (accounts p) who) in *.
  pose proof (msum_save_shares who (mkAccount (unstaked acc - a) (stake_shares acc)
    (unstaked_available_epoch_height acc)) (accounts p)) as X1.
  pose proof (msum_save_unstaked who (mkAccount (unstaked acc - a) (stake_shares acc)
    (unstaked_available_epoch_height acc)) (accounts p)) as X2.
  fold acc in X1, X2. pool_cbn.
  split; [|split; [|split; [|split; [|split]]]]; try lia.
  - constructor; pool_cbn; auto; try lia.
    + now apply NoDup_save.
    + now apply entries_nonzero_save.
    + unfold all_shares. pool_cbn. unfold msum, sumN in *. lia.
  - unfold msum, sumN in *. lia.
  - intros u. rewrite acct_of_save_shares, acct_of_save_unstaked by auto. pool_cbn.
    destruct (keqb_spec u who) as [->|NE].
    + subst acc. repeat split; auto; try lia. congruence.
    + repeat split; auto; try lia. intros _. rewrite acct_of_save by auto. now rewrite keqb_neq.
Qed.

(** ** stake *)
Lemma stake_inv S0 c p a n p' :
  pinv S0 p -> stake_effect c p a n p' ->
  let charge := T_ p * n / S_ p in
  pinv S0 p' /\ price_le p p' /\ S_ p' = S_ p + n /\
  last_total_balance p' = last_total_balance p /\
  T_ p' + all_unstaked p' <= T_ p + all_unstaked p + 1 /\
  0 < charge /\ charge <= a /\
  (forall u, stake_shares (acct p' u) = stake_shares (acct p u)
               + (if keqb u (ctx_predecessor c) then n else 0) /\
     unstaked (acct p' u) + (if keqb u (ctx_predecessor c) then charge else 0)
       = unstaked (acct p u) /\
     unstaked_available_epoch_height (acct p' u) = unstaked_available_epoch_height (acct p u) /\
     (u <> ctx_predecessor c -> acct p' u = acct p u)).
Proof.
  intros I (HT & HS & Ha & Hn & Hn0 & HC & HU & HTB & HSB & ->) charge.
  destruct I as [ND NZ SH PR DE NU ZE D32 TB LB].
  unfold all_shares, all_unstaked, price_le in *. pool_cbn. fold charge in HC, HU |- *.
  set (who := ctx_predecessor c) in *. set (acc := acct_of (accounts p) who) in *.
  pose proof (msum_save_shares who (mkAccount (unstaked acc - charge) (stake_shares acc + n)
    (unstaked_available_epoch_height acc)) (accounts p)) as X1.
  pose proof (msum_save_unstaked who (mkAccount (unstaked acc - charge) (stake_shares acc + n)
    (unstaked_available_epoch_height acc)) (accounts p)) as X2.
  fold acc in X1, X2. pool_cbn.
  pose proof (cdiv_le_div1 (T_ p * n) (S_ p) HS) as Hup. fold charge in Hup.
  repeat match goal with |- _ /\ _ => split end; auto; try lia.
  - constructor; pool_cbn; auto; try lia.
    + now apply NoDup_save.
    + now apply entries_nonzero_save.
    + unfold all_shares. pool_cbn. unfold msum, sumN in *. lia.
    + now apply ge1_stake.
  - now apply price_stake.
  - unfold msum, sumN in *. lia.
  - subst charge n. now apply charge_le.
  - intros u. rewrite acct_of_save_shares, acct_of_save_unstaked by auto. pool_cbn.
    rewrite acct_of_save by auto.
    destruct (keqb_spec u who) as [->|NE].
    + unfold nonzero. pool_cbn. destruct (N.ltb_spec 0 (stake_shares acc + n)); [|lia].
      rewrite orb_true_r. pool_cbn.
      subst acc. repeat split; auto; try lia. congruence.
    + repeat split; auto; try lia.
Qed.

(** ** unstake *)
Lemma unstake_inv S0 c p a n p' :
  pinv S0 p -> unstake_effect c p a n p' ->
  let receive := cdiv (T_ p * n) (S_ p) in
  pinv S0 p' /\ price_le p p' /\ S_ p' + n = S_ p /\ S0 <= S_ p' /\
  last_total_balance p' = last_total_balance p /\
  T_ p' + all_unstaked p' <= T_ p + all_unstaked p + 1 /\
  a <= receive /\ 0 < receive /\
  (forall u, stake_shares (acct p' u) + (if keqb u (ctx_predecessor c) then n else 0)
               = stake_shares (acct p u) /\
     unstaked (acct p' u) = unstaked (acct p u)
       + (if keqb u (ctx_predecessor c) then receive else 0) /\
     unstaked_available_epoch_height (acct p' u) =
       (if keqb u (ctx_predecessor c) then ctx_epoch c + NUM_EPOCHS_TO_UNLOCK
        else unstaked_available_epoch_height (acct p u)) /\
     (u <> ctx_predecessor c -> acct p' u = acct p u)).
Proof.
  intros I (HT & HS & Ha & Hn & Hn0 & HC & HU & HnS & HF & ->) receive.
  destruct I as [ND NZ SH PR DE NU ZE D32 TB LB].
  unfold all_shares, all_unstaked, price_le in *. pool_cbn. fold receive in HC |- *.
  set (who := ctx_predecessor c) in *. set (acc := acct_of (accounts p) who) in *.
  set (e := ctx_epoch c + NUM_EPOCHS_TO_UNLOCK) in *.
  pose proof (msum_save_shares who (mkAccount (unstaked acc + receive) (stake_shares acc - n) e)
    (accounts p)) as X1.
  pose proof (msum_save_unstaked who (mkAccount (unstaked acc + receive) (stake_shares acc - n) e)
    (accounts p)) as X2.
  fold acc in X1, X2. pool_cbn.
  pose proof (cdiv_le_div1 (T_ p * n) (S_ p) HS) as Hup. fold receive in Hup.
  repeat match goal with |- _ /\ _ => split end; auto; try lia.
  - constructor; pool_cbn; auto; try lia.
    + now apply NoDup_save.
    + now apply entries_nonzero_save.
    + unfold all_shares. pool_cbn. unfold msum, sumN in *. lia.
    + now apply ge1_unstake.
  - now apply price_unstake.
  - unfold msum, sumN in *. lia.
  - unfold msum, sumN in *. lia.
  - subst receive. apply N.mul_le_mono_pos_l with (p := S_ p); [lia|].
    pose proof (cdiv_lo (T_ p * n) (S_ p) HS). pose proof (cdiv_lo (S_ p * a) (T_ p) HT).
    rewrite <- Hn in H0. lia.
  - intros u. rewrite acct_of_save_shares, acct_of_save_unstaked by auto. pool_cbn.
    rewrite acct_of_save by auto.
    destruct (keqb_spec u who) as [->|NE].
    + unfold nonzero. pool_cbn. destruct (N.ltb_spec 0 (unstaked acc + receive)); [|lia].
      cbn [orb]. pool_cbn.
      subst acc. repeat split; auto; try lia. congruence.
    + repeat split; auto; try lia.
Qed.

(** * Values never drop *)

Lemma pinv_S_cases S0 p : pinv S0 p -> (S0 = 0 /\ S_ p = 0) \/ (S0 <> 0 /\ S_ p <> 0).
Proof.
  intros I. destruct (N.eq_dec S0 0) as [Z|Z].
  - left. split; auto. now apply (pi_zero _ _ I).
  - right. split; auto. rewrite (pi_shares _ _ I). lia.
Qed.

Lemma div_zero_r a : a / 0 = 0.
Proof. now destruct a. Qed.

Lemma staked_value_mono S0 p p' sh sh' :
  pinv S0 p -> pinv S0 p' -> price_le p p' -> sh <= sh' ->
  T_ p * sh / S_ p <= T_ p' * sh' / S_ p'.
Proof.
  intros I I' P H. destruct (pinv_S_cases _ _ I) as [[Z E]|[Z E]].
  - rewrite E, div_zero_r. lia.
  - destruct (pinv_S_cases _ _ I') as [[Z' E']|[Z' E']]; [congruence|].
    now apply value_mono.
Qed.

Lemma price_le_refl p : price_le p p.
Proof. unfold price_le. lia. Qed.

Lemma price_le_trans S0 p1 p2 p3 :
  pinv S0 p1 -> pinv S0 p2 -> pinv S0 p3 -> price_le p1 p2 -> price_le p2 p3 -> price_le p1 p3.
Proof.
  intros I1 I2 I3 A B. unfold price_le in *.
  destruct (pinv_S_cases _ _ I2) as [[Z E]|[Z E]].
  - pose proof (pi_zero _ _ I1 Z). pose proof (pi_zero _ _ I3 Z). rewrite H, H0. lia.
  - eapply price_trans; eauto.
Qed.

Lemma ping_value S0 c p p' u :
  pinv S0 p -> ping_effect c p p' -> value p u <= value p' u.
Proof.
  intros I E. destruct (ping_inv _ _ _ _ I E) as (I' & _ & _ & P & _ & F).
  destruct (F u) as (HU & _ & HS & _). unfold value. rewrite HU.
  apply N.add_le_mono_l. eapply staked_value_mono; eauto.
Qed.

Lemma deposit_value S0 c p p' u :
  pinv S0 p -> deposit_effect c p p' ->
  value p' u = value p u + (if keqb u (ctx_predecessor c) then ctx_attached c else 0).
Proof.
  intros I E. destruct (deposit_inv _ _ _ _ I E) as (I' & HT & HS & _ & _ & F).
  destruct (F u) as (Hsh & HU & _). unfold value. rewrite HT, HS, Hsh, HU. lia.
Qed.

Lemma withdraw_value S0 c p a p' u :
  pinv S0 p -> withdraw_effect c p a p' ->
  value p' u + (if keqb u (ctx_predecessor c) then a else 0) = value p u.
Proof.
  intros I E. destruct (withdraw_inv _ _ _ _ _ I E) as (I' & HT & HS & _ & _ & F).
  destruct (F u) as (Hsh & HU & _). unfold value. rewrite HT, HS, Hsh, <- HU. lia.
Qed.

Lemma stake_value_ge S0 c p a n p' u :
  pinv S0 p -> stake_effect c p a n p' -> value p u <= value p' u.
Proof.
  intros I E. pose proof (stake_inv _ _ _ _ _ _ I E) as (I' & P & HS & _ & _ & _ & _ & F).
  destruct (F u) as (Hsh & HU & _ & Hne). unfold value.
  destruct E as (HT & HS0 & _ & _ & _ & _ & _ & _ & _ & Ep).
  destruct (keqb_spec u (ctx_predecessor c)) as [->|NE].
  - rewrite Hsh, <- HU.
    assert (ET : T_ p' = T_ p + cdiv (T_ p * n) (S_ p)) by (subst p'; reflexivity).
    assert (ES : S_ p' = S_ p + n) by (subst p'; reflexivity).
    rewrite ET, ES. pose proof (stake_value (T_ p) (S_ p) n (stake_shares (acct p (ctx_predecessor c))) HS0).
    lia.
  - rewrite (Hne NE). apply N.add_le_mono_l. eapply staked_value_mono; eauto. lia.
Qed.

Lemma unstake_value_ge S0 c p a n p' u :
  pinv S0 p -> unstake_effect c p a n p' -> value p u <= value p' u.
Proof.
  intros I E. pose proof (unstake_inv _ _ _ _ _ _ I E) as (I' & P & HS & HS0 & _ & _ & _ & _ & F).
  destruct (F u) as (Hsh & HU & _ & Hne). unfold value.
  destruct E as (HT & HSn & _ & _ & Hn0 & _ & HnA & HnS & _ & Ep).
  destruct (keqb_spec u (ctx_predecessor c)) as [->|NE].
  - assert (ET : T_ p' = T_ p - T_ p * n / S_ p) by (subst p'; reflexivity).
    assert (ES : S_ p' = S_ p - n) by (subst p'; reflexivity).
    assert (EA : stake_shares (acct p' (ctx_predecessor c)) =
                 stake_shares (acct p (ctx_predecessor c)) - n) by lia.
    rewrite HU, EA, ET, ES.
    destruct (pinv_S_cases _ _ I') as [[Z' E']|[Z' E']].
    + pose proof (pi_zero _ _ I Z'). congruence.
    + pose proof (unstake_value (T_ p) (S_ p) n (stake_shares (acct p (ctx_predecessor c)))
        HSn HnA HnS ltac:(lia)). lia.
  - rewrite (Hne NE). apply N.add_le_mono_l. eapply staked_value_mono; eauto. lia.
Qed.

(** * Accepted calls *)

Lemma outgoing_restake p : outgoing (internal_restake p) = 0.
Proof. unfold internal_restake. now destruct (paused p). Qed.
Lemma outgoing_transfer r a l : outgoing (PTransfer r a :: l) = a + outgoing l.
Proof. reflexivity. Qed.
Lemma outgoing_stake a k b l : outgoing (PStake a k b :: l) = outgoing l.
Proof. reflexivity. Qed.
Lemma sent_transfer u r a l :
  sent_to u (PTransfer r a :: l) = if keqb u r then a + sent_to u l else sent_to u l.
Proof. rewrite keqb_sym. reflexivity. Qed.
Lemma sent_stake u a k b l : sent_to u (PStake a k b :: l) = sent_to u l.
Proof. reflexivity. Qed.
Lemma outgoing_restake_if b p : outgoing (restake_if b p) = 0.
Proof. destruct b; [apply outgoing_restake | reflexivity]. Qed.
Lemma sent_restake u p : sent_to u (internal_restake p) = 0.
Proof. unfold internal_restake. now destruct (paused p). Qed.
Lemma sent_restake_if u b p : sent_to u (restake_if b p) = 0.
Proof. destruct b; [apply sent_restake | reflexivity]. Qed.

(** The relation between the states before and after an accepted call or part of a call: [k] stake
    or unstake operations, reward [r], [paidin] tokens deposited and [out] paid to the caller. *)
Record call_rel (S0 : N) (c : ctx) (p : pool) (k r paidin out : N) (p' : pool) : Prop := {
  cr_inv : pinv S0 p';
  cr_price : price_le p p';
  cr_cov : forall k0, covered k0 p -> covered (k0 + k) p';
  cr_last : last_total_balance p' + out = last_total_balance p + r + paidin;
  cr_value : forall u, value p u + (if keqb u (ctx_predecessor c) then paidin else 0)
                       <= value p' u + (if keqb u (ctx_predecessor c) then out else 0);
  cr_others : forall u, u <> ctx_predecessor c ->
     unstaked (acct p' u) = unstaked (acct p u) /\
     unstaked_available_epoch_height (acct p' u) = unstaked_available_epoch_height (acct p u) /\
     stake_shares (acct p u) <= stake_shares (acct p' u) /\
     (u <> owner_id p -> acct p' u = acct p u);
  cr_owner : owner_id p' = owner_id p
}.

Lemma value_ext p p' u :
  T_ p' = T_ p -> S_ p' = S_ p -> accounts p' = accounts p -> value p' u = value p u.
Proof. unfold value. now intros -> -> ->. Qed.

Lemma call_rel_trans S0 c p p1 p2 k1 k2 r1 r2 i1 i2 o1 o2 :
  pinv S0 p ->
  call_rel S0 c p k1 r1 i1 o1 p1 -> call_rel S0 c p1 k2 r2 i2 o2 p2 ->
  call_rel S0 c p (k1 + k2) (r1 + r2) (i1 + i2) (o1 + o2) p2.
Proof.
  intros I A B. pose proof (cr_inv _ _ _ _ _ _ _ _ A) as I1.
  pose proof (cr_inv _ _ _ _ _ _ _ _ B) as I2.
  constructor; auto.
  - eapply price_le_trans; [exact I|exact I1|exact I2|apply A|apply B].
  - intros k C. rewrite N.add_assoc.
    apply (cr_cov _ _ _ _ _ _ _ _ B), (cr_cov _ _ _ _ _ _ _ _ A), C.
  - pose proof (cr_last _ _ _ _ _ _ _ _ A). pose proof (cr_last _ _ _ _ _ _ _ _ B). lia.
  - intros u. pose proof (cr_value _ _ _ _ _ _ _ _ A u). pose proof (cr_value _ _ _ _ _ _ _ _ B u).
    destruct (keqb u (ctx_predecessor c)); lia.
  - intros u NE. destruct (cr_others _ _ _ _ _ _ _ _ A u NE) as (a1 & a2 & a3 & a4).
    destruct (cr_others _ _ _ _ _ _ _ _ B u NE) as (b1 & b2 & b3 & b4).
    rewrite (cr_owner _ _ _ _ _ _ _ _ A) in b4.
    repeat split; try congruence; try lia. intros NO. now rewrite b4, a4.
  - rewrite (cr_owner _ _ _ _ _ _ _ _ B). apply A.
Qed.

Lemma ping_rel S0 c p p1 b :
  pinv S0 p -> internal_ping c p = Ok (p1, b) ->
  exists r, call_rel S0 c p 0 r 0 0 p1 /\
    (r = 0 \/ ctx_locked c + ctx_balance c = last_total_balance p + r + ctx_attached c).
Proof.
  intros I H. pose proof (ping_keeps _ _ _ _ H) as (HO & _).
  apply internal_ping_ok in H. destruct H as [(_ & -> & _)|(_ & _ & E)].
  - exists 0. split; [|auto]. constructor; auto; try (apply price_le_refl); try lia.
    + intros k. now rewrite N.add_0_r.
    + intros. repeat split; auto; lia.
  - pose proof (ping_inv _ _ _ _ I E) as (I' & (r & HT & HL & HB) & HU & P & HS & F).
    exists r. split; [|right; lia]. constructor; auto; try lia.
    + unfold covered. intros k. rewrite HU, HT, HL. lia.
    + intros u. pose proof (ping_value _ _ _ _ u I E).
      destruct (keqb u (ctx_predecessor c)); lia.
Qed.

Lemma deposit_rel S0 c p p' :
  pinv S0 p -> deposit_effect c p p' -> call_rel S0 c p 0 0 (ctx_attached c) 0 p'.
Proof.
  intros I E. pose proof (deposit_inv _ _ _ _ I E) as (I' & HT & HS & HL & HU & F).
  constructor; auto; try lia.
  - unfold price_le. rewrite HT, HS. lia.
  - unfold covered. intros k. lia.
  - intros u. rewrite (deposit_value _ _ _ _ u I E). destruct (keqb u (ctx_predecessor c)); lia.
  - intros u NE. destruct (F u) as (_ & _ & G). rewrite (G NE). repeat split; auto; lia.
  - destruct E as [_ ->]. reflexivity.
Qed.

Lemma withdraw_rel S0 c p a p' :
  pinv S0 p -> withdraw_effect c p a p' -> call_rel S0 c p 0 0 0 a p'.
Proof.
  intros I E. pose proof (withdraw_inv _ _ _ _ _ I E) as (I' & HT & HS & HL & HU & F).
  constructor; auto; try lia.
  - unfold price_le. rewrite HT, HS. lia.
  - unfold covered. intros k. lia.
  - intros u. rewrite <- (withdraw_value _ _ _ _ _ u I E).
    destruct (keqb u (ctx_predecessor c)); lia.
  - intros u NE. destruct (F u) as (_ & _ & G). rewrite (G NE). repeat split; auto; lia.
  - destruct E as (_ & _ & _ & _ & ->). reflexivity.
Qed.

Lemma stake_rel S0 c p a n p' :
  pinv S0 p -> stake_effect c p a n p' -> call_rel S0 c p 1 0 0 0 p'.
Proof.
  intros I E. pose proof (stake_inv _ _ _ _ _ _ I E) as (I' & P & HS & HL & HC & _ & _ & F).
  constructor; auto; try lia.
  - unfold covered. intros k. lia.
  - intros u. pose proof (stake_value_ge _ _ _ _ _ _ u I E).
    destruct (keqb u (ctx_predecessor c)); lia.
  - intros u NE. destruct (F u) as (_ & _ & _ & G). rewrite (G NE). repeat split; auto; lia.
  - destruct E as (_ & _ & _ & _ & _ & _ & _ & _ & _ & ->). reflexivity.
Qed.

Lemma unstake_rel S0 c p a n p' :
  pinv S0 p -> unstake_effect c p a n p' -> call_rel S0 c p 1 0 0 0 p'.
Proof.
  intros I E. pose proof (unstake_inv _ _ _ _ _ _ I E) as (I' & P & HS & _ & HL & HC & _ & _ & F).
  constructor; auto; try lia.
  - unfold covered. intros k. lia.
  - intros u. pose proof (unstake_value_ge _ _ _ _ _ _ u I E).
    destruct (keqb u (ctx_predecessor c)); lia.
  - intros u NE. destruct (F u) as (_ & _ & _ & G). rewrite (G NE). repeat split; auto; lia.
  - destruct E as (_ & _ & _ & _ & _ & _ & _ & _ & _ & ->). reflexivity.
Qed.

(** A change of the key, the fee or the pause flag only. *)
Lemma setting_rel S0 c p p' :
  pinv S0 p -> pinv S0 p' -> T_ p' = T_ p -> S_ p' = S_ p -> accounts p' = accounts p ->
  last_total_balance p' = last_total_balance p -> owner_id p' = owner_id p ->
  call_rel S0 c p 0 0 0 0 p'.
Proof.
  intros I I' HT HS HA HL HO. constructor; auto; try lia.
  - unfold price_le. rewrite HT, HS. lia.
  - unfold covered, all_unstaked. rewrite HT, HA, HL. intros; lia.
  - intros u. rewrite (value_ext p p' u) by auto. lia.
  - intros u NE. rewrite HA. repeat split; auto; lia.
Qed.

Ltac case_ifs :=
  repeat match goal with |- context [if ?b then _ else _] => destruct b eqn:? end;
  try reflexivity.

Definition stake_count (m : call) : N := if is_stake_call m then 1 else 0.

Lemma exec_rel S0 c p m p' ps :
  pinv S0 p -> exec c p m = Ok (p', ps) ->
  exists r, call_rel S0 c p (stake_count m) r (ctx_attached c) (outgoing ps) p' /\
    (r = 0 \/ ctx_locked c + ctx_balance c = last_total_balance p + r + ctx_attached c) /\
    (forall u, sent_to u ps = if keqb u (ctx_predecessor c) then outgoing ps else 0) /\
    (outgoing ps <> 0 -> is_withdraw_call m = true).
Proof.
  intros I H. apply exec_ok in H. destruct H as (HA & HP & [(Hm & -> & E)|(Hm & p1 & need & EP & E)]).
  - exists 0. destruct m; try discriminate Hm; cbn in E, HP |- *.
    + destruct E as (_ & r & _ & ->). destruct HP as [HP|HP]; [discriminate|]. rewrite HP.
      assert (O : outgoing (if negb r && (0 <? ctx_locked c)
        then [PStake 0 (stake_public_key p) false] else []) = 0) by now destruct (_ && _).
      rewrite O. split; [now apply setting_rel|]. split; [auto|]. split; [|congruence].
      intros u. case_ifs.
    + destruct E as (_ & _ & ->). destruct HP as [HP|HP]; [discriminate|]. rewrite HP.
      split; [now apply setting_rel|]. split; [auto|]. cbn. split; [|congruence].
      intros u. case_ifs.
  - destruct (ping_rel _ _ _ _ _ I EP) as (r & R1 & HR). exists r.
    pose proof (cr_inv _ _ _ _ _ _ _ _ R1) as I1.
    enough (G : call_rel S0 c p1 (stake_count m) 0 (ctx_attached c) (outgoing ps) p' /\
      (forall u, sent_to u ps = if keqb u (ctx_predecessor c) then outgoing ps else 0) /\
      (outgoing ps <> 0 -> is_withdraw_call m = true)).
    { destruct G as (G & G2 & G3). split; [|split; [|split]]; auto.
      pose proof (call_rel_trans _ _ _ _ _ _ _ _ _ _ _ _ _ I R1 G) as X.
      now rewrite !N.add_0_l, N.add_0_r in X. }
    destruct m; try discriminate Hm; cbn in E, HP; unfold stake_count; cbn [is_stake_call is_withdraw_call];
      repeat match goal with H : _ /\ _ |- _ => destruct H | H : exists _, _ |- _ => destruct H end;
      subst; try (destruct HP as [HP|HP]; [discriminate HP|rewrite HP]);
      rewrite ?outgoing_transfer, ?outgoing_stake, ?outgoing_restake, ?outgoing_restake_if, ?N.add_0_r;
      (split; [|split; [intros u; rewrite ?sent_transfer, ?sent_stake, ?sent_restake, ?sent_restake_if;
                        unfold keqb; cbn [EqKey_string]; rewrite ?N.add_0_r; case_ifs |
                        try congruence; auto]]).
    + now apply setting_rel.
    + now apply deposit_rel.
    + match goal with D : deposit_effect _ _ ?q, E : stake_effect _ ?q _ _ _ |- _ =>
        pose proof (deposit_rel _ _ _ _ I1 D) as R2;
        pose proof (stake_rel _ _ _ _ _ _ (cr_inv _ _ _ _ _ _ _ _ R2) E) as R3 end.
      pose proof (call_rel_trans _ _ _ _ _ _ _ _ _ _ _ _ _ I1 R2 R3) as X.
      now rewrite !N.add_0_r in X.
    + now apply withdraw_rel.
    + now apply withdraw_rel.
    + eapply stake_rel; eauto.
    + eapply stake_rel; eauto.
    + eapply unstake_rel; eauto.
    + eapply unstake_rel; eauto.
    + apply setting_rel; auto. destruct I1; constructor; auto.
    + apply setting_rel; auto. cbn in HA. unfold fits in HA.
      destruct I1; constructor; auto; cbn; lia.
    + apply setting_rel; auto. destruct I1; constructor; auto.
    + apply setting_rel; auto. destruct I1; constructor; auto.
Qed.
