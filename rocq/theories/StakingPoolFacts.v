(** Lemmas behind the property theorems of the staking pool. *)
From Coq Require Import NArith List Bool String Lia Permutation.
From Verif Require Import Prelude PreludeFacts StakingPoolModel StakingPoolSpec ShareMath
  StakingPoolProofs StakingPoolHistory StakingPoolAccept.
Import ListNotations.
Open Scope N_scope.

Lemma reach self w0 evs :
  initial self w0 ->
  let w := final self w0 evs in
  winv (S_ (w_pool w0)) (stake_calls (history self w0 evs)) w /\
  price_le (w_pool w0) (w_pool w) /\
  (forall u, deposited u (history self w0 evs) <= value (w_pool w) u + paid u (history self w0 evs)) /\
  owner_id (w_pool w) = owner_id (w_pool w0) /\ w_epoch w0 <= w_epoch w.
Proof.
  intros H w. destruct (initial_inv _ _ H) as (W & A & _).
  destruct (final_inv self _ _ _ evs W) as (W' & P & V & O & E).
  rewrite N.add_0_l in W'. repeat split; auto; try apply W'; try lia.
  intros u. specialize (V u). fold w in V. lia.
Qed.

(** C01 *)
Lemma price_never_decreases self w0 evs evs' :
  initial self w0 ->
  price_le (w_pool (final self w0 evs)) (w_pool (final self w0 (evs ++ evs'))).
Proof.
  intros H. destruct (reach self w0 evs H) as (W & _). rewrite final_app.
  now destruct (final_inv self _ _ _ evs' W) as (_ & P & _).
Qed.

(** C02 *)
Lemma price_at_least_one self w0 evs :
  initial self w0 ->
  total_stake_shares (w_pool (final self w0 evs)) <= total_staked_balance (w_pool (final self w0 evs)).
Proof. intros H. destruct (reach self w0 evs H) as (W & _). apply W. Qed.

(** C03 *)
Lemma shares_conserved self w0 evs :
  initial self w0 ->
  total_stake_shares (w_pool (final self w0 evs)) =
    total_stake_shares (w_pool w0) + all_shares (w_pool (final self w0 evs)).
Proof. intros H. destruct (reach self w0 evs H) as (W & _). apply W. Qed.

(** C04 *)
Lemma solvency self w0 evs :
  initial self w0 ->
  let w := final self w0 evs in
  total_staked_balance (w_pool w) + all_unstaked (w_pool w) + STAKE_SHARE_PRICE_GUARANTEE_FUND
    <= w_total w + stake_calls (history self w0 evs).
Proof.
  intros H w. destruct (reach self w0 evs H) as (W & _). fold w in W.
  destruct W as [_ C L _]. unfold covered in C. lia.
Qed.

(** C05 *)
Lemma never_lose self w0 evs u b :
  initial self w0 ->
  get_account_total_balance (w_pool (final self w0 evs)) u = Ok b ->
  deposited u (history self w0 evs) <= b + paid u (history self w0 evs).
Proof.
  intros H V. destruct (reach self w0 evs H) as (_ & _ & D & _). apply total_view in V. subst b.
  apply D.
Qed.

(** * Single calls *)

Lemma exec_split c p m p' ps :
  exec c p m = Ok (p', ps) -> is_plain m = false ->
  args_fit m = true /\ (payable m = true \/ ctx_attached c = 0) /\
  exists p1 need, internal_ping c p = Ok (p1, need) /\ body_effect c need p1 m p' ps.
Proof.
  intros H N. apply exec_ok in H. destruct H as (A & B & [(X & _)|(_ & Y)]); [congruence|auto].
Qed.

Lemma ping_winv S0 k w c p1 need :
  winv S0 k w -> internal_ping c (w_pool w) = Ok (p1, need) ->
  ctx_locked c + ctx_balance c = w_total w + ctx_attached c -> ctx_epoch c = w_epoch w ->
  winv S0 k (mkWorld p1 (w_total w) (w_epoch w)) /\ price_le (w_pool w) p1 /\
  last_epoch_height p1 = w_epoch w /\
  (last_epoch_height (w_pool w) = w_epoch w -> p1 = w_pool w) /\
  (forall u, unstaked (acct p1 u) = unstaked (acct (w_pool w) u) /\
       unstaked_available_epoch_height (acct p1 u)
         = unstaked_available_epoch_height (acct (w_pool w) u) /\
       stake_shares (acct (w_pool w) u) <= stake_shares (acct p1 u) /\
       (u <> owner_id (w_pool w) -> acct p1 u = acct (w_pool w) u)).
Proof.
  intros [I C L E] H HB HE.
  pose proof (ping_rel _ _ _ _ _ I H) as (r & R & HR).
  pose proof (ping_keeps _ _ _ _ H) as (_ & _ & _ & _ & HEp).
  pose proof (internal_ping_ok _ _ _ _ H) as HP.
  split; [|split; [apply R|split; [congruence|split]]].
  - constructor; cbn [w_pool w_total w_epoch].
    + apply R.
    + pose proof (cr_cov _ _ _ _ _ _ _ _ R k C) as X. now rewrite N.add_0_r in X.
    + pose proof (cr_last _ _ _ _ _ _ _ _ R). lia.
    + lia.
  - intros X. destruct HP as [(_ & -> & _)|(_ & NE & _)]; auto. congruence.
  - destruct HP as [(_ & -> & _)|(_ & _ & PE)]; [intros; repeat split; auto; lia|].
    now apply (ping_inv _ _ _ _ I PE).
Qed.

(** C06 *)
Definition requested (u : account_id) (p : pool) (attached : N) (m : call) : N :=
  match m with
  | Stake a => a
  | DepositAndStake => attached
  | _ => unstaked (acct p u)
  end.

Lemma stake_call_effect S0 k self w u attached locked results m w1 ps :
  winv S0 k w -> stakes m = true ->
  step self w (EvCall u attached locked results m) = (w1, Some ps) ->
  exists p1 X,
    winv S0 k (mkWorld p1 (w_total w) (w_epoch w)) /\ price_le (w_pool w) p1 /\
    (forall v, unstaked (acct p1 v) = unstaked (acct (w_pool w) v) /\
       stake_shares (acct (w_pool w) v) <= stake_shares (acct p1 v)) /\
    unstaked (acct (w_pool w1) u) + X = unstaked (acct (w_pool w) u) + attached /\
    0 < X /\ X <= requested u (w_pool w) attached m /\
    T_ p1 * stake_shares (acct p1 u) / S_ p1 + X
      <= T_ (w_pool w1) * stake_shares (acct (w_pool w1) u) / S_ (w_pool w1) /\
    last_epoch_height (w_pool w1) = w_epoch w1.
Proof.
  intros W M H. apply step_call_some in H. destruct H as (_ & HL & p' & E & HO & ->).
  cbn [w_pool w_epoch].
  pose proof (exec_epoch _ _ _ _ _ E) as EE.
  destruct (exec_split _ _ _ _ _ E ltac:(now destruct m)) as (_ & PAY & p1 & need & HP & HB).
  destruct (ping_winv S0 k w _ _ _ W HP) as (W1 & P1 & EP1 & _ & F1); [cbn; lia|reflexivity|].
  pose proof (wi_pool _ _ _ W1) as I1. cbn [w_pool] in I1.
  assert (KEY : forall q n a p'', pinv S0 q ->
      stake_effect (call_ctx self w u attached locked results) q a n p'' ->
      exists X, X <= a /\ 0 < X /\ unstaked (acct p'' u) + X = unstaked (acct q u) /\
        T_ q * stake_shares (acct q u) / S_ q + X
          <= T_ p'' * stake_shares (acct p'' u) / S_ p'').
  { intros q n a p'' I SE.
    pose proof (stake_inv _ _ _ _ _ _ I SE) as (I' & _ & HS & _ & _ & H0 & HA & F).
    cbn [ctx_predecessor call_ctx] in *.
    exists (T_ q * n / S_ q). destruct (F u) as (G1 & G2 & _). rewrite keqb_refl in G1, G2.
    repeat split; auto; try lia.
    destruct SE as (_ & HS0 & _ & _ & _ & _ & _ & _ & _ & ->). cbn [T_ S_] in *. 
    cbn [accounts] in *. rewrite G1. apply stake_value. auto. }
  assert (U1 : forall v, unstaked (acct p1 v) = unstaked (acct (w_pool w) v)) by (intros; apply F1).
  exists p1.
  destruct m; try discriminate M; cbn [body_effect] in HB.
  - destruct HB as (p2 & n & HD & HS & _). cbn [ctx_attached call_ctx] in *.
    pose proof (deposit_inv _ _ _ _ I1 HD) as (I2 & HT2 & HS2 & _ & _ & F2).
    destruct (KEY _ _ _ _ I2 HS) as (X & X1 & X2 & X3 & X4). exists X.
    destruct (F2 u) as (G1 & G2 & _). cbn [ctx_predecessor ctx_attached call_ctx] in G2.
    rewrite keqb_refl in G2. specialize (U1 u).
    repeat split; auto; try (intros; apply F1); try lia; try apply W1.
    rewrite HT2, HS2, G1 in X4. exact X4.
  - destruct HB as (n & HS & _). cbn [ctx_predecessor call_ctx] in HS.
    destruct PAY as [PAY|PAY]; [discriminate|]. cbn in PAY. subst attached.
    destruct (KEY _ _ _ _ I1 HS) as (X & X1 & X2 & X3 & X4). exists X.
    cbn [requested]. rewrite <- (U1 u).
    repeat split; auto; try (intros; apply F1); try lia; try apply W1.
  - destruct HB as (n & HS & _).
    destruct PAY as [PAY|PAY]; [discriminate|]. cbn in PAY. subst attached.
    destruct (KEY _ _ _ _ I1 HS) as (X & X1 & X2 & X3 & X4). exists X.
    cbn [requested]. rewrite <- (U1 u).
    repeat split; auto; try (intros; apply F1); try lia; try apply W1.
Qed.

Lemma within_winv self w0 evs :
  initial self w0 -> within_limits self w0 evs ->
  let k := stake_calls (history self w0 evs) in let w := final self w0 evs in
  winv (S_ (w_pool w0)) k w /\ k <= STAKE_SHARE_PRICE_GUARANTEE_FUND /\ w_total w < U128_BOUND.
Proof. intros H [L1 L2]. destruct (reach self w0 evs H) as (W & _). auto. Qed.

Lemma final_one self w e : final self w [e] = fst (step self w e).
Proof. reflexivity. Qed.

Lemma stake_then_unstake self w0 evs u attached locked results m w1 ps :
  initial self w0 -> stakes m = true ->
  let w := final self w0 evs in
  let e := EvCall u attached locked results m in
  step self w e = (w1, Some ps) ->
  within_limits self w0 evs -> within_limits self w0 (evs ++ [e]) ->
  exists X un0 un1 st0 st1,
    get_account_unstaked_balance (w_pool w) u = Ok un0 /\
    get_account_unstaked_balance (w_pool w1) u = Ok un1 /\
    get_account_staked_balance (w_pool w) u = Ok st0 /\
    get_account_staked_balance (w_pool w1) u = Ok st1 /\
    0 < X /\ un1 + X = un0 + attached /\ st0 + X <= st1 /\
    (forall a, m = Stake a -> X <= a) /\ (m = DepositAndStake -> X <= attached) /\
    (w_epoch w1 + NUM_EPOCHS_TO_UNLOCK < U64_BOUND ->
     forall locked2 results2, locked2 <= w_total w1 ->
     exists w2 ps2, step self w1 (EvCall u 0 locked2 results2 (Unstake X)) = (w2, Some ps2)).
Proof.
  intros H M w e ST L1 L2.
  destruct (within_winv _ _ _ H L1) as (W & K & B). fold w in W, B.
  destruct (within_winv _ _ _ H L2) as (W1 & K1 & B1).
  rewrite final_app, final_one in W1, B1. fold w in W1, B1. rewrite ST in W1, B1. cbn [fst] in W1, B1.
  destruct (stake_call_effect _ _ _ _ _ _ _ _ _ _ _ W M ST)
    as (p1 & X & WP & PL & F & EU & X0 & XR & XV & EP).
  assert (Z : S_ (w_pool w0) <> 0).
  { destruct (pinv_S_cases _ _ (wi_pool _ _ _ W1)) as [[_ E]|[Z _]]; auto.
    rewrite E, div_zero_r in XV. lia. }
  assert (SV : T_ (w_pool w) * stake_shares (acct (w_pool w) u) / S_ (w_pool w)
               <= T_ p1 * stake_shares (acct p1 u) / S_ p1).
  { eapply staked_value_mono; eauto. apply W. apply WP. apply F. }
  exists X. do 4 eexists.
  split; [now apply (unstaked_view_intro _ _ _ u W)|].
  split; [now apply (unstaked_view_intro _ _ _ u W1)|].
  split; [now apply (staked_view_intro _ _ _ u W)|].
  split; [now apply (staked_view_intro _ _ _ u W1)|].
  split; [auto|]. split; [auto|]. split; [lia|].
  split; [intros a ->; exact XR|]. split; [intros ->; exact XR|].
  intros HE l2 r2 HL2.
  assert (CP : caller_possible self u (Unstake X) = true).
  { apply step_call_some in ST. destruct ST as (CP & _). destruct m; try discriminate M; exact CP. }
  destruct (exec_unstake_accept _ _ _ self u l2 r2 X W1 K1 Z B1 HL2 HE X0 ltac:(lia)) as [p' E].
  eexists. eexists. apply step_call_intro; eauto. rewrite outgoing_restake. lia.
Qed.

(** C07 *)
Lemma unstake_iff self w0 evs u locked results a st :
  initial self w0 -> within_limits self w0 evs ->
  let w := final self w0 evs in
  last_epoch_height (w_pool w) = w_epoch w -> u <> self ->
  w_epoch w + NUM_EPOCHS_TO_UNLOCK < U64_BOUND -> locked <= w_total w ->
  get_account_staked_balance (w_pool w) u = Ok st ->
  ((exists w1 ps, step self w (EvCall u 0 locked results (Unstake a)) = (w1, Some ps)) <->
   0 < a /\ a <= st).
Proof.
  intros H L w UP NS HE HL V. destruct (within_winv _ _ _ H L) as (W & K & B). fold w in W, B.
  apply staked_view in V. destruct V as (HS & ->).
  assert (Z : S_ (w_pool w0) <> 0).
  { destruct (pinv_S_cases _ _ (wi_pool _ _ _ W)) as [[_ E]|[Z _]]; auto. }
  split.
  - intros (w1 & ps & ST). apply step_call_some in ST.
    destruct ST as (_ & _ & p' & E & _ & _).
    destruct (exec_split _ _ _ _ _ E eq_refl) as (_ & _ & p1 & need & HP & n & HB & _).
    destruct (ping_winv _ _ w _ _ _ W HP) as (W1 & _ & _ & SAME & _); [cbn; lia|reflexivity|].
    rewrite (SAME UP) in HB. destruct HB as (HT & _ & HA & Hn & _ & _ & HSH & _).
    split; auto. apply shares_needed_iff; auto. rewrite <- Hn. exact HSH.
  - intros [HA HB].
    destruct (exec_unstake_accept _ _ _ self u locked results a W K Z B HL HE HA HB) as [p' E].
    eexists. eexists. apply step_call_intro; eauto.
    + unfold caller_possible. apply orb_true_iff. left. rewrite negb_true_iff.
      apply String.eqb_neq. auto.
    + rewrite outgoing_restake. lia.
Qed.

Lemma unstake_credit self w0 evs u locked results a w1 ps :
  initial self w0 ->
  let w := final self w0 evs in
  step self w (EvCall u 0 locked results (Unstake a)) = (w1, Some ps) ->
  exists credit,
    unstaked (internal_get_account (w_pool w1) u)
      = unstaked (internal_get_account (w_pool w) u) + credit /\
    a <= credit /\
    (last_epoch_height (w_pool w) = w_epoch w ->
     credit * total_stake_shares (w_pool w)
       < (a + 1) * total_stake_shares (w_pool w) + total_staked_balance (w_pool w)).
Proof.
  intros H w ST. destruct (reach self w0 evs H) as (W & _). fold w in W.
  apply step_call_some in ST. destruct ST as (_ & HL & p' & E & _ & ->). cbn [w_pool].
  destruct (exec_split _ _ _ _ _ E eq_refl) as (_ & _ & p1 & need & HP & n & HB & _).
  destruct (ping_winv _ _ w _ _ _ W HP) as (W1 & _ & _ & SAME & F1); [cbn; lia|reflexivity|].
  pose proof (wi_pool _ _ _ W1) as I1. cbn [w_pool] in I1.
  pose proof (unstake_inv _ _ _ _ _ _ I1 HB) as (I' & _ & _ & _ & _ & _ & HA & _ & F).
  exists (cdiv (T_ p1 * n) (S_ p1)). rewrite !get_account_eq.
  destruct (F u) as (_ & FU & _). cbn [ctx_predecessor call_ctx] in FU. rewrite keqb_refl in FU.
  destruct (F1 u) as (F1u & _). rewrite FU, F1u. repeat split; auto.
  intros UP. rewrite (SAME UP) in *. destruct HB as (HT & HS & _ & Hn & _).
  pose proof (cdiv_hi (T_ (w_pool w) * n) (S_ (w_pool w)) HS).
  pose proof (cdiv_hi (S_ (w_pool w) * a) (T_ (w_pool w)) HT). rewrite <- Hn in *.
  nia.
Qed.

(** C08 *)
Lemma unstake_all_effect self w0 evs u locked results w1 ps :
  initial self w0 ->
  let w := final self w0 evs in
  step self w (EvCall u 0 locked results UnstakeAll) = (w1, Some ps) ->
  stake_shares (internal_get_account (w_pool w1) u) = 0 /\
  (forall b, get_account_staked_balance (w_pool w1) u = Ok b -> b = 0) /\
  (forall st, get_account_staked_balance (w_pool w) u = Ok st ->
   unstaked (internal_get_account (w_pool w) u) + st
     <= unstaked (internal_get_account (w_pool w1) u)).
Proof.
  intros H w ST. destruct (reach self w0 evs H) as (W & _). fold w in W.
  apply step_call_some in ST. destruct ST as (_ & HL & p' & E & _ & ->). cbn [w_pool].
  destruct (exec_split _ _ _ _ _ E eq_refl) as (_ & _ & p1 & need & HP & n & HB & _).
  destruct (ping_winv _ _ w _ _ _ W HP) as (W1 & PL & _ & _ & F1); [cbn; lia|reflexivity|].
  pose proof (wi_pool _ _ _ W1) as I1. cbn [w_pool] in I1. cbn [ctx_predecessor call_ctx] in HB.
  pose proof (unstake_inv _ _ _ _ _ _ I1 HB) as (I' & _ & _ & _ & _ & _ & HA & _ & F).
  destruct (F u) as (FS & FU & _). cbn [ctx_predecessor call_ctx] in FU, FS.
  rewrite keqb_refl in FU, FS. destruct (F1 u) as (F1u & _ & F1s & _).
  destruct HB as (HT & HS & _ & Hn & _).
  rewrite shares_of_value in Hn; auto; [|apply I1].
  assert (S0 : stake_shares (acct p' u) = 0) by lia.
  rewrite !get_account_eq. split; [exact S0|]. split.
  - intros b V. apply staked_view in V. destruct V as [NZ ->]. rewrite S0, N.mul_0_r.
    now apply N.div_0_l.
  - intros st V. apply staked_view in V. destruct V as [_ ->].
    rewrite FU, F1u. apply N.add_le_mono_l. etransitivity; [|exact HA].
    eapply staked_value_mono; eauto. apply W.
Qed.

(** C09 *)
Lemma non_interference self w0 evs e u :
  initial self w0 ->
  let w := final self w0 evs in let w1 := fst (step self w e) in
  (forall attached locked results m, e <> EvCall u attached locked results m) ->
  unstaked (internal_get_account (w_pool w1) u) = unstaked (internal_get_account (w_pool w) u) /\
  unstaked_available_epoch_height (internal_get_account (w_pool w1) u)
    = unstaked_available_epoch_height (internal_get_account (w_pool w) u) /\
  stake_shares (internal_get_account (w_pool w) u)
    <= stake_shares (internal_get_account (w_pool w1) u) /\
  (u <> owner_id (w_pool w0) ->
   internal_get_account (w_pool w1) u = internal_get_account (w_pool w) u) /\
  (forall st st1, get_account_staked_balance (w_pool w) u = Ok st ->
     get_account_staked_balance (w_pool w1) u = Ok st1 -> st <= st1).
Proof.
  intros H w w1 NE. destruct (reach self w0 evs H) as (W & _ & _ & HO & _). fold w in W, HO.
  destruct (step self w e) as [w' o] eqn:ST. cbn in w1. subst w1.
  destruct (step_inv _ _ _ _ _ _ _ W ST) as (W1 & PL & _ & F & _).
  destruct (F u) as (F1 & F2 & F3 & F4).
  { destruct e; cbn; try discriminate. intros X. injection X as ->. eapply NE; reflexivity. }
  rewrite !get_account_eq. rewrite HO in F4.
  split; [auto|]. split; [auto|]. split; [auto|]. split; [auto|].
  intros st st1 V V1. apply staked_view in V, V1. destruct V as [_ ->], V1 as [_ ->].
  eapply staked_value_mono; eauto. apply W. apply W1.
Qed.

(** * Histories and their prefixes *)
Lemma history_split self w evs l1 en l2 :
  history self w evs = (l1 ++ en :: l2)%list ->
  exists e1 e e2, evs = (e1 ++ e :: e2)%list /\ l1 = history self w e1 /\
    en_before en = final self w e1 /\ en_event en = e /\
    step self (final self w e1) e = (en_after en, en_promises en).
Proof.
  revert w l1. induction evs as [|e evs IH]; intros w l1 H.
  - destruct l1; discriminate.
  - cbn [history] in H. destruct (step self w e) as [w' o] eqn:E. destruct l1 as [|x l1].
    + injection H as <- _. exists [], e, evs. cbn. auto.
    + injection H as <- H. destruct (IH _ _ H) as (e1 & e' & e2 & -> & -> & A & B & C).
      exists (e :: e1), e', e2. cbn [history final]. rewrite E. cbn. auto.
Qed.

Lemma history_in self w evs en :
  In en (history self w evs) ->
  exists e1 e e2, evs = (e1 ++ e :: e2)%list /\ en_before en = final self w e1 /\ en_event en = e /\
    step self (final self w e1) e = (en_after en, en_promises en).
Proof.
  intros H. apply in_split in H. destruct H as (l1 & l2 & H).
  destruct (history_split _ _ _ _ _ _ H) as (e1 & e & e2 & A & _ & B & C & D). eauto 8.
Qed.

(** * The unstaking delay *)

Lemma deposit_avail S0 c p p' u :
  pinv S0 p -> deposit_effect c p p' ->
  unstaked_available_epoch_height (acct p' u) = unstaked_available_epoch_height (acct p u).
Proof.
  intros I (_ & ->). cbn [accounts]. rewrite acct_of_save by apply I.
  destruct (keqb_spec u (ctx_predecessor c)) as [->|NE]; auto.
  destruct (nonzero _) eqn:Z; auto.
  apply nonzero_false in Z. cbn in Z.
  unfold acct_of in *. destruct (mget (ctx_predecessor c) (accounts p)) eqn:G; auto.
  apply (pi_nz _ _ I) in G. unfold nonzero in G. lia.
Qed.

Lemma withdraw_avail S0 c p a p' u :
  pinv S0 p -> withdraw_effect c p a p' ->
  unstaked_available_epoch_height (acct p (ctx_predecessor c)) <= ctx_epoch c /\
  (unstaked_available_epoch_height (acct p' u) = unstaked_available_epoch_height (acct p u) \/
   u = ctx_predecessor c /\ unstaked_available_epoch_height (acct p' u) = 0).
Proof.
  intros I (_ & _ & HE & _ & ->). split; [auto|]. cbn [accounts]. rewrite acct_of_save by apply I.
  destruct (keqb_spec u (ctx_predecessor c)) as [->|NE]; auto.
  destruct (nonzero _); auto.
Qed.

(** How a call of [u] changes its own availability epoch. *)
Lemma step_avail S0 k self w u attached locked results m w1 ps :
  winv S0 k w -> step self w (EvCall u attached locked results m) = (w1, Some ps) ->
  let av w := unstaked_available_epoch_height (acct (w_pool w) u) in
  w_epoch w1 = w_epoch w /\
  (is_unstake_call m = true -> av w1 = w_epoch w + NUM_EPOCHS_TO_UNLOCK) /\
  (is_withdraw_call m = true -> av w <= w_epoch w /\ (av w1 = av w \/ av w1 = 0)) /\
  (is_unstake_call m = false -> is_withdraw_call m = false -> av w1 = av w).
Proof.
  intros W ST av. unfold av. apply step_call_some in ST.
  destruct ST as (_ & HL & p' & E & _ & ->). cbn [w_pool w_epoch].
  split; [reflexivity|].
  destruct (is_plain m) eqn:PM.
  { apply exec_ok in E. destruct E as (_ & _ & [(_ & -> & _)|(X & _)]); [|congruence].
    destruct m; try discriminate PM; cbn; repeat split; intros; try discriminate; auto. }
  destruct (exec_split _ _ _ _ _ E PM) as (_ & _ & p1 & need & HP & HB).
  destruct (ping_winv _ _ w _ _ _ W HP) as (W1 & _ & _ & _ & F1); [cbn; lia|reflexivity|].
  pose proof (wi_pool _ _ _ W1) as I1. cbn [w_pool] in I1.
  destruct (F1 u) as (_ & FA & _). rewrite <- FA.
  destruct m; try discriminate PM; cbn [body_effect] in HB; cbn [is_unstake_call is_withdraw_call];
    repeat match goal with H : _ /\ _ |- _ => destruct H | H : exists _, _ |- _ => destruct H end;
    subst; repeat split; intros; try discriminate; auto.
  - eapply deposit_avail; eauto.
  - match goal with D : deposit_effect _ _ ?q, E : stake_effect _ ?q _ _ _ |- _ =>
      pose proof (deposit_inv _ _ _ _ I1 D) as (I2 & _);
      destruct (stake_inv _ _ _ _ _ _ I2 E) as (_ & _ & _ & _ & _ & _ & _ & F);
      destruct (F u) as (_ & _ & -> & _) end.
    eapply deposit_avail; eauto.
  - match goal with D : withdraw_effect _ _ _ _ |- _ =>
      destruct (withdraw_avail _ _ _ _ _ u I1 D) as (A & _); exact A end.
  - match goal with D : withdraw_effect _ _ _ _ |- _ =>
      destruct (withdraw_avail _ _ _ _ _ u I1 D) as (_ & [A|[_ A]]); auto end.
  - match goal with D : withdraw_effect _ _ _ _ |- _ =>
      destruct (withdraw_avail _ _ _ _ _ u I1 D) as (A & _); exact A end.
  - match goal with D : withdraw_effect _ _ _ _ |- _ =>
      destruct (withdraw_avail _ _ _ _ _ u I1 D) as (_ & [A|[_ A]]); auto end.
  - match goal with D : stake_effect _ _ _ _ _ |- _ =>
      destruct (stake_inv _ _ _ _ _ _ I1 D) as (_ & _ & _ & _ & _ & _ & _ & F);
      destruct (F u) as (_ & _ & -> & _); reflexivity end.
  - match goal with D : stake_effect _ _ _ _ _ |- _ =>
      destruct (stake_inv _ _ _ _ _ _ I1 D) as (_ & _ & _ & _ & _ & _ & _ & F);
      destruct (F u) as (_ & _ & -> & _); reflexivity end.
  - match goal with D : unstake_effect _ _ _ _ _ |- _ =>
      destruct (unstake_inv _ _ _ _ _ _ I1 D) as (_ & _ & _ & _ & _ & _ & _ & _ & F);
      destruct (F u) as (_ & _ & -> & _) end.
    cbn [ctx_predecessor call_ctx ctx_epoch]. now rewrite keqb_refl.
  - match goal with D : unstake_effect _ _ _ _ _ |- _ =>
      destruct (unstake_inv _ _ _ _ _ _ I1 D) as (_ & _ & _ & _ & _ & _ & _ & _ & F);
      destruct (F u) as (_ & _ & -> & _) end.
    cbn [ctx_predecessor call_ctx ctx_epoch]. now rewrite keqb_refl.
Qed.

Lemma accepted_other u sel e o w w' :
  (forall attached locked results m, e <> EvCall u attached locked results m) \/ o = None ->
  ~ accepted_call u sel (mkEntry w e o w').
Proof.
  intros H (a & l & r & m & ps & E & P & _). cbn in *. subst. destruct H as [H|H].
  - eapply H; eauto.
  - discriminate.
Qed.

Definition event_by (u : account_id) (e : event) : bool :=
  match e with EvCall who _ _ _ _ => String.eqb who u | _ => false end.

Lemma event_by_false u e :
  event_by u e = false ->
  (forall attached locked results m, e <> EvCall u attached locked results m) /\
  event_caller e <> Some u.
Proof.
  destruct e; cbn; intros H; split; intros; try discriminate.
  - intros X. injection X as -> _ _ _ _. now rewrite String.eqb_refl in H.
  - intros X. injection X as ->. now rewrite String.eqb_refl in H.
Qed.
Lemma event_by_true u e :
  event_by u e = true -> exists attached locked results m, e = EvCall u attached locked results m.
Proof.
  destruct e; cbn; try discriminate. intros H. apply String.eqb_eq in H. subst. eauto.
Qed.

Lemma avail_history self w0 evs u :
  initial self w0 ->
  let w := final self w0 evs in
  let av := unstaked_available_epoch_height (acct (w_pool w) u) in
  (forall en, In en (history self w0 evs) -> accepted_call u is_unstake_call en ->
     w_epoch (en_before en) <= w_epoch w /\
     (w_epoch (en_before en) + NUM_EPOCHS_TO_UNLOCK <= av \/
      w_epoch (en_before en) + NUM_EPOCHS_TO_UNLOCK <= w_epoch w)) /\
  (av = 0 \/ exists en, In en (history self w0 evs) /\ accepted_call u is_unstake_call en /\
                        av = w_epoch (en_before en) + NUM_EPOCHS_TO_UNLOCK).
Proof.
  intros H. induction evs as [|e evs IH] using rev_ind.
  - cbn. split; [intros en []|]. left. destruct (initial_inv _ _ H) as (_ & A & _).
    now rewrite A.
  - destruct (reach self w0 evs H) as (W & _).
    rewrite final_app, history_app. cbn [final history].
    destruct (step self (final self w0 evs) e) as [w1 o] eqn:ST. cbn [fst].
    cbn zeta in IH. destruct IH as [IH1 IH2].
    set (w := final self w0 evs) in *.
    destruct (step_inv _ _ _ _ _ _ _ W ST) as (W1 & _ & _ & F & _ & EPM).
    destruct (event_by u e) eqn:BY.
    + apply event_by_true in BY. destruct BY as (att & loc & res & m & ->).
      destruct o as [ps|].
      * destruct (step_avail _ _ _ _ _ _ _ _ _ _ _ W ST) as (EP & AU & AW & AO).
        cbn zeta. split.
        -- intros en IN AC. apply in_app_or in IN. destruct IN as [IN|[<-|[]]].
           ++ destruct (IH1 _ IN AC) as (X1 & X2). rewrite EP. split; [auto|].
              destruct (is_unstake_call m) eqn:UM.
              ** rewrite (AU eq_refl). lia.
              ** destruct (is_withdraw_call m) eqn:WM.
                 --- destruct (AW eq_refl) as [A1 [A2|A2]]; rewrite A2; lia.
                 --- rewrite (AO eq_refl eq_refl). lia.
           ++ cbn [en_before]. destruct AC as (a' & l' & r' & m' & ps' & E1 & _ & E3).
              cbn in E1. injection E1 as <- <- <- <-. rewrite (AU E3). lia.
        -- destruct (is_unstake_call m) eqn:UM.
           ++ right. exists (mkEntry w (EvCall u att loc res m) (Some ps) w1).
              split; [apply in_or_app; right; now left|]. cbn [en_before].
              split; [|apply AU; reflexivity].
              exists att, loc, res, m, ps. auto.
           ++ assert (AV : unstaked_available_epoch_height (acct (w_pool w1) u) = 0 \/
                unstaked_available_epoch_height (acct (w_pool w1) u)
                = unstaked_available_epoch_height (acct (w_pool w) u)).
              { destruct (is_withdraw_call m) eqn:WM; [destruct (AW eq_refl); tauto|].
                right. now apply AO. }
              destruct AV as [AV|AV]; [now left|]. rewrite AV.
              destruct IH2 as [IH2|(en & X1 & X2 & X3)]; [now left|].
              right. exists en. split; [apply in_or_app; now left|auto].
      * apply step_call_none in ST. subst w1. cbn zeta. split.
        -- intros en IN AC. apply in_app_or in IN. destruct IN as [IN|[<-|[]]]; [now apply IH1|].
           exfalso. revert AC. apply accepted_other. now right.
        -- destruct IH2 as [IH2|(en & X1 & X2 & X3)]; [now left|].
           right. exists en. split; [apply in_or_app; now left|auto].
    + apply event_by_false in BY. destruct BY as [BY1 BY2].
      destruct (F u BY2) as (_ & FA & _). cbn zeta. rewrite FA. split.
      * intros en IN AC. apply in_app_or in IN. destruct IN as [IN|[<-|[]]].
        -- destruct (IH1 _ IN AC). lia.
        -- exfalso. revert AC. apply accepted_other. now left.
      * destruct IH2 as [IH2|(en & X1 & X2 & X3)]; [now left|].
        right. exists en. split; [apply in_or_app; now left|auto].
Qed.

(** C10 *)
Lemma withdraw_after_delay self w0 evs u h1 en1 h2 en2 h3 :
  initial self w0 ->
  history self w0 evs = (h1 ++ en1 :: h2 ++ en2 :: h3)%list ->
  accepted_call u is_unstake_call en1 -> accepted_call u is_withdraw_call en2 ->
  w_epoch (en_before en1) + NUM_EPOCHS_TO_UNLOCK <= w_epoch (en_before en2).
Proof.
  intros H HH A1 A2.
  replace (h1 ++ en1 :: h2 ++ en2 :: h3)%list with ((h1 ++ en1 :: h2) ++ en2 :: h3)%list in HH
    by now rewrite <- app_assoc.
  apply history_split in HH. destruct HH as (e1 & e & e2 & -> & HP & HB & HE & ST).
  destruct A2 as (att & loc & res & m & ps & X1 & X2 & X3). rewrite X1 in HE. subst e.
  rewrite X2 in ST.
  destruct (reach self w0 e1 H) as (W & _).
  destruct (step_avail _ _ _ _ _ _ _ _ _ _ _ W ST) as (_ & _ & AW & _).
  destruct (AW X3) as [AV _].
  destruct (avail_history self w0 e1 u H) as [Q _].
  destruct (Q en1) as (Q1 & Q2); auto.
  - rewrite <- HP. apply in_or_app. right. now left.
  - rewrite HB. lia.
Qed.

Lemma withdraw_iff self w0 evs u locked results a st un :
  initial self w0 -> within_limits self w0 evs -> u <> self ->
  let w := final self w0 evs in
  locked <= w_total w -> a <= w_total w - locked ->
  get_account_staked_balance (w_pool w) u = Ok st ->
  get_account_unstaked_balance (w_pool w) u = Ok un ->
  (forall en, In en (history self w0 evs) -> accepted_call u is_unstake_call en ->
     w_epoch (en_before en) + NUM_EPOCHS_TO_UNLOCK <= w_epoch w) ->
  is_account_unstaked_balance_available (w_epoch w) (w_pool w) u = Ok true /\
  ((exists w1 ps, step self w (EvCall u 0 locked results (Withdraw a)) = (w1, Some ps)) <->
   0 < a /\ a <= un).
Proof.
  intros H L NS w HL HA VS VU OLD.
  destruct (within_winv _ _ _ H L) as (W & K & B). fold w in W, B.
  assert (Z : S_ (w_pool w0) <> 0).
  { apply staked_view in VS. destruct VS as [NZ _].
    destruct (pinv_S_cases _ _ (wi_pool _ _ _ W)) as [[_ E]|[Z _]]; auto. }
  assert (AV : unstaked_available_epoch_height (acct (w_pool w) u) <= w_epoch w).
  { destruct (avail_history self w0 evs u H) as [_ [Q|(en & Q1 & Q2 & Q3)]].
    - fold w in Q. lia.
    - fold w in Q3. specialize (OLD _ Q1 Q2). lia. }
  apply unstaked_view in VU. subst un.
  split.
  - unfold is_account_unstaked_balance_available.
    rewrite (get_account_intro _ _ _ u _ W K B Z). cbn [bind h_can_withdraw].
    f_equal. lia.
  - split.
    + intros (w1 & ps & ST). apply step_call_some in ST. destruct ST as (_ & _ & p' & E & _ & _).
      destruct (exec_split _ _ _ _ _ E eq_refl) as (_ & _ & p1 & need & HP & HB & _).
      destruct (ping_winv _ _ w _ _ _ W HP) as (W1 & _ & _ & _ & F1); [cbn; lia|reflexivity|].
      destruct HB as (H0 & HU & _). destruct (F1 u) as (FU & _).
      cbn [ctx_predecessor call_ctx] in HU. rewrite FU in HU. auto.
    + intros [A0 AU].
      destruct (exec_withdraw_accept _ _ _ self u locked results a W K Z B HL A0 AU AV)
        as (p' & b & E).
      eexists. eexists. apply step_call_intro; eauto.
      * unfold caller_possible. apply orb_true_iff. left. rewrite negb_true_iff.
        apply String.eqb_neq. auto.
      * rewrite outgoing_transfer, outgoing_restake_if. lia.
Qed.

(** C11 *)
Lemma transfers_only_withdrawals self w0 evs en ps r a :
  initial self w0 -> In en (history self w0 evs) -> en_promises en = Some ps ->
  In (PTransfer r a) ps ->
  accepted_call r is_withdraw_call en /\ 0 < a /\
  unstaked (internal_get_account (w_pool (en_after en)) r) + a =
    unstaked (internal_get_account (w_pool (en_before en)) r) /\
  outgoing ps = a.
Proof.
  intros H IN EP IT. apply history_in in IN. destruct IN as (e1 & e & e2 & -> & HB & HE & ST).
  destruct (reach self w0 e1 H) as (W & _). rewrite <- HB in *. rewrite EP in ST.
  destruct e as [who att loc res m| |]; try (cbn in ST; discriminate).
  pose proof ST as ST0.
  apply step_call_some in ST. destruct ST as (_ & _ & p' & E & _ & EW).
  assert (NR : forall p, ~ In (PTransfer r a) (internal_restake p)).
  { intros p. unfold internal_restake. destruct (paused p); intros X; [destruct X|].
    destruct X as [X|[]]. discriminate. }
  assert (NRI : forall b p, ~ In (PTransfer r a) (restake_if b p)).
  { intros b p. destruct b; cbn; auto. }
  destruct (is_plain m) eqn:PM.
  { apply exec_ok in E. destruct E as (_ & _ & [(_ & _ & X)|(X & _)]); [|congruence].
    destruct m; try discriminate PM; cbn in X.
    - destruct X as (_ & x & _ & ->). destruct (_ && _); cbn in IT; intuition discriminate.
    - destruct X as (_ & _ & ->). cbn in IT; intuition discriminate. }
  destruct (exec_split _ _ _ _ _ E PM) as (_ & _ & p1 & need & HP & HBd).
  destruct (ping_winv _ _ (en_before en) _ _ _ W HP) as (W1 & _ & _ & _ & F1);
    [cbn; apply step_call_some in ST0; lia|reflexivity|].
  pose proof (wi_pool _ _ _ W1) as I1. cbn [w_pool] in I1. rewrite !get_account_eq.
  assert (G : forall x p2 b, withdraw_effect (call_ctx self (en_before en) who att loc res) p1 x p2 ->
     is_withdraw_call m = true -> p' = p2 -> ps = PTransfer who x :: restake_if b p2 ->
     accepted_call r is_withdraw_call en /\ 0 < a /\
     unstaked (acct (w_pool (en_after en)) r) + a = unstaked (acct (w_pool (en_before en)) r) /\
     outgoing ps = a).
  { intros x p2 b WE WM -> ->. destruct IT as [IT|IT]; [|now apply NRI in IT].
    injection IT as -> ->.
    pose proof (withdraw_inv _ _ _ _ _ I1 WE) as (_ & _ & _ & _ & _ & F).
    destruct (F r) as (_ & FU & _). cbn [ctx_predecessor call_ctx] in FU. rewrite keqb_refl in FU.
    destruct (F1 r) as (F1u & _). rewrite EW. cbn [w_pool].
    split; [exists att, loc, res, m; eauto|]. split; [apply WE|]. split; [lia|].
    rewrite outgoing_transfer, outgoing_restake_if. lia. }
  destruct m; try discriminate PM; cbn [body_effect] in HBd;
    repeat match goal with H : _ /\ _ |- _ => destruct H | H : exists _, _ |- _ => destruct H end;
    subst ps; try (exfalso; eapply NR; eassumption); try (exfalso; eapply NRI; eassumption);
    try (eapply G; eauto; reflexivity).
  cbn in IT. intuition discriminate.
Qed.

(** C12 *)
Lemma ping_same_epoch self w0 evs v locked results w1 ps :
  initial self w0 ->
  let w := final self w0 evs in
  last_epoch_height (w_pool w) = w_epoch w ->
  step self w (EvCall v 0 locked results Ping) = (w1, Some ps) ->
  w1 = w /\ ps = [].
Proof.
  intros H w UP ST. apply step_call_some in ST. destruct ST as (_ & HL & p' & E & _ & ->).
  destruct (exec_split _ _ _ _ _ E eq_refl) as (_ & _ & p1 & need & HP & -> & ->).
  apply internal_ping_ok in HP. destruct HP as [(-> & -> & _)|(_ & NE & _)].
  - cbn. rewrite N.add_0_r, N.sub_0_r. now destruct w.
  - cbn in NE. congruence.
Qed.

Lemma ping_rewards self w0 evs v locked results w1 ps :
  initial self w0 ->
  let w := final self w0 evs in
  let p := w_pool w in let p1 := w_pool w1 in
  last_epoch_height p <> w_epoch w ->
  step self w (EvCall v 0 locked results Ping) = (w1, Some ps) ->
  exists reward minted,
    w_total w = last_total_balance p + reward /\
    last_total_balance p1 = w_total w1 /\ last_epoch_height p1 = w_epoch w /\
    total_staked_balance p1 = total_staked_balance p + reward /\
    total_stake_shares p1 = total_stake_shares p + minted /\
    stake_shares (internal_get_account p1 (owner_id p))
      = stake_shares (internal_get_account p (owner_id p)) + minted /\
    unstaked (internal_get_account p1 (owner_id p)) = unstaked (internal_get_account p (owner_id p)) /\
    (forall u, u <> owner_id p -> internal_get_account p1 u = internal_get_account p u) /\
    minted * total_staked_balance p1 * denominator (reward_fee_fraction p)
      <= total_stake_shares p1 * (numerator (reward_fee_fraction p) * reward).
Proof.
  intros H w p p1 UP ST. destruct (reach self w0 evs H) as (W & _). fold w in W.
  pose proof (wi_pool _ _ _ W) as I. fold p in I.
  apply step_call_some in ST. destruct ST as (_ & HL & p' & E & _ & EW).
  assert (EP : p1 = p') by (subst p1 w1; reflexivity).
  destruct (exec_split _ _ _ _ _ E eq_refl) as (_ & _ & q & need & HP & -> & ->).
  fold p in HP. apply internal_ping_ok in HP. destruct HP as [(_ & _ & X)|(_ & _ & PE)].
  { cbn in X. congruence. }
  pose proof (ping_inv _ _ _ _ I PE) as (_ & _ & _ & _ & _ & F).
  destruct PE as (r & fee & n & HB & Hf & Hfr & HT & Hn & HTb & HSb & Hl & EQ).
  cbn [ctx_locked ctx_balance ctx_attached call_ctx ctx_epoch] in HB.
  exists r, n. rewrite EP.
  assert (AO : acct q (owner_id p) = mkAccount (unstaked (acct p (owner_id p)))
     (stake_shares (acct p (owner_id p)) + n)
     (unstaked_available_epoch_height (acct p (owner_id p)))).
  { rewrite EQ. cbn [accounts]. destruct (N.ltb_spec 0 n) as [P|P].
    - rewrite acct_of_save by apply I. rewrite keqb_refl. unfold nonzero.
      cbn [unstaked stake_shares].
      destruct (N.ltb_spec 0 (stake_shares (acct p (owner_id p)) + n)); [|lia].
      rewrite orb_true_r. reflexivity.
    - assert (n = 0) by lia. subst n. rewrite H0, N.add_0_r.
      now destruct (acct_of (accounts p) (owner_id p)). }
  rewrite !get_account_eq, AO.
  split; [lia|]. split.
  { subst w1. cbn [w_pool w_total]. rewrite outgoing_restake_if, N.add_0_r, N.sub_0_r. rewrite EQ.
    cbn. lia. }
  split; [rewrite EQ; reflexivity|].
  split; [rewrite EQ; reflexivity|]. split; [rewrite EQ; reflexivity|].
  split; [reflexivity|]. split; [reflexivity|].
  split; [intros u NE; rewrite !get_account_eq; now apply F|].
  rewrite EQ. cbn [T_ S_].
  pose proof (pi_den _ _ I) as DE.
  pose proof (div_lo (numerator (reward_fee_fraction p) * r) (denominator (reward_fee_fraction p)) DE)
    as DF. rewrite <- Hf in DF.
  destruct (N.eq_dec (T_ p + (r - fee)) 0) as [Z|Z].
  - rewrite Z, div_zero_r in Hn. subst n. lia.
  - pose proof (div_lo (S_ p * fee) (T_ p + (r - fee)) Z) as DN. rewrite <- Hn in DN.
    assert (X : n * (T_ p + r) <= (S_ p + n) * fee) by nia.
    transitivity ((S_ p + n) * fee * denominator (reward_fee_fraction p)); [nia|nia].
Qed.

Lemma pending_step self w0 evs e w1 o :
  initial self w0 ->
  let w := final self w0 evs in
  step self w e = (w1, o) ->
  last_total_balance (w_pool w) <= w_total w /\
  match e, o with
  | EvIncome a, _ => pending w1 = pending w + a
  | EvCall _ _ _ _ m, Some _ =>
      if is_plain m || (last_epoch_height (w_pool w) =? w_epoch w)
      then pending w1 = pending w else pending w1 = 0
  | _, _ => pending w1 = pending w
  end.
Proof.
  intros H w ST. destruct (reach self w0 evs H) as (W & _). fold w in W.
  pose proof (wi_pool _ _ _ W) as I. pose proof (wi_last _ _ _ W) as L.
  split; [exact L|]. unfold pending. destruct e as [who att loc res m|a|n].
  - destruct o as [ps|]; [|apply step_call_none in ST; now subst].
    apply step_call_some in ST. destruct ST as (_ & HL & p' & E & HO & ->). cbn [w_pool w_total].
    destruct (is_plain m) eqn:PM.
    + cbn [orb]. apply exec_ok in E. destruct E as (_ & PAY & [(_ & -> & X)|(X & _)]); [|congruence].
      destruct PAY as [PAY|PAY]; [destruct m; discriminate|]. cbn in PAY. subst att.
      assert (outgoing ps = 0).
      { destruct m; try discriminate PM; cbn in X.
        - destruct X as (_ & x & _ & ->). now destruct (_ && _).
        - destruct X as (_ & _ & ->). reflexivity. }
      lia.
    + cbn [orb].
      destruct (exec_split _ _ _ _ _ E PM) as (_ & PAY & p1 & need & HP & HB).
      pose proof (ping_rel _ _ _ _ _ I HP) as (r & R & HR).
      pose proof (cr_inv _ _ _ _ _ _ _ _ R) as I1.
      assert (LB : last_total_balance p' + outgoing ps = last_total_balance p1 + att).
      { destruct m; try discriminate PM; cbn [body_effect payable] in *;
        repeat match goal with H : _ /\ _ |- _ => destruct H | H : exists _, _ |- _ => destruct H end;
        subst; try (destruct PAY as [PAY|PAY]; [discriminate PAY|cbn in PAY; subst att]);
        repeat match goal with
        | H : deposit_effect _ _ _ |- _ => apply (deposit_inv _ _ _ _ I1) in H;
            destruct H as (? & _ & _ & ? & _)
        | H : withdraw_effect _ _ _ _ |- _ => apply (withdraw_inv _ _ _ _ _ I1) in H;
            destruct H as (_ & _ & _ & ? & _)
        end;
        repeat match goal with
        | H : stake_effect _ _ _ _ _ |- _ =>
            destruct H as (_ & _ & _ & _ & _ & _ & _ & _ & _ & ->)
        | H : unstake_effect _ _ _ _ _ |- _ =>
            destruct H as (_ & _ & _ & _ & _ & _ & _ & _ & _ & ->)
        end; cbn [last_total_balance ctx_attached call_ctx ctx_predecessor set_key set_fraction set_paused] in *;
        rewrite ?outgoing_transfer, ?outgoing_restake, ?outgoing_restake_if, ?outgoing_stake; cbn [outgoing fold_right];
        try lia. }
      destruct (N.eqb_spec (last_epoch_height (w_pool w)) (w_epoch w)) as [EQ|NE].
      * apply internal_ping_ok in HP. destruct HP as [(_ & -> & _)|(_ & X & _)]; [lia|].
        cbn in X. congruence.
      * apply internal_ping_ok in HP. destruct HP as [(_ & _ & X)|(_ & _ & PE)].
        { cbn in X. congruence. }
        destruct (ping_inv _ _ _ _ I PE) as (_ & (r' & _ & _ & HB') & _).
        cbn [ctx_locked ctx_balance ctx_attached call_ctx] in HB'. lia.
  - cbn in ST. injection ST as <- <-. cbn. lia.
  - cbn in ST. injection ST as <- <-. cbn. lia.
Qed.

Lemma internal_ping_ext c c' p :
  ctx_epoch c = ctx_epoch c' ->
  ctx_locked c + ctx_balance c < U128_BOUND -> ctx_locked c' + ctx_balance c' < U128_BOUND ->
  ctx_attached c <= ctx_balance c -> ctx_attached c' <= ctx_balance c' ->
  ctx_locked c + ctx_balance c - ctx_attached c = ctx_locked c' + ctx_balance c' - ctx_attached c' ->
  internal_ping c p = internal_ping c' p.
Proof.
  intros EE B B' A A' EQ. unfold internal_ping. rewrite <- EE.
  destruct (last_epoch_height p =? ctx_epoch c); auto.
  rewrite !(add_chk_intro U128_BOUND) by auto. cbn [bind].
  rewrite !sub_chk_intro by lia. cbn [bind]. now rewrite EQ.
Qed.

Lemma ping_idem c p p1 need : internal_ping c p = Ok (p1, need) -> internal_ping c p1 = Ok (p1, false).
Proof.
  intros H. apply ping_keeps in H. destruct H as (_ & _ & _ & _ & E).
  unfold internal_ping. rewrite E, N.eqb_refl. reflexivity.
Qed.

Lemma outgoing_app l1 l2 : outgoing (l1 ++ l2) = outgoing l1 + outgoing l2.
Proof.
  unfold outgoing. induction l1 as [|q l1 IH]; [reflexivity|]. cbn [app fold_right].
  destruct q; rewrite IH; lia.
Qed.

(** Two results that differ only in stake actions. *)
Definition same_but_stake (a b : res (pool * list promise)) : Prop :=
  match a, b with
  | Ok (p, ps), Ok (p', ps') => p = p' /\ outgoing ps = outgoing ps'
  | Panic _, Panic _ => True
  | _, _ => False
  end.

Lemma exec_after_ping c p p1 need m :
  is_plain m = false -> internal_ping c p = Ok (p1, need) ->
  same_but_stake (exec c p m) (exec c p1 m).
Proof.
  intros PM H. pose proof (ping_idem _ _ _ _ H) as H'.
  destruct (ping_keeps _ _ _ _ H) as (HO & HK & HPa & HF & _).
  unfold exec. destruct (require (args_fit m) _); [|exact I]. cbn [bind].
  destruct (require (payable m || _) _); [|exact I]. cbn [bind].
  destruct m; try discriminate PM;
    unfold ping, deposit, deposit_and_stake, withdraw_all, withdraw, stake_all, stake, unstake_all,
      unstake, update_staking_key, update_reward_fee_fraction, pause_staking, resume_staking,
      assert_owner;
    rewrite ?HO, ?HPa; rewrite ?H, ?H'; cbn [bind];
    repeat match goal with
    | |- same_but_stake (bind ?x _) (bind ?x _) => destruct x; cbn [bind]; [|exact I]
    | |- same_but_stake (match ?x with _ => _ end) (match ?x with _ => _ end) => destruct x
    end; rewrite ?H, ?H'; cbn [bind];
    cbn [same_but_stake]; rewrite ?outgoing_app, ?outgoing_restake, ?outgoing_restake_if; auto.
Qed.

Lemma rewards_first self w0 evs v locked results results' w1 ps u attached m :
  initial self w0 ->
  let w := final self w0 evs in
  step self w (EvCall v 0 locked results Ping) = (w1, Some ps) ->
  m <> OnStakeAction -> (forall a b, m <> Vote a b) ->
  w_total w + attached < U128_BOUND ->
  forall w2,
    (exists ps2, step self w (EvCall u attached locked results' m) = (w2, Some ps2)) <->
    (exists ps2, step self w1 (EvCall u attached locked results' m) = (w2, Some ps2)).
Proof.
  intros H w ST N1 N2 B w2. destruct (reach self w0 evs H) as (W & _). fold w in W.
  assert (PM : is_plain m = false) by (destruct m; try reflexivity; exfalso; [now apply N1|now eapply N2]).
  apply step_call_some in ST. destruct ST as (_ & HL & p' & E & _ & ->).
  destruct (exec_split _ _ _ _ _ E eq_refl) as (_ & _ & p1 & need & HP & -> & ->).
  rewrite outgoing_restake_if, N.add_0_r, N.sub_0_r.
  rewrite (internal_ping_ext _ (call_ctx self w u attached locked results')) in HP;
    [|reflexivity|cbn; lia|cbn; lia|cbn; lia|cbn; lia|cbn; lia].
  unfold step. cbn [w_total w_epoch w_pool].
  destruct (caller_possible self u m && (locked <=? w_total w)) eqn:G;
    [|split; intros [? X]; discriminate X].
  pose proof (exec_after_ping _ _ _ _ m PM HP) as S. unfold call_ctx in S.
  destruct (exec _ (w_pool w) m) as [[q qs]|], (exec _ p1 m) as [[q' qs']|]; cbn in S;
    try contradiction; [|split; intros [? X]; discriminate X].
  destruct S as [-> ->]. destruct (outgoing _ <=? _); split; intros [? X]; inversion X; subst; eauto.
Qed.

(** C13 *)
Lemma owner_only self w0 evs who attached locked results m :
  initial self w0 -> is_owner_call m = true -> who <> owner_id (w_pool w0) ->
  let w := final self w0 evs in
  step self w (EvCall who attached locked results m) = (w, None) /\
  owner_id (w_pool w) = owner_id (w_pool w0).
Proof.
  intros H M NO w. destruct (reach self w0 evs H) as (W & _ & _ & HO & _). fold w in W, HO.
  split; [|exact HO].
  destruct (step self w (EvCall who attached locked results m)) as [w1 [ps|]] eqn:ST.
  - exfalso. apply step_call_some in ST. destruct ST as (_ & _ & p' & E & _ & _).
    apply exec_ok in E. destruct E as (_ & _ & [(_ & _ & X)|(PM & p1 & need & HP & X)]).
    + destruct m; try discriminate M; cbn in X; try contradiction. destruct X as (X & _). congruence.
    + destruct (ping_keeps _ _ _ _ HP) as (HO1 & _).
      destruct m; try discriminate M; cbn in X; try contradiction; destruct X as (X & _); congruence.
  - apply step_call_none in ST. now subst.
Qed.

(** C14 *)
Lemma stake_promises self w0 evs en ps amount key callback :
  initial self w0 -> In en (history self w0 evs) -> en_promises en = Some ps ->
  In (PStake amount key callback) ps ->
  let p := w_pool (en_after en) in
  key = stake_public_key p /\
  (callback = true -> amount = total_staked_balance p /\ paused p = false) /\
  (callback = false ->
   amount = 0 /\
   exists who attached locked results m,
     en_event en = EvCall who attached locked results m /\ (m = PauseStaking \/ m = OnStakeAction)).
Proof.
  intros H IN EP IT p. apply history_in in IN. destruct IN as (e1 & e & e2 & -> & HB & HE & ST).
  rewrite EP in ST. rewrite HE.
  destruct e as [who att loc res m| |]; try (cbn in ST; discriminate).
  apply step_call_some in ST. destruct ST as (_ & _ & p' & E & _ & EW).
  assert (PP : p = p') by (subst p; rewrite EW; reflexivity). rewrite PP. clear PP p.
  assert (NR : forall q, In (PStake amount key callback) (internal_restake q) ->
    key = stake_public_key q /\ callback = true /\ amount = T_ q /\ paused q = false).
  { intros q. unfold internal_restake. destruct (paused q) eqn:PQ; intros X; [destruct X|].
    destruct X as [X|[]]. injection X as <- <- <-. auto. }
  assert (NRI : forall b q, In (PStake amount key callback) (restake_if b q) ->
    key = stake_public_key q /\ callback = true /\ amount = T_ q /\ paused q = false).
  { intros b q. destruct b; cbn; [auto|tauto]. }
  assert (DONE : (key = stake_public_key p' /\ callback = true /\ amount = T_ p' /\ paused p' = false)
    -> key = stake_public_key p' /\
       (callback = true -> amount = T_ p' /\ paused p' = false) /\
       (callback = false -> amount = 0 /\
          exists who0 attached locked results m0,
            EvCall who att loc res m = EvCall who0 attached locked results m0 /\
            (m0 = PauseStaking \/ m0 = OnStakeAction))).
  { intros (-> & -> & -> & X). repeat split; auto; discriminate. }
  apply exec_ok in E. destruct E as (_ & _ & [(PM & -> & X)|(PM & p1 & need & HP & X)]).
  - destruct m; try discriminate PM; cbn in X.
    + destruct X as (_ & x & _ & ->). destruct (_ && _); [|destruct IT].
      destruct IT as [IT|[]]. injection IT as <- <- <-. repeat split; try discriminate.
      exists who, att, loc, res, OnStakeAction. auto.
    + destruct X as (_ & _ & ->). destruct IT as [IT|[]]. discriminate.
  - destruct m; try discriminate PM; cbn in X;
      repeat match goal with H : _ /\ _ |- _ => destruct H | H : exists _, _ |- _ => destruct H end;
      subst ps; try (destruct IT as [IT|IT]; [discriminate IT|]); try solve [eauto].
    destruct IT as [IT|[]]. injection IT as <- <- <-. subst p'.
    repeat split; try discriminate. exists who, att, loc, res, PauseStaking. auto.
Qed.

(** After an accepted stake or unstake call, or any accepted call that distributed rewards, the pool
    restakes its whole staked balance unless it is paused. *)
Lemma restakes self w who attached locked results m w1 ps :
  step self w (EvCall who attached locked results m) = (w1, Some ps) ->
  is_plain m = false ->
  is_stake_call m = true \/ last_epoch_height (w_pool w) <> w_epoch w ->
  paused (w_pool w1) = false ->
  In (PStake (total_staked_balance (w_pool w1)) (stake_public_key (w_pool w1)) true) ps.
Proof.
  intros ST PM C NP. apply step_call_some in ST. destruct ST as (_ & _ & p' & E & _ & ->).
  cbn [w_pool] in *.
  destruct (exec_split _ _ _ _ _ E PM) as (_ & _ & p1 & need & HP & HB).
  assert (IR : In (PStake (T_ p') (stake_public_key p') true) (internal_restake p')).
  { unfold internal_restake. rewrite NP. now left. }
  assert (IRI : is_stake_call m = false ->
    In (PStake (T_ p') (stake_public_key p') true) (restake_if need p')).
  { intros SM. apply internal_ping_ok in HP. destruct HP as [(_ & _ & X)|(-> & _ & _)]; [|exact IR].
    destruct C as [C|C]; [congruence|]. cbn in X. congruence. }
  destruct m; try discriminate PM; cbn in HB;
      repeat match goal with H : _ /\ _ |- _ => destruct H | H : exists _, _ |- _ => destruct H end;
      subst ps; auto; try (right; auto).
  subst p'. cbn in NP. discriminate.
Qed.

(** C15 *)
Lemma silent_unstaked self S0 k w u evs :
  winv S0 k w -> silent u evs ->
  unstaked (acct (w_pool (final self w evs)) u) = unstaked (acct (w_pool w) u) /\
  unstaked_available_epoch_height (acct (w_pool (final self w evs)) u)
    = unstaked_available_epoch_height (acct (w_pool w) u).
Proof.
  revert w k. induction evs as [|e evs IH]; intros w k W S; [cbn; auto|].
  cbn [final]. destruct (step self w e) as [w1 o] eqn:ST. cbn [fst].
  destruct (step_inv _ _ _ _ _ _ _ W ST) as (W1 & _ & _ & F & _).
  destruct (F u) as (F1 & F2 & _).
  { destruct e; cbn; try discriminate. intros X. injection X as ->. eapply S. now left. }
  destruct (IH w1 _ W1) as (G1 & G2).
  { intros a l r m IN. eapply S. right. eauto. }
  rewrite G1, G2. auto.
Qed.

Lemma can_exit self w0 evs u st un locked results :
  initial self w0 -> within_limits self w0 evs -> u <> self ->
  let w := final self w0 evs in
  let e1 := EvCall u 0 locked results UnstakeAll in
  get_account_staked_balance (w_pool w) u = Ok st -> 0 < st ->
  get_account_unstaked_balance (w_pool w) u = Ok un ->
  w_epoch w + NUM_EPOCHS_TO_UNLOCK < U64_BOUND -> locked <= w_total w ->
  exists w1 ps1,
    step self w e1 = (w1, Some ps1) /\
    (within_limits self w0 (evs ++ [e1]) ->
     exists owed,
      get_account_unstaked_balance (w_pool w1) u = Ok owed /\ un + st <= owed /\
      (forall evs2 locked2 results2,
        silent u evs2 -> within_limits self w0 (evs ++ e1 :: evs2) ->
        let w2 := final self w1 evs2 in
        w_epoch w + NUM_EPOCHS_TO_UNLOCK <= w_epoch w2 ->
        locked2 <= w_total w2 -> owed <= w_total w2 - locked2 ->
        exists w3 ps3, step self w2 (EvCall u 0 locked2 results2 WithdrawAll) = (w3, Some ps3) /\
          sent_to u ps3 = owed)).
Proof.
  intros H L NS w e1 VS ST0 VU HE HL. destruct (within_winv _ _ _ H L) as (W & K & B).
  fold w in W, B.
  pose proof (staked_view _ _ _ VS) as (HS & EST). pose proof (unstaked_view _ _ _ VU) as EUN.
  assert (Z : S_ (w_pool w0) <> 0).
  { destruct (pinv_S_cases _ _ (wi_pool _ _ _ W)) as [[_ E]|[Z _]]; auto. }
  assert (CP : forall m, caller_possible self u m = true).
  { intros m. unfold caller_possible. apply orb_true_iff. left. rewrite negb_true_iff.
    apply String.eqb_neq. auto. }
  destruct (exec_unstake_all_accept _ _ _ self u locked results W K Z B HL HE ltac:(lia)) as [p' E].
  assert (ST : step self w e1 = (mkWorld p' (w_total w + 0 - outgoing (internal_restake p'))
     (w_epoch w), Some (internal_restake p'))).
  { apply step_call_intro; auto. rewrite outgoing_restake. lia. }
  eexists. eexists. split; [exact ST|]. intros L1.
  destruct (within_winv _ _ _ H L1) as (W1 & K1 & B1).
  rewrite final_app, final_one in W1, B1. fold w in W1, B1. rewrite ST in W1, B1. cbn [fst] in W1, B1.
  destruct (unstake_all_effect self w0 evs u locked results _ _ H ST) as (_ & _ & UA).
  fold w in UA. specialize (UA st VS). rewrite !get_account_eq in UA.
  destruct (step_avail _ _ _ _ _ _ _ _ _ _ _ W ST) as (_ & AU & _). specialize (AU eq_refl).
  set (w1 := mkWorld p' _ _) in *.
  exists (unstaked (acct (w_pool w1) u)).
  split; [now apply (unstaked_view_intro _ _ _ u W1)|]. split; [lia|].
  intros evs2 l2 r2 SI L2 w2 EP HL2 HB2.
  assert (EQ2 : final self w0 (evs ++ e1 :: evs2) = w2).
  { rewrite final_app. cbn [final]. fold w. rewrite ST. reflexivity. }
  destruct (within_winv _ _ _ H L2) as (W2 & K2 & B2). rewrite EQ2 in W2, B2.
  destruct (silent_unstaked self _ _ w1 u evs2 W1 SI) as (SU & SA). fold w2 in SU, SA.
  destruct (exec_withdraw_all_accept _ _ w2 self u l2 r2 W2 K2 Z B2 HL2) as (p3 & b & E3).
  { rewrite SU. lia. }
  { rewrite SA, AU. exact EP. }
  eexists. eexists. split.
  - apply step_call_intro; eauto. rewrite outgoing_transfer, outgoing_restake_if, SU. lia.
  - rewrite sent_transfer, sent_restake_if, keqb_refl, SU. lia.
Qed.

(** C16 *)
Lemma map_res_map {A B} (f : A -> res B) (g : A -> B) l :
  (forall a, In a l -> f a = Ok (g a)) -> map_res f l = Ok (map g l).
Proof.
  induction l as [|a l IH]; intros H; cbn; auto.
  rewrite H by now left. cbn [bind]. rewrite IH by (intros; apply H; now right). reflexivity.
Qed.

Lemma in_firstn {A} (a : A) n l : In a (firstn n l) -> In a l.
Proof. revert l. induction n; intros [|x l]; cbn; intuition. Qed.
Lemma in_skipn {A} (a : A) n l : In a (skipn n l) -> In a l.
Proof. revert l. induction n; intros [|x l]; cbn; intuition. Qed.

Lemma firstn_min {A} (from limit : N) (l : list A) :
  firstn (N.to_nat (N.min (from + limit) (N.of_nat (List.length l)) - from))
         (skipn (N.to_nat from) l) =
  firstn (N.to_nat limit) (skipn (N.to_nat from) l).
Proof.
  destruct (N.le_gt_cases (from + limit) (N.of_nat (List.length l))) as [L|L].
  - f_equal. lia.
  - rewrite !firstn_all2; auto; rewrite skipn_length; lia.
Qed.

Lemma pagination self w0 evs epoch :
  initial self w0 -> within_limits self w0 evs -> 0 < total_stake_shares (w_pool w0) ->
  let p := w_pool (final self w0 evs) in
  exists l : list human_account,
    NoDup (map h_account_id l) /\
    N.of_nat (List.length l) = get_number_of_accounts p /\
    (forall u, In u (map h_account_id l) <->
       0 < unstaked (internal_get_account p u) + stake_shares (internal_get_account p u)) /\
    (forall h, In h l -> get_account epoch p (h_account_id h) = Ok h) /\
    (forall from_index limit, from_index + limit < U64_BOUND ->
       get_accounts epoch p from_index limit =
         Ok (firstn (N.to_nat limit) (skipn (N.to_nat from_index) l))).
Proof.
  intros H L Z p. destruct (within_winv _ _ _ H L) as (W & K & B).
  assert (Z' : S_ (w_pool w0) <> 0) by lia. clear Z.
  pose proof (wi_pool _ _ _ W) as I. fold p in I.
  set (g := fun u => mkHuman u (unstaked (acct p u))
          (T_ p * stake_shares (acct p u) / S_ p)
          (unstaked_available_epoch_height (acct p u) <=? epoch)).
  assert (G : forall u, get_account epoch p u = Ok (g u)).
  { intros u. apply (get_account_intro _ _ _ u epoch W K B Z'). }
  exists (map g (mkeys (accounts p))).
  assert (MI : map h_account_id (map g (mkeys (accounts p))) = mkeys (accounts p)).
  { rewrite map_map. cbn. apply map_id. }
  rewrite MI. split; [apply I|]. split; [|split; [|split]].
  - unfold get_number_of_accounts, mlen, mkeys. now rewrite !map_length.
  - intros u. rewrite !get_account_eq. unfold acct_of. split.
    + intros IN. apply in_mkeys in IN. destruct IN as [acc G1]. rewrite G1.
      apply (pi_nz _ _ I) in G1. unfold nonzero in G1. lia.
    + intros P. destruct (mget u (accounts p)) eqn:G1; [|cbn in P; lia].
      apply in_mkeys. eauto.
  - intros h IN. apply in_map_iff in IN. destruct IN as (u & <- & _). apply G.
  - intros from limit BD. unfold get_accounts. fold p.
    unfold add64. rewrite add_chk_intro by auto. cbn [bind].
    rewrite firstn_min. rewrite (map_res_map _ g) by auto.
    now rewrite skipn_map, firstn_map.
Qed.

(** C17 *)
Lemma fee_in_unit_interval self w0 evs :
  initial self w0 ->
  let f := get_reward_fee_fraction (w_pool (final self w0 evs)) in
  denominator f <> 0 /\ numerator f <= denominator f.
Proof. intros H f. destruct (reach self w0 evs H) as (W & _). split; apply W. Qed.

(** C18 *)
Lemma stake_action_callback self w who attached locked results w1 ps :
  step self w (EvCall who attached locked results OnStakeAction) = (w1, Some ps) ->
  who = self /\ w_pool w1 = w_pool w /\ w_total w1 = w_total w /\
  exists succeeded, results = [succeeded] /\
    ps = if negb succeeded && (0 <? locked)
         then [PStake 0 (stake_public_key (w_pool w)) false] else [].
Proof.
  intros ST. apply step_call_some in ST. destruct ST as (_ & _ & p' & E & _ & ->).
  apply exec_ok in E. destruct E as (_ & PAY & [(_ & -> & X & r & X1 & ->)|(X & _)]);
    [|discriminate].
  destruct PAY as [PAY|PAY]; [discriminate|]. cbn in PAY, X, X1. subst.
  cbn [ctx_locked call_ctx]. split; [reflexivity|]. split; [reflexivity|].
  split; [cbn; destruct (_ && _); cbn; lia|]. eauto.
Qed.

(** C19 *)
Lemma sum_div_le (l : list (account_id * account)) T S :
  S <> 0 ->
  S * sumN (fun kv => T * stake_shares (snd kv) / S) l
    <= T * sumN (fun kv => stake_shares (snd kv)) l.
Proof.
  intros HS. unfold sumN. induction l as [|kv l IH]; cbn [fold_right]; [lia|].
  pose proof (div_lo (T * stake_shares (snd kv)) S HS). nia.
Qed.

Lemma initial_stake_stays self w0 evs :
  initial self w0 ->
  let p := w_pool (final self w0 evs) in
  sumN (fun kv => total_staked_balance p * stake_shares (snd kv) / total_stake_shares p) (accounts p)
    + total_stake_shares (w_pool w0) <= total_staked_balance p.
Proof.
  intros H p. destruct (reach self w0 evs H) as (W & _). fold p in W.
  pose proof (wi_pool _ _ _ W) as I. fold p in I.
  pose proof (pi_shares _ _ I) as SH. pose proof (pi_price _ _ I) as PR.
  destruct (pinv_S_cases _ _ I) as [[Z E]|[Z E]].
  - rewrite Z, E. assert (X : forall l : list (account_id * account),
      sumN (fun kv => T_ p * stake_shares (snd kv) / 0) l = 0).
    { unfold sumN. induction l; cbn [fold_right]; auto. rewrite IHl, div_zero_r. reflexivity. }
    rewrite X. lia.
  - pose proof (sum_div_le (accounts p) (T_ p) (S_ p) E) as D.
    unfold all_shares in SH. set (A := sumN _ (accounts p)) in *.
    set (Q := sumN (fun kv => stake_shares (snd kv)) (accounts p)) in *.
    apply N.mul_le_mono_pos_l with (p := S_ p); [lia|]. nia.
Qed.

(** C20 *)
Lemma views_never_fail self w0 evs u epoch :
  initial self w0 -> within_limits self w0 evs -> 0 < total_stake_shares (w_pool w0) ->
  let p := w_pool (final self w0 evs) in
  (exists h, get_account epoch p u = Ok h /\ h_account_id h = u) /\
  (exists b, get_account_total_balance p u = Ok b) /\
  (exists b, get_account_staked_balance p u = Ok b) /\
  (exists b, get_account_unstaked_balance p u = Ok b) /\
  (exists b, is_account_unstaked_balance_available epoch p u = Ok b).
Proof.
  intros H L Z p. destruct (within_winv _ _ _ H L) as (W & K & B).
  assert (Z' : S_ (w_pool w0) <> 0) by lia.
  pose proof (get_account_intro _ _ _ u epoch W K B Z') as G. fold p in G.
  repeat split; [eexists; split; [exact G|reflexivity]| | | |].
  - eexists. now apply (total_view_intro _ _ _ u W).
  - eexists. now apply (staked_view_intro _ _ _ u W).
  - eexists. now apply (unstaked_view_intro _ _ _ u W).
  - unfold is_account_unstaked_balance_available. rewrite G. cbn. eauto.
Qed.

Lemma views_fail_forever self w0 evs u epoch :
  initial self w0 -> total_stake_shares (w_pool w0) = 0 ->
  let p := w_pool (final self w0 evs) in
  is_ok (get_account epoch p u) = false /\ is_ok (get_account_total_balance p u) = false.
Proof.
  intros H Z p. destruct (reach self w0 evs H) as (W & _). fold p in W.
  pose proof (pi_zero _ _ (wi_pool _ _ _ W) Z) as ZP. fold p in ZP.
  assert (X : forall e, is_ok (get_account e p u) = false).
  { intros e. unfold get_account, staked_amount_from_num_shares_rounded_down.
    change (total_stake_shares p) with (S_ p). rewrite ZP. reflexivity. }
  split; [apply X|]. unfold get_account_total_balance. specialize (X 0).
  destruct (get_account 0 p u); [discriminate|reflexivity].
Qed.

Lemma started_with self w0 : initial self w0 ->
  w_total w0 = total_stake_shares (w_pool w0) + STAKE_SHARE_PRICE_GUARANTEE_FUND.
Proof. intros H. now destruct (initial_inv _ _ H) as (_ & _ & _ & E & _). Qed.

Lemma views_never_fail_above self w0 evs u epoch :
  initial self w0 -> within_limits self w0 evs -> STAKE_SHARE_PRICE_GUARANTEE_FUND < w_total w0 ->
  let p := w_pool (final self w0 evs) in
  (exists h, get_account epoch p u = Ok h /\ h_account_id h = u) /\
  (exists b, get_account_total_balance p u = Ok b) /\
  (exists b, get_account_staked_balance p u = Ok b) /\
  (exists b, get_account_unstaked_balance p u = Ok b) /\
  (exists b, is_account_unstaked_balance_available epoch p u = Ok b).
Proof. intros H L Z. apply views_never_fail; auto. pose proof (started_with _ _ H). lia. Qed.
Lemma pagination_above self w0 evs epoch :
  initial self w0 -> within_limits self w0 evs -> STAKE_SHARE_PRICE_GUARANTEE_FUND < w_total w0 ->
  let p := w_pool (final self w0 evs) in
  exists l : list human_account,
    NoDup (map h_account_id l) /\
    N.of_nat (List.length l) = get_number_of_accounts p /\
    (forall u, In u (map h_account_id l) <->
       0 < unstaked (internal_get_account p u) + stake_shares (internal_get_account p u)) /\
    (forall h, In h l -> get_account epoch p (h_account_id h) = Ok h) /\
    (forall from_index limit, from_index + limit < U64_BOUND ->
       get_accounts epoch p from_index limit =
         Ok (firstn (N.to_nat limit) (skipn (N.to_nat from_index) l))).
Proof. intros H L Z. apply pagination; auto. pose proof (started_with _ _ H). lia. Qed.

Lemma minimal_views_fail self w0 evs u epoch :
  initial self w0 -> w_total w0 = STAKE_SHARE_PRICE_GUARANTEE_FUND ->
  let p := w_pool (final self w0 evs) in
  is_ok (get_account epoch p u) = false /\ is_ok (get_account_total_balance p u) = false /\
  is_ok (get_account_staked_balance p u) = false /\ is_ok (get_account_unstaked_balance p u) = false /\
  is_ok (is_account_unstaked_balance_available epoch p u) = false.
Proof.
  intros H T p. pose proof (started_with _ _ H) as E.
  assert (X : forall e, is_ok (get_account e p u) = false) by (intros e; apply (views_fail_forever self w0 evs u e H); lia).
  pose proof (X 0) as X0. pose proof (X epoch) as Xe.
  unfold get_account_total_balance, get_account_staked_balance, get_account_unstaked_balance, is_account_unstaked_balance_available.
  destruct (get_account 0 p u); [discriminate|]. destruct (get_account epoch p u); [discriminate|]. repeat split.
Qed.

Lemma creation_accepted_iff c exists_ owner key f :
  is_ok (new c exists_ owner key f) = true <->
  exists_ = false /\ denominator f <> 0 /\ numerator f <= denominator f /\
  is_valid_account_id owner = true /\ 1000000000000 <= ctx_balance c /\ ctx_locked c = 0.
Proof.
  unfold new, fraction_assert_valid, require, sub_chk.
  change STAKE_SHARE_PRICE_GUARANTEE_FUND with 1000000000000.
  destruct exists_; cbn [negb bind is_ok]; [split; [discriminate|intros [? _]; discriminate]|].
  destruct (N.eqb_spec (denominator f) 0); cbn [negb bind is_ok]; [split; [discriminate|tauto]|].
  destruct (N.leb_spec (numerator f) (denominator f)); cbn [bind is_ok]; [|split; [discriminate|lia]].
  destruct (is_valid_account_id owner); cbn [bind is_ok]; [|split; [discriminate|intros (_ & _ & _ & ? & _); discriminate]].
  destruct (N.leb_spec 1000000000000 (ctx_balance c)); cbn [bind is_ok]; [|split; [discriminate|lia]].
  destruct (N.eqb_spec (ctx_locked c) 0); cbn [bind is_ok]; [|split; [discriminate|tauto]].
  tauto.
Qed.

Lemma created_as_asked c exists_ owner key f p ps : new c exists_ owner key f = Ok (p, ps) ->
  get_owner_id p = owner /\ get_staking_key p = key /\ get_reward_fee_fraction p = f /\ paused p = false /\
  get_number_of_accounts p = 0 /\ last_epoch_height p = ctx_epoch c /\
  get_total_staked_balance p + 1000000000000 = ctx_balance c /\
  ps = [PStake (get_total_staked_balance p) key true].
Proof.
  intros E. pose proof (proj1 (creation_accepted_iff c exists_ owner key f)) as A. rewrite E in A.
  destruct (A eq_refl) as (-> & _ & _ & _ & B & _). unfold new in E. inv_res.
  cbn. change STAKE_SHARE_PRICE_GUARANTEE_FUND with 1000000000000 in *. repeat split. lia.
Qed.
