(** Invariants of histories of the staking pool. *)
From Coq Require Import NArith List Bool String Lia Permutation.
From Verif Require Import Prelude PreludeFacts StakingPoolModel StakingPoolSpec ShareMath
  StakingPoolProofs.
Import ListNotations.
Open Scope N_scope.

(** * Inversion of steps *)

Definition call_ctx (self : account_id) (w : world) (who : account_id) (attached locked : N)
    (results : list bool) : ctx :=
  mkCtx self who attached (w_total w - locked + attached) locked (w_epoch w) results.

Lemma step_call_some self w who attached locked results m w' ps :
  step self w (EvCall who attached locked results m) = (w', Some ps) ->
  caller_possible self who m = true /\ locked <= w_total w /\
  exists p', exec (call_ctx self w who attached locked results) (w_pool w) m = Ok (p', ps) /\
    outgoing ps <= w_total w - locked + attached /\
    w' = mkWorld p' (w_total w + attached - outgoing ps) (w_epoch w).
Proof.
  unfold step, call_ctx. destruct (caller_possible self who m && (locked <=? w_total w)) eqn:G;
    [|discriminate].
  destruct (exec _ _ _) as [[p' ps']|]; [|discriminate].
  destruct (N.leb_spec (outgoing ps') (w_total w - locked + attached)); [|discriminate].
  intros E. inversion E; subst. apply andb_true_iff in G. destruct G.
  split; auto. split; [lia|]. eauto.
Qed.

Lemma step_call_none self w who attached locked results m w' :
  step self w (EvCall who attached locked results m) = (w', None) -> w' = w.
Proof.
  unfold step. destruct (_ && _); [|congruence].
  destruct (exec _ _ _) as [[p' ps']|]; [|congruence].
  destruct (_ <=? _); congruence.
Qed.

Lemma step_call_intro self w who attached locked results m p' ps :
  caller_possible self who m = true -> locked <= w_total w ->
  exec (call_ctx self w who attached locked results) (w_pool w) m = Ok (p', ps) ->
  outgoing ps <= w_total w - locked + attached ->
  step self w (EvCall who attached locked results m) =
    (mkWorld p' (w_total w + attached - outgoing ps) (w_epoch w), Some ps).
Proof.
  intros G L E O. unfold step. unfold call_ctx in E. rewrite G.
  destruct (N.leb_spec locked (w_total w)); [|lia]. cbn [andb]. rewrite E.
  destruct (N.leb_spec (outgoing ps) (w_total w - locked + attached)); [reflexivity|lia].
Qed.

(** * The world invariant *)
Record winv (S0 k : N) (w : world) : Prop := {
  wi_pool : pinv S0 (w_pool w);
  wi_cov : covered k (w_pool w);
  wi_last : last_total_balance (w_pool w) <= w_total w;
  wi_epoch : last_epoch_height (w_pool w) <= w_epoch w
}.

Definition event_count (e : event) (o : option (list promise)) : N :=
  match e, o with
  | EvCall _ _ _ _ m, Some _ => stake_count m
  | _, _ => 0
  end.
Definition event_in (u : account_id) (e : event) (o : option (list promise)) : N :=
  match e, o with
  | EvCall who attached _ _ _, Some _ => if String.eqb who u then attached else 0
  | _, _ => 0
  end.
Definition event_out (u : account_id) (o : option (list promise)) : N :=
  match o with Some ps => sent_to u ps | None => 0 end.

Definition event_caller (e : event) : option account_id :=
  match e with EvCall who _ _ _ _ => Some who | _ => None end.

Lemma body_keeps_epoch c need p m p' ps :
  body_effect c need p m p' ps -> last_epoch_height p' = last_epoch_height p.
Proof.
  destruct m; cbn; intros H;
    repeat match goal with H : _ /\ _ |- _ => destruct H | H : exists _, _ |- _ => destruct H end;
    subst; try reflexivity; try contradiction;
    repeat match goal with
    | H : deposit_effect _ _ _ |- _ => destruct H as (_ & ->)
    | H : stake_effect _ _ _ _ _ |- _ => destruct H as (_ & _ & _ & _ & _ & _ & _ & _ & _ & ->)
    | H : unstake_effect _ _ _ _ _ |- _ => destruct H as (_ & _ & _ & _ & _ & _ & _ & _ & _ & ->)
    | H : withdraw_effect _ _ _ _ |- _ => destruct H as (_ & _ & _ & _ & ->)
    end; reflexivity.
Qed.

Lemma exec_epoch c p m p' ps :
  exec c p m = Ok (p', ps) ->
  last_epoch_height p' = if is_plain m then last_epoch_height p else ctx_epoch c.
Proof.
  intros H. apply exec_ok in H. destruct H as (_ & _ & [(-> & -> & _)|(-> & p1 & need & HP & HB)]).
  - reflexivity.
  - rewrite (body_keeps_epoch _ _ _ _ _ _ HB). now apply ping_keeps in HP.
Qed.

Lemma step_inv self S0 k w e w' o :
  winv S0 k w -> step self w e = (w', o) ->
  winv S0 (k + event_count e o) w' /\
  price_le (w_pool w) (w_pool w') /\
  (forall u, value (w_pool w) u + event_in u e o <= value (w_pool w') u + event_out u o) /\
  (forall u, event_caller e <> Some u ->
     unstaked (acct (w_pool w') u) = unstaked (acct (w_pool w) u) /\
     unstaked_available_epoch_height (acct (w_pool w') u)
       = unstaked_available_epoch_height (acct (w_pool w) u) /\
     stake_shares (acct (w_pool w) u) <= stake_shares (acct (w_pool w') u) /\
     (u <> owner_id (w_pool w) -> acct (w_pool w') u = acct (w_pool w) u)) /\
  owner_id (w_pool w') = owner_id (w_pool w) /\ w_epoch w <= w_epoch w'.
Proof.
  intros W H. destruct e as [who attached locked results m|a|n].
  - destruct o as [ps|].
    + apply step_call_some in H. destruct H as (_ & HL & p' & E & HO & ->).
      destruct W as [I C L EP]. cbn [w_pool w_total w_epoch].
      pose proof (exec_epoch _ _ _ _ _ E) as EE.
      destruct (exec_rel _ _ _ _ _ _ I E) as (r & R & HR & HS & _).
      cbn [call_ctx ctx_attached ctx_locked ctx_balance ctx_predecessor ctx_epoch] in *.
      pose proof (cr_last _ _ _ _ _ _ _ _ R) as HLast. cbn [ctx_attached] in *.
      split; [|split; [|split; [|split; [|split]]]].
      * constructor; cbn [w_pool w_total w_epoch event_count].
        -- apply R.
        -- now apply (cr_cov _ _ _ _ _ _ _ _ R).
        -- lia.
        -- destruct (is_plain m); lia.
      * apply R.
      * intros u. pose proof (cr_value _ _ _ _ _ _ _ _ R u) as V.
        cbn [event_in event_out ctx_predecessor call_ctx] in *. rewrite HS.
        rewrite (keqb_sym u who) in *. exact V.
      * intros u NE. apply (cr_others _ _ _ _ _ _ _ _ R). cbn. intros ->. now apply NE.
      * apply R.
      * cbn. lia.
    + apply step_call_none in H. subst w'. cbn [event_count event_in event_out].
      rewrite N.add_0_r. repeat split; try apply W; auto; try lia. apply price_le_refl.
  - cbn in H. inversion H; subst; clear H. destruct W as [I C L EP].
    cbn [event_count event_in event_out w_pool w_total w_epoch]. rewrite N.add_0_r.
    repeat split; cbn; try apply I; auto; try lia. apply price_le_refl.
  - cbn in H. inversion H; subst; clear H. destruct W as [I C L EP].
    cbn [event_count event_in event_out w_pool w_total w_epoch]. rewrite N.add_0_r.
    repeat split; cbn; try apply I; auto; try lia. apply price_le_refl.
Qed.

Lemma initial_inv self w :
  initial self w -> winv (S_ (w_pool w)) 0 w /\ accounts (w_pool w) = [] /\
  T_ (w_pool w) = S_ (w_pool w) /\
  w_total w = S_ (w_pool w) + STAKE_SHARE_PRICE_GUARANTEE_FUND /\ w_total w < U128_BOUND.
Proof.
  intros (c & owner & key & f & ps & _ & _ & HB & HF1 & HF2 & H & HT & HE).
  unfold new, fraction_assert_valid in H. inv_res.
  destruct w as [p total ep]. cbn in *. subst.
  split; [|cbn; repeat split; auto; lia].
  constructor; cbn.
  - constructor; cbn; auto; try lia.
    + constructor.
    + intros a acc; discriminate.
  - unfold covered. cbn. lia.
  - lia.
  - lia.
Qed.

Lemma final_app self w e1 e2 : final self w (e1 ++ e2) = final self (final self w e1) e2.
Proof. revert w. induction e1; cbn; auto. Qed.

Lemma history_app self w e1 e2 :
  history self w (e1 ++ e2) = (history self w e1 ++ history self (final self w e1) e2)%list.
Proof.
  revert w. induction e1 as [|e e1 IH]; intros w; cbn; auto.
  destruct (step self w e) as [w' o] eqn:E. cbn. now rewrite IH.
Qed.

Lemma sumN_app {A} (f : A -> N) l1 l2 : sumN f (l1 ++ l2) = sumN f l1 + sumN f l2.
Proof. unfold sumN. induction l1; cbn in *; lia. Qed.

Lemma stake_calls_cons w e o w' h :
  stake_calls (mkEntry w e o w' :: h) = event_count e o + stake_calls h.
Proof.
  unfold stake_calls, event_count, sumN, stake_count. cbn.
  destruct e, o; try reflexivity; destruct (is_stake_call m); reflexivity.
Qed.
Lemma deposited_cons u w e o w' h :
  deposited u (mkEntry w e o w' :: h) = event_in u e o + deposited u h.
Proof. unfold deposited, event_in, sumN. cbn. now destruct e, o. Qed.
Lemma paid_cons u w e o w' h : paid u (mkEntry w e o w' :: h) = event_out u o + paid u h.
Proof. unfold paid, event_out, sumN. cbn. now destruct o. Qed.

Lemma final_inv self S0 k w evs :
  winv S0 k w ->
  winv S0 (k + stake_calls (history self w evs)) (final self w evs) /\
  price_le (w_pool w) (w_pool (final self w evs)) /\
  (forall u, value (w_pool w) u + deposited u (history self w evs)
             <= value (w_pool (final self w evs)) u + paid u (history self w evs)) /\
  owner_id (w_pool (final self w evs)) = owner_id (w_pool w) /\ w_epoch w <= w_epoch (final self w evs).
Proof.
  revert w k. induction evs as [|e evs IH]; intros w k W.
  - cbn. rewrite N.add_0_r. repeat split; try apply W; auto; try lia. apply price_le_refl.
  - cbn [final history]. destruct (step self w e) as [w1 o] eqn:E. cbn [fst].
    destruct (step_inv _ _ _ _ _ _ _ W E) as (W1 & P1 & V1 & _ & O1 & EP1).
    destruct (IH w1 _ W1) as (W2 & P2 & V2 & O2 & EP2).
    rewrite stake_calls_cons, N.add_assoc.
    split; [exact W2|]. split; [|split; [|split]].
    + eapply price_le_trans; [apply W|apply W1|apply W2|exact P1|exact P2].
    + intros u. rewrite deposited_cons, paid_cons. specialize (V1 u). specialize (V2 u). lia.
    + congruence.
    + lia.
Qed.

(** * Views *)
Lemma staked_view p u b :
  get_account_staked_balance p u = Ok b -> S_ p <> 0 /\ b = T_ p * stake_shares (acct p u) / S_ p.
Proof.
  unfold get_account_staked_balance, get_account. intros H. inv_res. cbn.
  rewrite get_account_eq in *.
  match goal with H : staked_amount_from_num_shares_rounded_down _ _ = _ |- _ =>
    apply amount_down_ok in H; destruct H as (? & -> & _) end. auto.
Qed.
Lemma unstaked_view p u b : get_account_unstaked_balance p u = Ok b -> b = unstaked (acct p u).
Proof.
  unfold get_account_unstaked_balance, get_account. intros H. inv_res. reflexivity.
Qed.
Lemma total_view p u b : get_account_total_balance p u = Ok b -> b = value p u.
Proof.
  unfold get_account_total_balance, get_account. intros H. inv_res. cbn in *.
  rewrite get_account_eq in *.
  match goal with H : staked_amount_from_num_shares_rounded_down _ _ = _ |- _ =>
    apply amount_down_ok in H; destruct H as (? & -> & _) end.
  unfold value. lia.
Qed.

(** Bounds under which no view and no conversion overflows: the invariant with at most [10^12]
    roundings and a token supply that fits in 128 bits. *)
Lemma bounds S0 k w u :
  winv S0 k w -> k <= STAKE_SHARE_PRICE_GUARANTEE_FUND -> w_total w < U128_BOUND ->
  let p := w_pool w in
  T_ p + all_unstaked p <= w_total w /\
  S_ p <= T_ p /\ stake_shares (acct p u) <= S_ p /\
  unstaked (acct p u) <= all_unstaked p /\
  T_ p * stake_shares (acct p u) / S_ p <= T_ p.
Proof.
  intros [I C L E] K B p. unfold covered in C. fold p in C, L, I.
  pose proof (acct_shares_le (accounts p) u). pose proof (acct_unstaked_le (accounts p) u).
  pose proof (pi_shares _ _ I) as SH. pose proof (pi_price _ _ I).
  rewrite all_shares_eq in SH. rewrite all_unstaked_eq in *.
  repeat split; try lia.
  destruct (N.eq_dec (S_ p) 0) as [Z|Z]; [rewrite Z, div_zero_r; lia|].
  apply div_le; auto. rewrite N.mul_comm. apply N.mul_le_mono_r. lia.
Qed.

Lemma get_account_intro S0 k w u epoch :
  winv S0 k w -> k <= STAKE_SHARE_PRICE_GUARANTEE_FUND -> w_total w < U128_BOUND -> S0 <> 0 ->
  get_account epoch (w_pool w) u =
    Ok (mkHuman u (unstaked (acct (w_pool w) u))
          (T_ (w_pool w) * stake_shares (acct (w_pool w) u) / S_ (w_pool w))
          (unstaked_available_epoch_height (acct (w_pool w) u) <=? epoch)).
Proof.
  intros W K B Z. destruct (bounds _ _ _ u W K B) as (B1 & B2 & B3 & B4 & B5).
  destruct (pinv_S_cases _ _ (wi_pool _ _ _ W)) as [[? ?]|[_ HS]]; [congruence|].
  unfold get_account. rewrite get_account_eq. rewrite amount_down_intro; auto; lia.
Qed.

Lemma total_view_intro S0 k w u :
  winv S0 k w -> k <= STAKE_SHARE_PRICE_GUARANTEE_FUND -> w_total w < U128_BOUND -> S0 <> 0 ->
  get_account_total_balance (w_pool w) u = Ok (value (w_pool w) u).
Proof.
  intros W K B Z. destruct (bounds _ _ _ u W K B) as (B1 & B2 & B3 & B4 & B5).
  unfold get_account_total_balance. rewrite (get_account_intro _ _ _ _ _ W K B Z). cbn [bind].
  cbn [h_unstaked_balance h_staked_balance]. apply add_chk_intro. lia.
Qed.

Lemma staked_view_intro S0 k w u :
  winv S0 k w -> k <= STAKE_SHARE_PRICE_GUARANTEE_FUND -> w_total w < U128_BOUND -> S0 <> 0 ->
  get_account_staked_balance (w_pool w) u =
    Ok (T_ (w_pool w) * stake_shares (acct (w_pool w) u) / S_ (w_pool w)).
Proof.
  intros W K B Z. unfold get_account_staked_balance.
  now rewrite (get_account_intro _ _ _ _ _ W K B Z).
Qed.

Lemma unstaked_view_intro S0 k w u :
  winv S0 k w -> k <= STAKE_SHARE_PRICE_GUARANTEE_FUND -> w_total w < U128_BOUND -> S0 <> 0 ->
  get_account_unstaked_balance (w_pool w) u = Ok (unstaked (acct (w_pool w) u)).
Proof.
  intros W K B Z. unfold get_account_unstaked_balance.
  now rewrite (get_account_intro _ _ _ _ _ W K B Z).
Qed.
