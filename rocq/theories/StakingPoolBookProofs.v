(** The staking pool does exactly what its book says. *)
From Coq Require Import NArith List Bool String Lia Permutation.
From Verif Require Import Prelude PreludeFacts StakingPoolModel StakingPoolSpec ShareMath
  StakingPoolProofs StakingPoolHistory StakingPoolAccept StakingPoolFacts StakingPoolBook.
Import ListNotations.
Open Scope N_scope.

Definition osame (o o' : option book) : Prop :=
  match o, o' with
  | Some b, Some b' => same b b'
  | None, None => True
  | _, _ => False
  end.

Lemma same_refl b : same b b.
Proof. unfold same. auto 20. Qed.
Lemma same_trans b1 b2 b3 : same b1 b2 -> same b2 b3 -> same b1 b3.
Proof.
  intros (F & A1 & A2 & A3 & A4 & A5 & A6 & A7 & A8) (G & B1 & B2 & B3 & B4 & B5 & B6 & B7 & B8).
  unfold same. split.
  - intros u. destruct (F u) as (X1 & X2 & X3). destruct (G u) as (Y1 & Y2 & Y3).
    repeat split; congruence.
  - repeat split; congruence.
Qed.

Ltac same_open H :=
  let F := fresh "F" in
  destruct H as (F & ? & ? & ? & ? & ? & ? & ? & ?).

Lemma write_same u un sh av b b' : same b b' -> same (write u un sh av b) (write u un sh av b').
Proof.
  intros H. same_open H. unfold same, write. cbn. split; [|auto 20].
  intros v. destruct (F v) as (? & ? & ?). destruct (String.eqb v u); auto.
Qed.
Lemma totals_same t s k b b' : same b b' -> same (totals t s k b) (totals t s k b').
Proof. intros H. same_open H. unfold same, totals. cbn. auto 20. Qed.
Lemma rules_same f k q b b' : same b b' -> same (rules f k q b) (rules f k q b').
Proof. intros H. same_open H. unfold same, rules. cbn. auto 20. Qed.

Lemma put_in_same u a b b' : same b b' -> same (put_in u a b) (put_in u a b').
Proof.
  intros H. pose proof H as S. same_open H. destruct (F u) as (E1 & E2 & E3). unfold put_in.
  rewrite E1, E2, E3, H0, H1, H. now apply totals_same, write_same.
Qed.
Lemma take_out_same u a e b b' : same b b' -> osame (take_out u a e b) (take_out u a e b').
Proof.
  intros H. pose proof H as S. same_open H. destruct (F u) as (E1 & E2 & E3). unfold take_out.
  rewrite E1, E2, E3, H0, H1, H. destruct (_ && _); cbn; auto. now apply totals_same, write_same.
Qed.
Lemma buy_same u a b b' : same b b' -> osame (buy u a b) (buy u a b').
Proof.
  intros H. pose proof H as S. same_open H. destruct (F u) as (E1 & E2 & E3). unfold buy.
  rewrite E1, E2, E3, H0, H1, H. destruct (_ && _); cbn; auto. now apply totals_same, write_same.
Qed.
Lemma worth_same u b b' : same b b' -> worth u b = worth u b'.
Proof. intros H. same_open H. destruct (F u) as (E1 & E2 & E3). unfold worth. congruence. Qed.
Lemma sell_same u a e b b' : same b b' -> osame (sell u a e b) (sell u a e b').
Proof.
  intros H. pose proof H as S. pose proof (worth_same u _ _ H) as W.
  same_open H. destruct (F u) as (E1 & E2 & E3). unfold sell.
  rewrite W, E1, E2, H0, H1, H. destruct (_ && _); cbn; auto. now apply totals_same, write_same.
Qed.

(** Saving a record is writing a line. *)
Lemma read_save p u acc T S L :
  NoDup (mkeys (accounts p)) ->
  same (read (mkPool (owner_id p) (stake_public_key p) (last_epoch_height p) L S T
               (reward_fee_fraction p) (save_accounts u acc (accounts p)) (paused p)))
       (totals T S L (write u (unstaked acc) (stake_shares acc)
                        (unstaked_available_epoch_height acc) (read p))).
Proof.
  intros ND. unfold same, read, totals, write. cbn. split; [|auto 20].
  intros v. unfold record_of. cbn [accounts].
  fold (acct_of (save_accounts u acc (accounts p)) v). fold (acct_of (accounts p) v).
  change (mkAccount 0 0 0) with default_account.
  fold (acct_of (save_accounts u acc (accounts p)) v). fold (acct_of (accounts p) v).
  rewrite acct_of_save by auto. change (keqb v u) with (String.eqb v u).
  destruct (String.eqb v u); auto.
  destruct (nonzero acc) eqn:E.
  - unfold nonzero in E. repeat split; auto.
    destruct (N.eqb_spec (unstaked acc) 0), (N.eqb_spec (stake_shares acc) 0); auto. cbn. lia.
  - apply nonzero_false in E. destruct E as [-> ->]. auto.
Qed.

Lemma read_line p u :
  b_unstaked (read p) u = unstaked (acct p u) /\ b_shares (read p) u = stake_shares (acct p u) /\
  b_available (read p) u = unstaked_available_epoch_height (acct p u).
Proof. repeat split. Qed.

Definition fits_op (r : res pool) (o : option book) : Prop :=
  match r, o with
  | Ok p', Some b' => same (read p') b'
  | Panic _, None => True
  | _, _ => False
  end.

Lemma withdraw_book S0 k c p a :
  pinv S0 p -> covered k p -> k <= STAKE_SHARE_PRICE_GUARANTEE_FUND ->
  match internal_withdraw c p a, take_out (ctx_predecessor c) a (ctx_epoch c) (read p) with
  | Ok (p', ps), Some b' => ps = [PTransfer (ctx_predecessor c) a] /\ same (read p') b'
  | Panic _, None => True
  | _, _ => False
  end.
Proof.
  intros I C K. set (u := ctx_predecessor c). unfold take_out.
  destruct (read_line p u) as (-> & -> & ->).
  destruct ((0 <? a) && (a <=? unstaked (acct p u))
            && (unstaked_available_epoch_height (acct p u) <=? ctx_epoch c)) eqn:G.
  - destruct (withdraw_accept k c p a C K) as [p' E]; try (fold u; lia). rewrite E.
    apply internal_withdraw_ok in E. destruct E as (_ & E). split; [reflexivity|].
    destruct E as (_ & _ & _ & _ & ->). fold u.
    apply (read_save p u (mkAccount _ _ _)). apply I.
  - destruct (internal_withdraw c p a) as [[p' ps]|] eqn:E; auto.
    apply internal_withdraw_ok in E. destruct E as (_ & E). destruct E as (A1 & A2 & A3 & _).
    fold u in A2, A3. lia.
Qed.

Lemma deposit_book S0 k c p :
  pinv S0 p -> covered k p -> k <= STAKE_SHARE_PRICE_GUARANTEE_FUND ->
  last_total_balance p + ctx_attached c < U128_BOUND ->
  exists p', internal_deposit c p = Ok (p', ctx_attached c) /\ pinv S0 p' /\ covered k p' /\
    last_total_balance p' = last_total_balance p + ctx_attached c /\
    same (read p') (put_in (ctx_predecessor c) (ctx_attached c) (read p)).
Proof.
  intros I C K B. destruct (deposit_accept k c p C K B) as [p' E]. exists p'. split; [exact E|].
  apply internal_deposit_ok in E. destruct E as (_ & E).
  pose proof (deposit_inv _ _ _ _ I E) as (I' & HT & HS & HL & HU & _).
  split; [exact I'|]. split; [unfold covered in *; lia|]. split; [exact HL|].
  destruct E as (_ & ->). unfold put_in.
  destruct (read_line p (ctx_predecessor c)) as (-> & -> & ->).
  apply (read_save p (ctx_predecessor c) (mkAccount _ _ _)). apply I.
Qed.

(** Staking an amount is accepted exactly when a share can be bought and paid for. *)
Lemma stake_accept' S0 k c p a :
  pinv S0 p -> covered k p -> k <= STAKE_SHARE_PRICE_GUARANTEE_FUND -> S0 <> 0 ->
  last_total_balance p + 1 < U128_BOUND -> a < U128_BOUND ->
  0 < S_ p * a / T_ p ->
  T_ p * (S_ p * a / T_ p) / S_ p <= unstaked (acct p (ctx_predecessor c)) ->
  exists p', internal_stake c p a = Ok p'.
Proof.
  intros I C K Z LB HB Hn0 HU.
  set (u := ctx_predecessor c) in *.
  pose proof (covered_le k p u C K) as CL. pose proof (shares_le _ _ u I) as SL.
  pose proof (pi_price _ _ I) as SP. pose proof (pi_T _ _ I) as TB.
  assert (HS : S_ p <> 0) by lia. assert (HT : T_ p <> 0) by lia.
  assert (Ha0 : 0 < a).
  { destruct (N.eq_dec a 0) as [->|]; [|lia]. rewrite N.mul_0_r, N.div_0_l in Hn0 by auto. lia. }
  unfold internal_stake. fold u. rewrite get_account_eq. ok_step.
  set (n := S_ p * a / T_ p) in *.
  assert (Hna : n <= a) by (apply div_le; auto; nia).
  rewrite shares_down_intro; auto; try lia; fold n; try lia. cbn [bind]. ok_step.
  assert (Hcn : n <= T_ p * n / S_ p) by (apply div_ge; auto; nia).
  pose proof (cdiv_le_div1 (T_ p * n) (S_ p) HS) as Hs.
  rewrite amount_down_intro; auto; try lia. cbn [bind]. do 4 ok_step.
  rewrite save_account_eq. cbn [T_ S_ set_accounts].
  rewrite amount_up_intro; cbn [T_ S_ set_accounts]; auto; try lia. cbn [bind].
  ok_step. cbn [S_ set_total_staked set_accounts]. ok_step. eauto.
Qed.

Lemma stake_book S0 k c p a :
  pinv S0 p -> covered k p -> k <= STAKE_SHARE_PRICE_GUARANTEE_FUND -> S0 <> 0 ->
  last_total_balance p + 1 < U128_BOUND -> a < U128_BOUND ->
  fits_op (internal_stake c p a) (buy (ctx_predecessor c) a (read p)).
Proof.
  intros I C K Z LB HB. set (u := ctx_predecessor c). unfold buy.
  destruct (read_line p u) as (-> & -> & ->). cbn [read b_staked b_issued b_known].
  destruct ((0 <? S_ p * a / T_ p) && (T_ p * (S_ p * a / T_ p) / S_ p <=? unstaked (acct p u)))
    eqn:G.
  - destruct (stake_accept' S0 k c p a I C K Z LB HB) as [p' E]; try (fold u; lia). rewrite E.
    apply internal_stake_ok in E. destruct E as (n & E).
    destruct E as (_ & _ & _ & -> & _ & _ & _ & _ & _ & ->). cbn [fits_op]. fold u.
    apply (read_save p u (mkAccount _ _ _)). apply I.
  - destruct (internal_stake c p a) as [p'|] eqn:E; cbn; auto.
    apply internal_stake_ok in E. destruct E as (n & E).
    destruct E as (_ & _ & _ & -> & A1 & _ & A2 & _). fold u in A2. lia.
Qed.

Lemma unstake_book S0 k c p a :
  pinv S0 p -> covered k p -> k <= STAKE_SHARE_PRICE_GUARANTEE_FUND -> S0 <> 0 ->
  ctx_epoch c + NUM_EPOCHS_TO_UNLOCK < U64_BOUND ->
  fits_op (inner_unstake c p a) (sell (ctx_predecessor c) a (ctx_epoch c) (read p)).
Proof.
  intros I C K Z HE. set (u := ctx_predecessor c). unfold sell, worth.
  destruct (read_line p u) as (-> & -> & _). cbn [read b_staked b_issued b_known].
  change rounded_up with cdiv.
  destruct ((0 <? a) && (a <=? T_ p * stake_shares (acct p u) / S_ p)) eqn:G.
  - destruct (unstake_accept S0 k c p a I C K Z) as [p' E]; try (fold u; lia); auto. rewrite E.
    apply inner_unstake_ok in E. destruct E as (n & E).
    destruct E as (_ & _ & _ & -> & _ & _ & _ & _ & _ & ->). cbn [fits_op]. fold u.
    apply (read_save p u (mkAccount _ _ _)). apply I.
  - destruct (inner_unstake c p a) as [p'|] eqn:E; cbn; auto.
    apply inner_unstake_ok in E. destruct E as (n & E).
    destruct E as (HT & HS & A0 & -> & _ & _ & A2 & _). fold u in A2.
    apply shares_needed_iff in A2; auto. lia.
Qed.

(** Rewards. *)
Lemma ping_book S0 k w self who attached locked results :
  winv S0 k w -> k <= STAKE_SHARE_PRICE_GUARANTEE_FUND -> S0 <> 0 ->
  w_total w + attached < U128_BOUND -> locked <= w_total w ->
  exists p1,
    internal_ping (call_ctx self w who attached locked results) (w_pool w)
      = Ok (p1, negb (last_epoch_height (w_pool w) =? w_epoch w)) /\
    pinv S0 p1 /\ covered k p1 /\ last_total_balance p1 <= w_total w /\
    owner_id p1 = owner_id (w_pool w) /\ paused p1 = paused (w_pool w) /\
    stake_public_key p1 = stake_public_key (w_pool w) /\
    reward_fee_fraction p1 = reward_fee_fraction (w_pool w) /\
    same (read p1) (distribute (w_total w) (w_epoch w) (read (w_pool w))).
Proof.
  intros W K Z B HL.
  destruct (winv_ping S0 k w self who attached locked results W K Z B HL)
    as (p1 & b & H & _ & I1 & C1 & L1 & _ & _).
  pose proof (ping_keeps _ _ _ _ H) as (K1 & K2 & K3 & K4 & K5).
  exists p1. pose proof (internal_ping_ok _ _ _ _ H) as HP. cbn [ctx_epoch call_ctx] in HP.
  assert (EB : b = negb (last_epoch_height (w_pool w) =? w_epoch w)).
  { destruct HP as [(-> & _ & ->)|(-> & NE & _)]; [now rewrite N.eqb_refl|].
    now rewrite (proj2 (N.eqb_neq _ _) NE). }
  split; [now rewrite <- EB|]. do 7 (split; [assumption|]).
  unfold distribute. cbn [read b_epoch].
  destruct HP as [(_ & -> & ->)|(_ & NE & PE)]; [rewrite N.eqb_refl; apply same_refl|].
  rewrite (proj2 (N.eqb_neq _ _) NE).
  destruct PE as (r & f & n & R & F & _ & _ & N & _ & _ & _ & ->).
  cbn [ctx_locked ctx_balance ctx_attached call_ctx ctx_epoch] in *.
  assert (ER : w_total w - last_total_balance (w_pool w) = r) by lia.
  assert (EL : last_total_balance (w_pool w) + r = w_total w) by lia.
  cbn zeta.
  cbn [read b_known b_fee b_issued b_staked b_owner]. rewrite ER, <- F, <- N, EL.
  set (p := w_pool w) in *. clear H ER F N R.
  unfold same. cbn. split; [|auto 20]. intros v. unfold record_of. cbn [accounts].
  change (mkAccount 0 0 0) with default_account. fold (acct_of (accounts p) v).
  destruct (N.ltb_spec 0 n) as [Hn|Hn].
  - match goal with |- context [save_accounts ?u ?acc ?m] =>
      fold (acct_of (save_accounts u acc m) v); rewrite (acct_of_save m u acc v)
        by apply (pi_nodup _ _ (wi_pool _ _ _ W)) end.
    change (keqb v (owner_id p)) with (String.eqb v (owner_id p)).
    unfold nonzero. cbn [unstaked stake_shares unstaked_available_epoch_height].
    destruct (String.eqb_spec v (owner_id p)) as [->|]; auto.
    destruct (N.ltb_spec 0 (stake_shares (acct_of (accounts p) (owner_id p)) + n)); [|lia].
    rewrite orb_true_r. auto.
  - fold (acct_of (accounts p) v). assert (n = 0) as -> by lia. rewrite N.add_0_r.
    destruct (String.eqb v (owner_id p)); auto.
Qed.

Lemma restake_same p b : same (read p) b -> internal_restake p = stake_it b.
Proof.
  intros (_ & HT & _ & _ & _ & _ & _ & HK & HP). cbn in HT, HK, HP.
  unfold internal_restake, stake_it. now rewrite HT, HK, HP.
Qed.

(** What a call of the contract must look like for the step to agree with the book. *)
Definition matches (bal : N) (r : res (pool * list promise))
    (says : option (book * list promise)) : Prop :=
  match r with
  | Panic _ => says = None
  | Ok (p', ps) =>
      if outgoing ps <=? bal then exists b', says = Some (b', ps) /\ same (read p') b'
      else says = None
  end.

Lemma matches_step self w who attached locked results m says :
  caller_possible self who m = true -> locked <= w_total w ->
  matches (w_total w - locked + attached)
    (exec (call_ctx self w who attached locked results) (w_pool w) m) says ->
  agrees w attached (step self w (EvCall who attached locked results m)) says.
Proof.
  intros G L M. unfold step. rewrite G. destruct (N.leb_spec locked (w_total w)); [|lia].
  cbn [andb]. unfold call_ctx in M.
  destruct (exec _ _ _) as [[p' ps]|]; cbn [matches] in M.
  - destruct (outgoing ps <=? w_total w - locked + attached).
    + destruct M as (b' & -> & S). unfold agrees. cbn. auto.
    + subst says. reflexivity.
  - subst says. reflexivity.
Qed.

Lemma matches_op bal (r : res pool) o o' :
  fits_op r o -> osame o o' ->
  matches bal (bind r (fun p' => Ok (p', internal_restake p')))
    (and_then o' (fun b' => (b', stake_it b'))).
Proof.
  intros H S. destruct r as [p'|], o as [b|], o' as [b'|]; cbn in H, S; try contradiction;
    cbn; auto.
  rewrite outgoing_restake. destruct (N.leb_spec 0 bal); [|lia].
  pose proof (same_trans _ _ _ H S) as HS. exists b'. rewrite (restake_same _ _ HS). auto.
Qed.

Lemma matches_quiet bal p b need :
  same (read p) b ->
  matches bal (Ok (p, restake_if need p)) (Some (b, if need then stake_it b else [])).
Proof.
  intros S. cbn. rewrite outgoing_restake_if. destruct (N.leb_spec 0 bal); [|lia].
  exists b. split; auto. unfold restake_if. now rewrite (restake_same _ _ S).
Qed.
Lemma matches_loud bal p b :
  same (read p) b -> matches bal (Ok (p, internal_restake p)) (Some (b, stake_it b)).
Proof. apply (matches_quiet bal p b true). Qed.

Lemma matches_pay S0 k bal c p1 b1 a need :
  pinv S0 p1 -> covered k p1 -> k <= STAKE_SHARE_PRICE_GUARANTEE_FUND -> same (read p1) b1 ->
  matches bal
    (let! '(p, out) := internal_withdraw c p1 a in Ok (p, (out ++ restake_if need p)%list))
    (and_then (if a <=? bal then take_out (ctx_predecessor c) a (ctx_epoch c) b1 else None)
       (fun b' => (b', PTransfer (ctx_predecessor c) a :: if need then stake_it b' else []))).
Proof.
  intros I C K S. pose proof (withdraw_book S0 k c p1 a I C K) as W.
  pose proof (take_out_same (ctx_predecessor c) a (ctx_epoch c) _ _ S) as T.
  destruct (internal_withdraw c p1 a) as [[p' ps]|];
    destruct (take_out _ _ _ (read p1)) as [b|]; try contradiction;
    destruct (take_out _ _ _ b1) as [b'|]; try contradiction; cbn [bind].
  - destruct W as [-> W]. cbn [osame] in T. pose proof (same_trans _ _ _ W T) as ST.
    cbn [matches app]. rewrite outgoing_transfer, outgoing_restake_if, N.add_0_r.
    destruct (a <=? bal); cbn [and_then]; auto. exists b'. split; auto.
    unfold restake_if. now rewrite (restake_same _ _ ST).
  - destruct (a <=? bal); reflexivity.
Qed.

Lemma bind_ok {A B} (a : A) (f : A -> res B) : bind (Ok a) f = f a.
Proof. reflexivity. Qed.

Lemma exec_book S0 k w self who attached locked results m :
  winv S0 k w -> k <= STAKE_SHARE_PRICE_GUARANTEE_FUND -> S0 <> 0 ->
  w_total w + attached + 1 < U128_BOUND -> locked <= w_total w ->
  w_epoch w + NUM_EPOCHS_TO_UNLOCK < U64_BOUND ->
  caller_possible self who m = true ->
  matches (w_total w - locked + attached)
    (exec (call_ctx self w who attached locked results) (w_pool w) m)
    (play self who attached (w_total w) locked (w_epoch w) results m (read (w_pool w))).
Proof.
  intros W K Z B HL HE G.
  destruct (ping_book S0 k w self who attached locked results W K Z ltac:(lia) HL)
    as (p1 & HP & I1 & C1 & L1 & O1 & Q1 & K1 & F1 & S1).
  unfold play. set (b1 := distribute (w_total w) (w_epoch w) (read (w_pool w))) in *.
  assert (TY : typed m = args_fit m) by (destruct m; reflexivity).
  assert (TD : takes_deposit m = payable m) by (destruct m; reflexivity).
  rewrite TY, TD. unfold exec. cbn [ctx_attached call_ctx].
  destruct (args_fit m) eqn:AF; [|reflexivity]. cbn [negb orb]. cbn [require bind].
  destruct (payable m || (attached =? 0)) eqn:PA.
  2: { cbn [require bind matches].
       destruct (payable m); [discriminate|]. cbn in PA |- *. now rewrite PA. }
  assert (PB : negb (payable m) && negb (attached =? 0) = false)
    by (destruct (payable m); cbn in *; auto; now rewrite PA).
  rewrite PB. clear PB. cbn [require bind].
  fold (call_ctx self w who attached locked results).
  set (c := call_ctx self w who attached locked results) in *.
  assert (CP : ctx_predecessor c = who) by reflexivity.
  assert (CE : ctx_epoch c = w_epoch w) by reflexivity.
  assert (CA : ctx_attached c = attached) by reflexivity.
  change (b_epoch (read (w_pool w))) with (last_epoch_height (w_pool w)).
  change (b_owner (read (w_pool w))) with (owner_id (w_pool w)).
  change (b_paused (read (w_pool w))) with (paused (w_pool w)).
  change (b_key (read (w_pool w))) with (stake_public_key (w_pool w)).
  set (need := negb (last_epoch_height (w_pool w) =? w_epoch w)) in *.
  assert (BU : b_unstaked b1 who = unstaked (acct p1 who)).
  { symmetry. apply (proj1 S1 who). }
  assert (BW : worth who b1 = T_ p1 * stake_shares (acct p1 who) / S_ p1).
  { rewrite <- (worth_same who _ _ S1). reflexivity. }
  assert (UB : unstaked (acct p1 who) < U128_BOUND).
  { pose proof (covered_le k p1 who C1 K). lia. }
  assert (NS : m <> OnStakeAction -> String.eqb who self = false).
  { unfold caller_possible in G. destruct (String.eqb who self); auto. cbn in G.
    destruct m; try discriminate; congruence. }
  destruct m;
    try (match goal with |- context [OnStakeAction] => fail 1 | _ => idtac end;
         rewrite (NS ltac:(discriminate)));
    cbn [payable args_fit] in *.
  - (* ping *) unfold ping. rewrite HP, bind_ok. now apply matches_quiet.
  - (* deposit *) unfold deposit. rewrite HP, bind_ok.
    destruct (deposit_book S0 k c p1 I1 C1 K) as (p2 & D & I2 & C2 & L2 & S2); [rewrite CA; lia|].
    rewrite D, bind_ok. apply matches_quiet. rewrite CP, CA in S2.
    eapply same_trans; [exact S2|]. now apply put_in_same.
  - (* deposit_and_stake *) unfold deposit_and_stake. rewrite HP, bind_ok.
    destruct (deposit_book S0 k c p1 I1 C1 K) as (p2 & D & I2 & C2 & L2 & S2); [rewrite CA; lia|].
    rewrite D, bind_ok. rewrite CA in *. rewrite CP in S2.
    eapply matches_op; [apply (stake_book S0 k); auto; lia|]. rewrite CP. apply buy_same.
    eapply same_trans; [exact S2|]. now apply put_in_same.
  - (* withdraw_all *) unfold withdraw_all. rewrite HP, bind_ok. rewrite BU, get_account_eq, CP.
    replace (w_total w - locked + attached) with (w_total w - locked) by lia.
    now apply (matches_pay S0 k (w_total w - locked) c p1 b1).
  - (* withdraw *) unfold withdraw. rewrite HP, bind_ok.
    replace (w_total w - locked + attached) with (w_total w - locked) by lia.
    now apply (matches_pay S0 k (w_total w - locked) c p1 b1).
  - (* stake_all *) unfold stake_all. rewrite HP, bind_ok. rewrite BU, get_account_eq, CP.
    eapply matches_op; [apply (stake_book S0 k); auto; lia|]. rewrite CP. now apply buy_same.
  - (* stake *) unfold stake. rewrite HP, bind_ok.
    eapply matches_op; [apply (stake_book S0 k); auto; unfold fits in AF; lia|].
    rewrite CP. now apply buy_same.
  - (* unstake_all *) unfold unstake_all. rewrite HP, bind_ok. rewrite BW, get_account_eq, CP.
    pose proof (shares_le _ _ who I1). pose proof (pi_price _ _ I1). pose proof (pi_T _ _ I1).
    assert (T_ p1 * stake_shares (acct p1 who) / S_ p1 <= T_ p1) by (apply div_le; nia).
    rewrite amount_down_intro by lia. rewrite bind_ok.
    eapply matches_op; [apply (unstake_book S0 k); auto|]. rewrite CP, CE. now apply sell_same.
  - (* unstake *) unfold unstake. rewrite HP, bind_ok.
    eapply matches_op; [apply (unstake_book S0 k); auto|]. rewrite CP, CE. now apply sell_same.
  - (* on_stake_action *) unfold on_stake_action. change (ctx_current c) with self. rewrite CP.
    rewrite String.eqb_sym. destruct (String.eqb who self); [|reflexivity].
    cbn [require bind]. change (ctx_results c) with results. change (ctx_locked c) with locked.
    destruct results as [|r [|]]; try reflexivity. cbn [matches].
    assert (OZ : outgoing (if negb r && (0 <? locked)
                           then [PStake 0 (stake_public_key (w_pool w)) false] else []) = 0)
      by now destruct (negb r && _).
    rewrite OZ. destruct (N.leb_spec 0 (w_total w - locked + attached)); [|lia].
    eexists. split; [reflexivity|]. apply same_refl.
  - (* update_staking_key *) unfold update_staking_key, assert_owner. rewrite CP.
    destruct (String.eqb who (owner_id (w_pool w))); [|reflexivity].
    cbn [require]. rewrite bind_ok, HP, bind_ok. apply matches_loud.
    pose proof S1 as S2. same_open S2. cbn in *.
    unfold same, rules. cbn. auto 20.
  - (* update_reward_fee_fraction *)
    unfold update_reward_fee_fraction, assert_owner, fraction_assert_valid. rewrite CP.
    destruct (String.eqb who (owner_id (w_pool w))); [|reflexivity].
    cbn [require]. rewrite bind_ok. cbn [andb].
    destruct (N.eqb_spec (denominator f) 0) as [D|D].
    { rewrite D. reflexivity. }
    destruct (N.ltb_spec 0 (denominator f)); [|lia]. cbn [negb require bind andb].
    destruct (numerator f <=? denominator f); [|reflexivity]. cbn [require bind].
    rewrite HP, bind_ok. apply matches_quiet.
    pose proof S1 as S2. same_open S2. cbn in *. unfold same, rules. cbn. auto 20.
  - (* vote *) unfold vote, assert_owner. rewrite CP.
    destruct (String.eqb who (owner_id (w_pool w))); [|reflexivity]. cbn [require andb].
    rewrite bind_ok. destruct (is_valid_account_id voting_account_id); [|reflexivity].
    cbn [require bind matches outgoing fold_right].
    destruct (N.leb_spec 0 (w_total w - locked + attached)); [|lia].
    eexists. split; [reflexivity|]. apply same_refl.
  - (* pause *) unfold pause_staking, assert_owner. rewrite CP.
    destruct (String.eqb who (owner_id (w_pool w))); [|reflexivity]. cbn [require andb].
    rewrite bind_ok. destruct (paused (w_pool w)); [reflexivity|]. cbn [negb require].
    rewrite bind_ok, HP, bind_ok. cbn [matches outgoing fold_right].
    destruct (N.leb_spec 0 (w_total w - locked + attached)); [|lia].
    pose proof S1 as S2. same_open S2. eexists. cbn in *. split; [repeat f_equal; congruence|].
    unfold same, rules. cbn. auto 20.
  - (* resume *) unfold resume_staking, assert_owner. rewrite CP.
    destruct (String.eqb who (owner_id (w_pool w))); [|reflexivity]. cbn [require andb].
    rewrite bind_ok. destruct (paused (w_pool w)); [|reflexivity]. cbn [require].
    rewrite bind_ok, HP, bind_ok. apply matches_loud.
    pose proof S1 as S2. same_open S2. cbn in *. unfold same, rules. cbn. auto 20.
Qed.

(** * The book does not care how its lines are kept *)

Lemma distribute_same t e b b' : same b b' -> same (distribute t e b) (distribute t e b').
Proof.
  intros H. pose proof H as S. same_open H. unfold distribute.
  replace (b_epoch b') with (b_epoch b) by auto. destruct (b_epoch b =? e); [exact S|].
  cbn zeta. unfold same. cbn.
  replace (b_fee b') with (b_fee b) by auto. replace (b_staked b') with (b_staked b) by auto.
  replace (b_issued b') with (b_issued b) by auto. replace (b_known b') with (b_known b) by auto.
  replace (b_owner b') with (b_owner b) by auto. split; [|auto 20].
  intros v. destruct (F v) as (E1 & E2 & E3). rewrite E2. auto.
Qed.

Lemma stake_it_same b b' : same b b' -> stake_it b = stake_it b'.
Proof.
  intros (_ & HT & _ & _ & _ & _ & _ & HK & HP). unfold stake_it. now rewrite HT, HK, HP.
Qed.

Definition psame (o o' : option (book * list promise)) : Prop :=
  match o, o' with
  | Some (b, ps), Some (b', ps') => ps = ps' /\ same b b'
  | None, None => True
  | _, _ => False
  end.

Lemma and_then_same o o' f f' :
  osame o o' ->
  (forall b b', same b b' -> snd (f b) = snd (f' b') /\ same (fst (f b)) (fst (f' b'))) ->
  psame (and_then o f) (and_then o' f').
Proof.
  intros H F. destruct o as [b|], o' as [b'|]; cbn in *; try contradiction; auto.
  specialize (F b b' H). destruct (f b), (f' b'). cbn in *. auto.
Qed.

Lemma play_same self u attached t locked e results m b b' :
  same b b' ->
  psame (play self u attached t locked e results m b) (play self u attached t locked e results m b').
Proof.
  intros H. pose proof (distribute_same t e _ _ H) as D. unfold play.
  set (b1 := distribute t e b) in *. set (b1' := distribute t e b') in *. clearbody b1 b1'.
  assert (Q : forall x x', same x x' ->
            psame (Some (x, if negb (b_epoch b =? e) then stake_it x else []))
                  (Some (x', if negb (b_epoch b' =? e) then stake_it x' else []))).
  { intros x x' X. cbn. rewrite (stake_it_same _ _ X).
    replace (b_epoch b') with (b_epoch b) by apply H. auto. }
  assert (L : forall x x', same x x' -> psame (Some (x, stake_it x)) (Some (x', stake_it x'))).
  { intros x x' X. cbn. rewrite (stake_it_same _ _ X). auto. }
  assert (P : forall a,
    psame (and_then (if a <=? t - locked then take_out u a e b1 else None)
             (fun x => (x, PTransfer u a :: if negb (b_epoch b =? e) then stake_it x else [])))
          (and_then (if a <=? t - locked then take_out u a e b1' else None)
             (fun x => (x, PTransfer u a :: if negb (b_epoch b' =? e) then stake_it x else [])))).
  { intros a. apply and_then_same.
    - destruct (a <=? t - locked); [now apply take_out_same|exact I].
    - intros x x' X. cbn. split; auto. f_equal. exact (proj1 (Q x x' X)). }
  assert (O : forall o o', osame o o' ->
    psame (and_then o (fun x => (x, stake_it x))) (and_then o' (fun x => (x, stake_it x)))).
  { intros o o' X. apply and_then_same; [exact X|exact L]. }
  assert (U : b_unstaked b1 u = b_unstaked b1' u) by apply D.
  assert (EO : b_owner b = b_owner b') by apply H.
  assert (EP : b_paused b = b_paused b') by apply H.
  assert (EK : b_key b = b_key b') by apply H.
  assert (EP1 : b_paused b1 = b_paused b1') by apply D.
  assert (EK1 : b_key b1 = b_key b1') by apply D.
  assert (EF1 : b_fee b1 = b_fee b1') by apply D.
  rewrite <- EO, <- EP, <- EK, <- EP1, <- EK1, <- EF1.
  destruct (negb (typed m) || _); [exact I|].
  destruct m; try (destruct (String.eqb u self); [exact I|]).
  - now apply Q.
  - now apply Q, put_in_same.
  - now apply O, buy_same, put_in_same.
  - rewrite <- U. apply P.
  - apply P.
  - rewrite <- U. now apply O, buy_same.
  - now apply O, buy_same.
  - rewrite (worth_same u _ _ D). now apply O, sell_same.
  - now apply O, sell_same.
  - destruct (String.eqb u self); [|exact I]. destruct results as [|r [|]]; cbn; auto.
  - destruct (String.eqb u (b_owner b)); [|exact I]. now apply L, rules_same.
  - destruct (String.eqb u (b_owner b) && _ && _); [|exact I]. now apply Q, rules_same.
  - destruct (String.eqb u (b_owner b) && _); [|exact I]. cbn. auto.
  - destruct (String.eqb u (b_owner b) && _); [|exact I]. cbn. split; auto. now apply rules_same.
  - destruct (String.eqb u (b_owner b) && _); [|exact I]. now apply L, rules_same.
Qed.

(** * Whole histories *)

Definition on_page (w : world) (l : ledger) : Prop :=
  same (read (w_pool w)) (l_book l) /\ l_total l = w_total w /\ l_epoch l = w_epoch w.

Lemma call_book S0 k self w who attached locked results m :
  winv S0 k w -> k <= STAKE_SHARE_PRICE_GUARANTEE_FUND -> S0 <> 0 ->
  w_total w + attached + 1 < U128_BOUND -> locked <= w_total w ->
  w_epoch w + NUM_EPOCHS_TO_UNLOCK < U64_BOUND ->
  agrees w attached (step self w (EvCall who attached locked results m))
    (play self who attached (w_total w) locked (w_epoch w) results m (read (w_pool w))).
Proof.
  intros W K Z B HL HE. destruct (caller_possible self who m) eqn:G.
  - apply matches_step; auto. eapply exec_book; eauto.
  - unfold step. rewrite G. cbn [andb agrees snd fst].
    assert (N : String.eqb who self = true /\ m <> OnStakeAction).
    { unfold caller_possible in G. destruct (String.eqb who self); [|discriminate].
      split; auto. intros ->. discriminate. }
    destruct N as [N1 N2]. unfold play. rewrite N1.
    destruct (negb (typed m) || _); auto. destruct m; auto; congruence.
Qed.

Lemma event_book S0 k self w l e :
  winv S0 k w -> k <= STAKE_SHARE_PRICE_GUARANTEE_FUND -> S0 <> 0 -> on_page w l ->
  modest (mkEntry w e (snd (step self w e)) (fst (step self w e))) ->
  snd (play_event self l e) = snd (step self w e) /\
  on_page (fst (step self w e)) (fst (play_event self l e)).
Proof.
  intros W K Z (PB & PT & PE) M.
  destruct e as [who attached locked results m|a|n]; cbn [modest en_event en_before] in M.
  2: { cbn. unfold on_page. cbn. rewrite PT. auto. }
  2: { cbn. unfold on_page. cbn. rewrite PE. auto. }
  destruct M as (M1 & M2 & M3).
  pose proof (call_book S0 k self w who attached locked results m W K Z M1 M2 M3) as A.
  pose proof (play_same self who attached (w_total w) locked (w_epoch w) results m _ _ PB) as S.
  unfold play_event. rewrite PT, PE. unfold agrees in A.
  destruct (step self w _) as [w' o]. cbn [fst snd] in *.
  destruct (play _ _ _ _ _ _ _ _ (read (w_pool w))) as [[b ps]|];
    destruct (play _ _ _ _ _ _ _ _ (l_book l)) as [[b' ps']|]; cbn [psame] in S; try contradiction;
    destruct o as [ps0|]; try contradiction; cbn [fst snd].
  - destruct S as [<- S]. destruct A as (-> & A & T & E). split; auto.
    split; [eapply same_trans; eauto|]. cbn. auto.
  - split; auto. subst w'. now split.
Qed.

Lemma history_book self S0 evs : forall k w l,
  winv S0 k w -> k + stake_calls (history self w evs) <= STAKE_SHARE_PRICE_GUARANTEE_FUND ->
  S0 <> 0 -> on_page w l -> Forall modest (history self w evs) ->
  fst (play_all self l evs) = map en_promises (history self w evs) /\
  on_page (final self w evs) (snd (play_all self l evs)).
Proof.
  induction evs as [|e evs IH]; intros k w l W K Z P M; [cbn; auto|].
  cbn [history final play_all] in *. destruct (step self w e) as [w1 o] eqn:E. cbn [fst].
  inversion M as [|en h M1 M2]; subst.
  assert (K1 : k + event_count e o + stake_calls (history self w1 evs)
               <= STAKE_SHARE_PRICE_GUARANTEE_FUND).
  { rewrite stake_calls_cons in K. lia. }
  destruct (step_inv _ _ _ _ _ _ _ W E) as (W1 & _).
  destruct (event_book S0 k self w l e W ltac:(lia) Z P) as (A & P1).
  { rewrite E. exact M1. }
  rewrite E in A, P1. cbn [fst snd] in A, P1.
  destruct (play_event self l e) as [l1 o1]. cbn [fst snd] in A, P1. subst o1.
  destruct (IH _ w1 l1 W1 K1 Z P1 M2) as (A2 & P2).
  destruct (play_all self l1 evs) as [os l2]. cbn [fst snd map en_promises] in *.
  split; [now f_equal|exact P2].
Qed.

Lemma initial_shares self w0 :
  initial self w0 -> 1000000000000 < w_total w0 -> S_ (w_pool w0) <> 0.
Proof.
  intros (c & o & key & f & ps & _ & _ & _ & _ & _ & N & T & _) NZ.
  unfold new in N. inv_res. rewrite T in NZ.
  match goal with X : _ = w_pool w0 |- _ => rewrite <- X end. cbn.
  unfold STAKE_SHARE_PRICE_GUARANTEE_FUND in *. lia.
Qed.

Lemma pool_plays_its_book self w0 evs :
  initial self w0 -> 1000000000000 < w_total w0 ->
  stake_calls (history self w0 evs) <= 1000000000000 -> Forall modest (history self w0 evs) ->
  let w := final self w0 evs in
  let l := snd (play_all self (open_ledger w0) evs) in
  map en_promises (history self w0 evs) = fst (play_all self (open_ledger w0) evs) /\
  same (read (w_pool w)) (l_book l) /\ w_total w = l_total l /\ w_epoch w = l_epoch l.
Proof.
  intros H NZ K M w l. pose proof (initial_shares _ _ H NZ) as Z.
  destruct (initial_inv _ _ H) as (W & _).
  destruct (history_book self _ evs 0 w0 (open_ledger w0) W K Z) as (A & B1 & B2 & B3); auto.
  split; [apply same_refl|]. auto.
Qed.

Lemma pool_keeps_its_book self w0 evs who attached locked results m :
  initial self w0 -> within_limits self w0 evs -> 1000000000000 < w_total w0 ->
  let w := final self w0 evs in
  w_total w + attached + 1 < U128_BOUND -> locked <= w_total w -> w_epoch w + 4 < U64_BOUND ->
  agrees w attached (step self w (EvCall who attached locked results m))
    (play self who attached (w_total w) locked (w_epoch w) results m (read (w_pool w))).
Proof.
  intros H L NZ w B HL HE. destruct (within_winv _ _ _ H L) as (W & K & _). fold w in W.
  pose proof (initial_shares _ _ H NZ). eapply call_book; eauto.
Qed.
