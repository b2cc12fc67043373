(** What a group of accounts can gain from a staking pool (C118). *)
From Coq Require Import NArith List Bool String Lia.
From Verif Require Import Prelude PreludeFacts StakingPoolModel StakingPoolSpec ShareMath StakingPoolProofs
  StakingPoolHistory StakingPoolAccept StakingPoolFacts StakingPoolCustomer StakingPoolGainsSpec.
Import ListNotations.
Open Scope string_scope.
Open Scope N_scope.

(** * Sums over a group *)
Definition inb (v : account_id) (us : list account_id) : bool := existsb (keqb v) us.

Lemma inb_In v us : inb v us = true <-> In v us.
Proof.
  unfold inb. rewrite existsb_exists. split.
  - intros (x & I & E). destruct (keqb_spec v x) as [->|]; [auto|discriminate].
  - intros I. exists v. split; [auto|]. apply keqb_refl.
Qed.
Lemma sum_ext {A} (f g : A -> N) l : (forall x, In x l -> f x = g x) -> sumN f l = sumN g l.
Proof.
  induction l as [|x l IH]; intros H; [reflexivity|]. unfold sumN in *. cbn.
  rewrite (H x), IH; cbn; auto. intros; apply H; now right.
Qed.
Lemma sum_le {A} (f g : A -> N) l : (forall x, In x l -> f x <= g x) -> sumN f l <= sumN g l.
Proof.
  induction l as [|x l IH]; intros H; [reflexivity|]. unfold sumN in *. cbn.
  pose proof (H x (or_introl eq_refl)). assert (forall y, In y l -> f y <= g y) by (intros; apply H; now right).
  specialize (IH H1). lia.
Qed.
Lemma sum_plus {A} (f g : A -> N) l : sumN (fun x => f x + g x) l = sumN f l + sumN g l.
Proof. induction l as [|x l IH]; [reflexivity|]. unfold sumN in *. cbn. lia. Qed.
Lemma sum_point v n us : NoDup us ->
  sumN (fun u => if keqb u v then n else 0) us = if inb v us then n else 0.
Proof.
  induction 1 as [|u us NI ND IH]; [reflexivity|]. unfold sumN, inb in *. cbn [existsb fold_right].
  rewrite (keqb_sym v u). destruct (keqb_spec u v) as [->|NE]; cbn [orb]; rewrite IH; [|lia].
  destruct (existsb (keqb v) us) eqn:E; [|lia]. now apply inb_In in E.
Qed.
Lemma sum_group_le (f : account -> N) m us : f default_account = 0 -> NoDup us ->
  sumN (fun u => f (acct_of m u)) us <= msum f m.
Proof.
  intros D ND. induction m as [|[k a] m IH].
  - rewrite (sum_ext _ (fun _ => 0)); [|now intros]. unfold msum; cbn. induction us; cbn; [lia|].
    inversion ND; subst. apply IHus. auto.
  - transitivity (sumN (fun u => f (acct_of m u) + (if keqb u k then f a else 0)) us).
    + apply sum_le. intros u _. unfold acct_of. cbn [mget]. destruct (keqb u k); lia.
    + rewrite sum_plus, sum_point by auto. unfold msum in *. cbn. destruct (inb k us); lia.
Qed.

Definition gun (p : pool) (us : list account_id) : N := sumN (fun u => unstaked (acct p u)) us.
Definition gsh (p : pool) (us : list account_id) : N := sumN (fun u => stake_shares (acct p u)) us.
(** The group seen as one account. *)
Definition gval (p : pool) (us : list account_id) : N := gun p us + T_ p * gsh p us / S_ p.

Lemma gsh_le S0 p us : pinv S0 p -> NoDup us -> gsh p us <= S_ p.
Proof.
  intros I ND. rewrite (pi_shares _ _ I). unfold gsh.
  pose proof (sum_group_le stake_shares (accounts p) us eq_refl ND). rewrite all_shares_eq. lia.
Qed.

(** * Arithmetic *)
Lemma group_bound T S T' S' sh sh' d e :
  S <> 0 -> S' <> 0 -> sh' <= S' -> T * S' <= T' * S ->
  T' * S + e * S <= T * (S' - sh') + T * sh + d * S ->
  T' * sh' / S' + e <= T * sh / S + d.
Proof.
  intros HS HS' Hs HP HD. set (x := T' * sh' / S').
  assert (X : S' * x <= T' * sh') by (apply div_lo; auto).
  set (o := S' - sh') in *. assert (Es : sh' = S' - o) by lia. assert (Ho : o <= S') by lia. clearbody o.
  assert (A : T' * sh' * S + T * S' * o <= T' * S' * S).
  { subst sh'. replace (T' * S' * S) with (T' * (S' - o) * S + T' * S * o) by nia. nia. }
  assert (B : (x + e) * S <= T * sh + d * S).
  { apply N.mul_le_mono_pos_l with S'; [lia|].
    transitivity (T' * sh' * S + e * S * S'); [nia|].
    assert (S' * (T' * S + e * S) <= S' * (T * o + T * sh + d * S)) by (now apply N.mul_le_mono_l).
    nia. }
  replace (T * sh / S + d) with ((T * sh + d * S) / S) by (now apply N.div_add).
  apply div_ge; auto. lia.
Qed.

Lemma mul_split T s g : g <= s -> T * (s - g) + T * g = T * s.
Proof. intros H. rewrite <- N.mul_add_distr_l. f_equal. lia. Qed.

(** * The parts of a call *)
Section Parts.
Variables (S0 : N) (us : list account_id).
Hypothesis ND : NoDup us.

Lemma gun_plus p p' v n :
  (forall u, unstaked (acct p' u) = unstaked (acct p u) + (if keqb u v then n else 0)) ->
  gun p' us = gun p us + (if inb v us then n else 0).
Proof.
  intros H. unfold gun. rewrite (sum_ext _ _ us (fun u _ => H u)), sum_plus, sum_point by auto. reflexivity.
Qed.
Lemma gsh_plus p p' v n :
  (forall u, stake_shares (acct p' u) = stake_shares (acct p u) + (if keqb u v then n else 0)) ->
  gsh p' us = gsh p us + (if inb v us then n else 0).
Proof.
  intros H. unfold gsh. rewrite (sum_ext _ _ us (fun u _ => H u)), sum_plus, sum_point by auto. reflexivity.
Qed.

Lemma ping_shares c p p' : pinv S0 p -> ping_effect c p p' ->
  exists n, S_ p' = S_ p + n /\
    (forall u, stake_shares (acct p' u) = stake_shares (acct p u) + (if keqb u (owner_id p) then n else 0)).
Proof.
  intros I (r & f & n & _ & _ & _ & _ & _ & _ & _ & _ & ->). exists n. pool_cbn. split; [reflexivity|].
  intros u. destruct (N.ltb_spec 0 n) as [L|L].
  - rewrite acct_of_save_shares by apply I. pool_cbn.
    destruct (keqb_spec u (owner_id p)) as [->|]; lia.
  - assert (n = 0) by lia. subst n. destruct (keqb u (owner_id p)); lia.
Qed.
Lemma ping_gain c p p' r : pinv S0 p -> ping_effect c p p' ->
  last_total_balance p' = last_total_balance p + r -> gval p' us <= gval p us + r.
Proof.
  intros I E HL. pose proof (ping_inv _ _ _ _ I E) as (I' & (r' & HT & HL' & _) & _ & P & _ & F).
  assert (r' = r) by lia. subst r'.
  destruct (ping_shares _ _ _ I E) as (n & HS & HSH).
  assert (HU : gun p' us = gun p us) by (unfold gun; apply sum_ext; intros u _; apply F).
  apply gsh_plus in HSH. unfold gval. rewrite HU.
  destruct (pinv_S_cases _ _ I) as [[Z ES]|[Z ES]].
  - pose proof (pi_zero _ _ I' Z) as ES'. rewrite ES, ES', !div_zero_r. lia.
  - destruct (pinv_S_cases _ _ I') as [[Z' ES']|[Z' ES']]; [congruence|].
    pose proof (gsh_le _ _ _ I ND) as G. pose proof (gsh_le _ _ _ I' ND) as G'.
    pose proof (group_bound (T_ p) (S_ p) (T_ p') (S_ p') (gsh p us) (gsh p' us) r 0 ES ES' G' P) as B.
    enough (T_ p' * S_ p + 0 * S_ p <= T_ p * (S_ p' - gsh p' us) + T_ p * gsh p us + r * S_ p) by (specialize (B H); lia).
    rewrite HT, HS, HSH. destruct (inb (owner_id p) us).
    + replace (S_ p + n - (gsh p us + n)) with (S_ p - gsh p us) by lia.
      rewrite mul_split by lia. lia.
    + rewrite N.add_0_r. transitivity (T_ p * (S_ p - gsh p us) + T_ p * gsh p us + r * S_ p); [rewrite mul_split by lia; lia|].
      apply N.add_le_mono_r, N.add_le_mono_r, N.mul_le_mono_l. lia.
Qed.
(** A group without shares, the owner apart, gets nothing of the rewards. *)
Lemma ping_nothing c p p' : pinv S0 p -> ping_effect c p p' -> ~ In (owner_id p) us -> gsh p us = 0 ->
  gval p' us = gval p us.
Proof.
  intros I E NO Z. pose proof (ping_inv _ _ _ _ I E) as (_ & _ & _ & _ & _ & F).
  assert (HA : forall u, In u us -> acct p' u = acct p u) by (intros u Iu; apply F; intros ->; auto).
  assert (HU : gun p' us = gun p us) by (unfold gun; apply sum_ext; intros u Iu; now rewrite HA).
  assert (HS : gsh p' us = gsh p us) by (unfold gsh; apply sum_ext; intros u Iu; now rewrite HA).
  unfold gval. rewrite HU, HS, Z, !N.mul_0_r.
  assert (D : forall s, 0 / s = 0) by (intros []; reflexivity). now rewrite !D.
Qed.
Lemma deposit_gain c p p' : pinv S0 p -> deposit_effect c p p' ->
  gval p' us = gval p us + (if inb (ctx_predecessor c) us then ctx_attached c else 0).
Proof.
  intros I E. pose proof (deposit_inv _ _ _ _ I E) as (_ & HT & HS & _ & _ & F).
  unfold gval. rewrite HT, HS, (gun_plus p p' (ctx_predecessor c) (ctx_attached c)) by apply F.
  replace (gsh p' us) with (gsh p us) by (unfold gsh; apply sum_ext; intros u _; symmetry; apply F). lia.
Qed.
Lemma withdraw_gain c p a p' : pinv S0 p -> withdraw_effect c p a p' ->
  gval p' us + (if inb (ctx_predecessor c) us then a else 0) = gval p us.
Proof.
  intros I E. pose proof (withdraw_inv _ _ _ _ _ I E) as (_ & HT & HS & _ & _ & F).
  unfold gval. rewrite HT, HS, (gun_plus p' p (ctx_predecessor c) a) by (intros u; symmetry; apply F).
  replace (gsh p' us) with (gsh p us) by (unfold gsh; apply sum_ext; intros u _; symmetry; apply F). lia.
Qed.
Lemma stake_gain c p a n p' : pinv S0 p -> stake_effect c p a n p' -> gval p' us <= gval p us + 1.
Proof.
  intros I E. pose proof (stake_inv _ _ _ _ _ _ I E) as (I' & P & HS & _ & _ & _ & _ & F).
  destruct E as (_ & ES & _ & _ & _ & _ & _ & _ & _ & EQ).
  assert (HT : T_ p' = T_ p + cdiv (T_ p * n) (S_ p)) by (subst p'; reflexivity). clear EQ.
  set (ch := T_ p * n / S_ p) in *. set (v := ctx_predecessor c) in *.
  pose proof (cdiv_le_div1 (T_ p * n) (S_ p) ES) as C1. fold ch in C1.
  pose proof (cdiv_hi (T_ p * n) (S_ p) ES) as C2.
  assert (HU : gun p us = gun p' us + (if inb v us then ch else 0)) by (apply gun_plus; intros u; symmetry; apply F).
  assert (HH : gsh p' us = gsh p us + (if inb v us then n else 0)) by (apply gsh_plus; intros u; apply F).
  assert (ES' : S_ p' <> 0) by lia.
  pose proof (gsh_le _ _ _ I ND) as G. pose proof (gsh_le _ _ _ I' ND) as G'.
  set (C := cdiv (T_ p * n) (S_ p)) in *. clearbody C ch. unfold gval. rewrite HU.
  destruct (inb v us).
  - pose proof (group_bound (T_ p) (S_ p) (T_ p') (S_ p') (gsh p us) (gsh p' us) C 0 ES ES' G' P) as B.
    enough (T_ p' * S_ p + 0 * S_ p <= T_ p * (S_ p' - gsh p' us) + T_ p * gsh p us + C * S_ p) by (specialize (B H); lia).
    rewrite HT, HS, HH. replace (S_ p + n - (gsh p us + n)) with (S_ p - gsh p us) by lia.
    rewrite mul_split by lia. lia.
  - pose proof (group_bound (T_ p) (S_ p) (T_ p') (S_ p') (gsh p us) (gsh p' us) 1 0 ES ES' G' P) as B.
    enough (T_ p' * S_ p + 0 * S_ p <= T_ p * (S_ p' - gsh p' us) + T_ p * gsh p us + 1 * S_ p) by (specialize (B H); lia).
    rewrite HT, HS, HH, (N.add_0_r (gsh p us)), mul_split by lia. lia.
Qed.
Lemma unstake_gain c p a n p' : pinv S0 p -> unstake_effect c p a n p' -> gval p' us <= gval p us + 1.
Proof.
  intros I E. pose proof (unstake_inv _ _ _ _ _ _ I E) as (I' & P & HS & _ & _ & _ & _ & _ & F).
  destruct E as (_ & ES & _ & _ & _ & _ & _ & Hn & HF & EQ).
  assert (HT : T_ p = T_ p' + T_ p * n / S_ p) by (subst p'; cbn; lia). clear EQ.
  set (re := cdiv (T_ p * n) (S_ p)) in *. set (v := ctx_predecessor c) in *.
  pose proof (cdiv_le_div1 (T_ p * n) (S_ p) ES) as C1. fold re in C1.
  pose proof (div_hi (T_ p * n) (S_ p) ES) as C2.
  assert (HU : gun p' us = gun p us + (if inb v us then re else 0)) by (apply gun_plus; intros u; apply F).
  assert (HH : gsh p us = gsh p' us + (if inb v us then n else 0)) by (apply gsh_plus; intros u; symmetry; apply F).
  assert (ES' : S_ p' <> 0).
  { destruct (pinv_S_cases _ _ I') as [[Z X]|[_ X]]; auto. pose proof (pi_zero _ _ I Z). congruence. }
  pose proof (gsh_le _ _ _ I ND) as G. pose proof (gsh_le _ _ _ I' ND) as G'.
  set (f := T_ p * n / S_ p) in *. clearbody f re. unfold gval. rewrite HU.
  destruct (inb v us).
  - pose proof (group_bound (T_ p) (S_ p) (T_ p') (S_ p') (gsh p us) (gsh p' us) 0 f ES ES' G' P) as B.
    enough (T_ p' * S_ p + f * S_ p <= T_ p * (S_ p' - gsh p' us) + T_ p * gsh p us + 0 * S_ p) by (specialize (B H); lia).
    replace (S_ p' - gsh p' us) with (S_ p - gsh p us) by lia.
    rewrite mul_split by lia.
    replace (T_ p' * S_ p + f * S_ p) with ((T_ p' + f) * S_ p) by lia. rewrite <- HT. lia.
  - pose proof (group_bound (T_ p) (S_ p) (T_ p') (S_ p') (gsh p us) (gsh p' us) 1 0 ES ES' G' P) as B.
    enough (T_ p' * S_ p + 0 * S_ p <= T_ p * (S_ p' - gsh p' us) + T_ p * gsh p us + 1 * S_ p) by (specialize (B H); lia).
    rewrite N.add_0_r in HH. rewrite HH.
    rewrite mul_split by lia.
    assert (T_ p * S_ p = T_ p' * S_ p + f * S_ p) by (rewrite HT at 1; lia).
    assert (T_ p * S_ p = T_ p * S_ p' + T_ p * n) by (rewrite <- HS; lia). lia.
Qed.
Lemma setting_gain p p' : T_ p' = T_ p -> S_ p' = S_ p -> accounts p' = accounts p -> gval p' us = gval p us.
Proof. intros A B C. unfold gval, gun, gsh. now rewrite A, B, C. Qed.

Lemma body_gain c need p m p' ps : pinv S0 p -> (payable m = true \/ ctx_attached c = 0) ->
  body_effect c need p m p' ps ->
  gval p' us + (if inb (ctx_predecessor c) us then outgoing ps else 0) <=
  gval p us + (if inb (ctx_predecessor c) us then ctx_attached c else 0) + stake_count m.
Proof.
  intros I HP E. set (b := inb (ctx_predecessor c) us).
  destruct m; cbn in E, HP; unfold stake_count; cbn [is_stake_call];
    repeat match goal with H : _ /\ _ |- _ => destruct H | H : exists _, _ |- _ => destruct H end;
    subst; try contradiction; try (destruct HP as [HP|HP]; [discriminate HP|rewrite HP]);
    rewrite ?outgoing_transfer, ?outgoing_stake, ?outgoing_restake, ?outgoing_restake_if, ?N.add_0_r.
  - lia.
  - match goal with D : deposit_effect _ _ _ |- _ => rewrite (deposit_gain _ _ _ I D) end. fold b. destruct b; lia.
  - match goal with D : deposit_effect _ _ ?q, E : stake_effect _ ?q _ _ _ |- _ =>
      pose proof (deposit_inv _ _ _ _ I D) as (I2 & _);
      pose proof (deposit_gain _ _ _ I D) as A; pose proof (stake_gain _ _ _ _ _ I2 E) as B end.
    fold b in A. destruct b; lia.
  - match goal with D : withdraw_effect _ _ _ _ |- _ => pose proof (withdraw_gain _ _ _ _ I D) as A end.
    fold b in A. destruct b; lia.
  - match goal with D : withdraw_effect _ _ _ _ |- _ => pose proof (withdraw_gain _ _ _ _ I D) as A end.
    fold b in A. destruct b; lia.
  - match goal with E : stake_effect _ _ _ _ _ |- _ => pose proof (stake_gain _ _ _ _ _ I E) end. destruct b; lia.
  - match goal with E : stake_effect _ _ _ _ _ |- _ => pose proof (stake_gain _ _ _ _ _ I E) end. destruct b; lia.
  - match goal with E : unstake_effect _ _ _ _ _ |- _ => pose proof (unstake_gain _ _ _ _ _ I E) end. destruct b; lia.
  - match goal with E : unstake_effect _ _ _ _ _ |- _ => pose proof (unstake_gain _ _ _ _ _ I E) end. destruct b; lia.
  - rewrite (setting_gain p) by reflexivity. destruct b; lia.
  - rewrite (setting_gain p) by reflexivity. destruct b; lia.
  - rewrite (setting_gain p) by reflexivity. destruct b; cbn; lia.
  - rewrite (setting_gain p) by reflexivity. destruct b; lia.
Qed.

Lemma exec_gain c p m p' ps : pinv S0 p -> exec c p m = Ok (p', ps) ->
  let b := inb (ctx_predecessor c) us in
  gval p' us + (if b then outgoing ps else 0) + last_total_balance p + ctx_attached c <=
    gval p us + (if b then ctx_attached c else 0) + stake_count m + (last_total_balance p' + outgoing ps) /\
  (last_epoch_height p = ctx_epoch c \/ (~ In (owner_id p) us /\ gsh p us = 0) ->
   gval p' us + (if b then outgoing ps else 0) <= gval p us + (if b then ctx_attached c else 0) + stake_count m).
Proof.
  intros I H b. destruct (exec_rel _ _ _ _ _ _ I H) as (r & R & _).
  pose proof (cr_last _ _ _ _ _ _ _ _ R) as HL. clear R.
  apply exec_ok in H. destruct H as (HA & HP & [(Hm & -> & E)|(Hm & p1 & need & EP & E)]).
  - assert (O : outgoing ps = 0 /\ ctx_attached c = 0).
    { destruct m; try discriminate Hm; cbn in E, HP.
      - destruct E as (_ & x & _ & ->). destruct HP as [HP|HP]; [discriminate|]. split; [now destruct (_ && _)|auto].
      - destruct E as (_ & _ & ->). destruct HP as [HP|HP]; [discriminate|]. split; [reflexivity|auto]. }
    destruct O as (-> & ->). split; [|intros _]; destruct b; lia.
  - apply internal_ping_ok in EP. destruct EP as [(_ & -> & _)|(_ & NE & PE)].
    + pose proof (body_gain _ _ _ _ _ _ I HP E) as B. fold b in B.
      split; [|intros _; exact B]. lia.
    + pose proof (ping_inv _ _ _ _ I PE) as (I1 & (r1 & _ & HL1 & _) & _ & _ & _ & F).
      pose proof (body_gain _ _ _ _ _ _ I1 HP E) as B. fold b in B.
      pose proof (ping_gain _ _ _ _ I PE HL1) as PG.
      split.
      * assert (r1 = r); [|lia].
        assert (X : last_total_balance p' + outgoing ps = last_total_balance p1 + ctx_attached c).
        { clear - E HP Hm. destruct m; cbn in E, HP;
            repeat match goal with H : _ /\ _ |- _ => destruct H | H : exists _, _ |- _ => destruct H end;
            subst; try contradiction; try discriminate Hm; try (destruct HP as [HP|HP]; [discriminate HP|rewrite HP]);
            repeat match goal with
            | H : deposit_effect _ _ _ |- _ => destruct H as (_ & ->)
            | H : stake_effect _ _ _ _ _ |- _ => destruct H as (_ & _ & _ & _ & _ & _ & _ & _ & _ & ->)
            | H : unstake_effect _ _ _ _ _ |- _ => destruct H as (_ & _ & _ & _ & _ & _ & _ & _ & _ & ->)
            | H : withdraw_effect _ _ _ _ |- _ => destruct H as (_ & _ & _ & ? & ->)
            end;
            rewrite ?outgoing_transfer, ?outgoing_stake, ?outgoing_restake, ?outgoing_restake_if, ?N.add_0_r;
            cbn; lia. }
        lia.
      * intros [X|(NO & Z)]; [congruence|].
        pose proof (ping_nothing _ _ _ I PE NO Z) as PN. lia.
Qed.
End Parts.

(** * Histories *)
Definition gdep (us : list account_id) (h : list entry) : N := sumN (fun u => deposited u h) us.
Definition gpaid (us : list account_id) (h : list entry) : N := sumN (fun u => paid u h) us.

Section Group.
Variables (self : account_id) (us : list account_id).
Hypothesis ND : NoDup us.

Lemma gdep_cons w e o w' h : gdep us (mkEntry w e o w' :: h) = sumN (fun u => event_in u e o) us + gdep us h.
Proof. unfold gdep. rewrite <- sum_plus. apply sum_ext. intros u _. apply deposited_cons. Qed.
Lemma gpaid_cons w e o w' h : gpaid us (mkEntry w e o w' :: h) = sumN (fun u => event_out u o) us + gpaid us h.
Proof. unfold gpaid. rewrite <- sum_plus. apply sum_ext. intros u _. apply paid_cons. Qed.
Lemma sum_zero (l : list account_id) : sumN (fun _ => 0) l = 0.
Proof. induction l; cbn; auto. Qed.

Lemma gdep_nil : gdep us [] = 0.
Proof. apply sum_zero. Qed.
Lemma gpaid_nil : gpaid us [] = 0.
Proof. apply sum_zero. Qed.

Lemma step_gain S0 k w e w' o : winv S0 k w -> step self w e = (w', o) ->
  gval (w_pool w') us + sumN (fun u => event_out u o) us + pending w' <=
    gval (w_pool w) us + sumN (fun u => event_in u e o) us + event_count e o + pending w + income [e] /\
  (last_epoch_height (w_pool w) = w_epoch w \/ (~ In (owner_id (w_pool w)) us /\ gsh (w_pool w) us = 0) ->
   gval (w_pool w') us + sumN (fun u => event_out u o) us <=
     gval (w_pool w) us + sumN (fun u => event_in u e o) us + event_count e o).
Proof.
  intros W H. destruct (step_inv _ _ _ _ _ _ _ W H) as (W' & _).
  pose proof (wi_last _ _ _ W) as L. pose proof (wi_last _ _ _ W') as L'.
  destruct e as [who attached locked results m|a|n].
  - destruct o as [ps|].
    + pose proof H as ST. apply step_call_some in H. destruct H as (_ & HL & p' & E & HO & ->).
      pose proof (wi_pool _ _ _ W) as I.
      destruct (exec_rel _ _ _ _ _ _ I E) as (_ & _ & _ & HS & _).
      destruct (exec_gain _ us ND _ _ _ _ _ I E) as (A & B).
      cbn [call_ctx ctx_attached ctx_predecessor ctx_epoch w_pool w_total] in *.
      unfold pending. cbn [event_count event_out w_pool w_total income sumN fold_right].
      replace (sumN (fun u => sent_to u ps) us) with (if inb who us then outgoing ps else 0).
      2:{ rewrite <- sum_point by auto. apply sum_ext. intros u _. now rewrite HS. }
      replace (sumN (fun u => event_in u (EvCall who attached locked results m) (Some ps)) us)
        with (if inb who us then attached else 0).
      2:{ rewrite <- sum_point by auto. apply sum_ext. intros u _. rewrite (keqb_sym u who). reflexivity. }
      split; [|exact B]. cbn. destruct (inb who us); lia.
    + apply step_call_none in H. subst w'. cbn [event_out event_in event_count income sumN fold_right].
      rewrite !sum_zero. split; [|intros _]; cbn; lia.
  - cbn in H. inversion H; subst; clear H. cbn [event_out event_in event_count w_pool].
    rewrite !sum_zero. unfold pending in *. cbn in *. split; [|intros _]; lia.
  - cbn in H. inversion H; subst; clear H. cbn [event_out event_in event_count w_pool].
    rewrite !sum_zero. unfold pending in *. cbn in *. split; [|intros _]; lia.
Qed.

Lemma history_gain S0 k w evs : winv S0 k w ->
  let h := history self w evs in let w' := final self w evs in
  gval (w_pool w') us + gpaid us h + pending w' <=
    gval (w_pool w) us + gdep us h + stake_calls h + pending w + income evs.
Proof.
  revert w k. induction evs as [|e evs IH]; intros w k W; cbn zeta.
  - cbn [history final]. rewrite gpaid_nil, gdep_nil. cbn. lia.
  - cbn [history final]. destruct (step self w e) as [w1 o] eqn:E. cbn [fst].
    destruct (step_inv _ _ _ _ _ _ _ W E) as (W1 & _). specialize (IH _ _ W1). cbn zeta in IH.
    destruct (step_gain _ _ _ _ _ _ W E) as (A & _).
    rewrite gpaid_cons, gdep_cons, stake_calls_cons.
    change (e :: evs) with ([e] ++ evs)%list. unfold income at 1. rewrite sumN_app. fold (income [e]) (income evs). lia.
Qed.

Lemma step_epoch w e w' o : step self w e = (w', o) -> (forall n, e <> EvEpoch n) -> w_epoch w' = w_epoch w.
Proof.
  intros H NE. destruct e as [who attached locked results m|a|n]; [|cbn in H; now inversion H|now destruct (NE n)].
  destruct o as [ps|].
  - apply step_call_some in H. destruct H as (_ & _ & p' & _ & _ & ->). reflexivity.
  - apply step_call_none in H. now subst.
Qed.

(** Nothing was staked by the group, or the rewards were already distributed in this epoch. *)
Definition settled (w : world) : Prop :=
  last_epoch_height (w_pool w) = w_epoch w \/ (~ In (owner_id (w_pool w)) us /\ gsh (w_pool w) us = 0).

Lemma step_settled S0 k w e w' o : winv S0 k w -> step self w e = (w', o) -> (forall n, e <> EvEpoch n) ->
  settled w -> settled w'.
Proof.
  intros W H NE Q. pose proof (step_epoch _ _ _ _ H NE) as EP.
  destruct e as [who attached locked results m|a|n]; [|cbn in H; inversion H; subst; exact Q|now destruct (NE n)].
  destruct o as [ps|]; [|now apply step_call_none in H; subst].
  apply step_call_some in H. destruct H as (_ & _ & p' & E & _ & ->). unfold settled in *. cbn [w_pool w_epoch] in *.
  pose proof (exec_epoch _ _ _ _ _ E) as X. destruct (is_plain m) eqn:Pm.
  - apply exec_ok in E. destruct E as (_ & _ & [(_ & -> & _)|(Hm & _)]); [exact Q|congruence].
  - left. exact X.
Qed.

Lemma history_settled S0 k w evs : winv S0 k w -> (forall n, ~ In (EvEpoch n) evs) -> settled w ->
  let h := history self w evs in let w' := final self w evs in
  gval (w_pool w') us + gpaid us h <= gval (w_pool w) us + gdep us h + stake_calls h.
Proof.
  revert w k. induction evs as [|e evs IH]; intros w k W NE Q; cbn zeta.
  - cbn [history final]. rewrite gpaid_nil, gdep_nil. cbn. lia.
  - cbn [history final]. destruct (step self w e) as [w1 o] eqn:E. cbn [fst].
    destruct (step_inv _ _ _ _ _ _ _ W E) as (W1 & _).
    assert (NE1 : forall n, e <> EvEpoch n) by (intros n ->; apply (NE n); now left).
    assert (NE2 : forall n, ~ In (EvEpoch n) evs) by (intros n X; apply (NE n); now right).
    pose proof (step_settled _ _ _ _ _ _ W E NE1 Q) as Q1.
    specialize (IH _ _ W1 NE2 Q1). cbn zeta in IH.
    destruct (step_gain _ _ _ _ _ _ W E) as (_ & A). specialize (A Q).
    rewrite gpaid_cons, gdep_cons, stake_calls_cons. lia.
Qed.

(** Adding up what the members see. *)
Lemma gval_views p (f : account_id -> N) : us <> [] ->
  (forall u, In u us -> get_account_total_balance p u = Ok (f u)) ->
  sumN f us <= gval p us /\ gval p us + 1 <= sumN f us + N.of_nat (List.length us).
Proof.
  clear ND. intros NE HV.
  assert (SP : S_ p <> 0).
  { destruct us as [|u r]; [congruence|]. specialize (HV u (or_introl eq_refl)).
    unfold get_account_total_balance, get_account in HV. inv_res.
    match goal with H : staked_amount_from_num_shares_rounded_down p _ = Ok _ |- _ => apply amount_down_ok in H; destruct H as (? & _) end. auto. }
  rewrite (sum_ext f (value p)) by (intros u Iu; apply total_view; auto).
  clear HV. unfold gval. induction us as [|u r IH]; [congruence|].
  unfold gun, gsh in *. cbn [sumN fold_right List.length]. fold (@sumN account_id).
  change (fold_right (fun x acc => unstaked (acct p x) + acc) 0 r) with (sumN (fun x => unstaked (acct p x)) r).
  change (fold_right (fun x acc => stake_shares (acct p x) + acc) 0 r) with (sumN (fun x => stake_shares (acct p x)) r).
  change (fold_right (fun x acc => value p x + acc) 0 r) with (sumN (value p) r).
  unfold value at 1 3. rewrite N.mul_add_distr_l.
  set (A := T_ p * stake_shares (acct p u)). set (B := T_ p * sumN (fun x => stake_shares (acct p x)) r) in *.
  pose proof (div_lo A (S_ p) SP). pose proof (div_hi A (S_ p) SP).
  pose proof (div_lo B (S_ p) SP). pose proof (div_hi B (S_ p) SP).
  assert (D1 : A / S_ p + B / S_ p <= (A + B) / S_ p) by (apply div_ge; auto; lia).
  assert (D2 : (A + B) / S_ p < A / S_ p + B / S_ p + 2) by (apply div_lt; auto; lia).
  destruct r as [|u2 r2].
  - cbn in *. subst B. rewrite N.mul_0_r in *. rewrite (N.add_0_r A), !N.add_0_r. split; reflexivity.
  - destruct IH as (I1 & I2); [discriminate|].
    change (List.length (u2 :: r2)) with (Datatypes.S (List.length r2)) in *.
    set (su := sumN (fun x => unstaked (acct p x)) (u2 :: r2)) in *. set (sv := sumN (value p) (u2 :: r2)) in *.
    clearbody su sv. lia.
Qed.
End Group.

(** * The theorems *)
Lemma group_gain self w0 evs evs' us b b' : initial self w0 -> NoDup us -> us <> [] ->
  let w := final self w0 evs in let w' := final self w evs' in let h := history self w evs' in
  (forall u, In u us -> get_account_total_balance (w_pool w) u = Ok (b u)) ->
  (forall u, In u us -> get_account_total_balance (w_pool w') u = Ok (b' u)) ->
  sumN b' us + sumN (fun u => paid u h) us + 1 <=
    sumN b us + sumN (fun u => deposited u h) us + (pending w + income evs') + stake_calls h + N.of_nat (List.length us).
Proof.
  intros HI ND NE w w' h HB HB'. destruct (reach self w0 evs HI) as (W & _). fold w in W.
  pose proof (history_gain self us ND _ _ _ evs' W) as G. cbn zeta in G. fold h w' in G.
  destruct (gval_views us _ b NE HB) as (_ & A). destruct (gval_views us _ b' NE HB') as (B & _).
  unfold gpaid, gdep in G. lia.
Qed.
Lemma account_gain self w0 evs evs' u b b' : initial self w0 ->
  let w := final self w0 evs in let w' := final self w evs' in let h := history self w evs' in
  get_account_total_balance (w_pool w) u = Ok b -> get_account_total_balance (w_pool w') u = Ok b' ->
  b' + paid u h <= b + deposited u h + (pending w + income evs') + stake_calls h.
Proof.
  intros HI w w' h HB HB'.
  pose proof (group_gain self w0 evs evs' [u] (fun _ => b) (fun _ => b') HI) as G. cbn zeta in G.
  fold w in G. fold w' h in G.
  assert (N1 : NoDup [u]) by (constructor; [intros []|constructor]).
  specialize (G N1 ltac:(discriminate)).
  assert (X1 : forall x, In x [u] -> get_account_total_balance (w_pool w) x = Ok b) by (intros x [<-|[]]; auto).
  assert (X2 : forall x, In x [u] -> get_account_total_balance (w_pool w') x = Ok b') by (intros x [<-|[]]; auto).
  specialize (G X1 X2). cbn in G. lia.
Qed.
Lemma newcomers_gain self w0 evs evs' us b b' : initial self w0 -> NoDup us -> us <> [] ->
  let w := final self w0 evs in let w' := final self w evs' in let h := history self w evs' in
  (forall n, ~ In (EvEpoch n) evs') ->
  last_epoch_height (w_pool w) = w_epoch w \/
    (~ In (get_owner_id (w_pool w)) us /\ forall u, In u us -> get_account_staked_balance (w_pool w) u = Ok 0) ->
  (forall u, In u us -> get_account_total_balance (w_pool w) u = Ok (b u)) ->
  (forall u, In u us -> get_account_total_balance (w_pool w') u = Ok (b' u)) ->
  sumN b' us + sumN (fun u => paid u h) us + 1 <=
    sumN b us + sumN (fun u => deposited u h) us + stake_calls h + N.of_nat (List.length us).
Proof.
  intros HI ND NE w w' h HE HQ HB HB'. destruct (reach self w0 evs HI) as (W & _). fold w in W.
  assert (Q : settled us w).
  { destruct HQ as [X|(NO & Z)]; [left; exact X|right]. split; [exact NO|].
    unfold gsh. rewrite (sum_ext _ (fun _ => 0)); [apply sum_zero|].
    intros u Iu. destruct (staked_view _ _ _ (Z u Iu)) as (SP & E).
    pose proof (pi_price _ _ (wi_pool _ _ _ W)) as PR.
    destruct (N.eq_dec (stake_shares (acct (w_pool w) u)) 0) as [|NZ]; auto. exfalso.
    assert (1 <= T_ (w_pool w) * stake_shares (acct (w_pool w) u) / S_ (w_pool w)); [|lia].
    apply div_ge; auto. nia. }
  pose proof (history_settled self us ND _ _ _ evs' W HE Q) as G. cbn zeta in G. fold h w' in G.
  destruct (gval_views us _ b NE HB) as (_ & A). destruct (gval_views us _ b' NE HB') as (B & _).
  unfold gpaid, gdep in G. lia.
Qed.
