(** Proofs about the wrapped NEAR token. *)
From Coq Require Import NArith List Bool String Lia ZifyN ZifyBool Permutation.
From Verif Require Import Prelude PreludeFacts MapFacts Messages WNearModel WNearSpec.
Import ListNotations.
Open Scope string_scope.
Open Scope N_scope.

Lemma final_app self w evs evs' : final self w (evs ++ evs') = final self (final self w evs) evs'.
Proof. revert w. induction evs as [|e evs IH]; intros w; cbn; auto. Qed.
Lemma log_app self w evs evs' : log self w (evs ++ evs') = (log self w evs ++ log self (final self w evs) evs')%list.
Proof. revert w. induction evs as [|e evs IH]; intros w; cbn; auto. now rewrite IH, app_assoc. Qed.
Lemma sum_app l l' : sum (l ++ l') = sum l + sum l'.
Proof. unfold sum. induction l as [|x l IH]; cbn [app fold_right]; auto. rewrite IH. lia. Qed.
Lemma sum_perm l l' : Permutation l l' -> sum l = sum l'.
Proof. unfold sum. induction 1; cbn [fold_right]; lia. Qed.

(** * Well-formed tokens *)
Definition total (t : token) : N := msum (fun x => x) (accounts t).
Record wf (t : token) : Prop := mkWf {
  wf_nd : NoDup (mkeys (accounts t));
  wf_supply : total_supply t = total t;
  wf_bound : total_supply t < U128_BOUND;
  wf_usage : account_storage_usage t = 125
}.
(** What the contract owes: the supply and a deposit for each account. *)
Definition owed (t : token) : N := total_supply t + DEPOSIT * mlen (accounts t).

Lemma wf_new : wf new.
Proof. constructor; cbn; auto. constructor. exact U128_pos. Qed.
Lemma storage_min_125 : mul128 125 STORAGE_BYTE_COST = Ok DEPOSIT.
Proof. vm_compute. reflexivity. Qed.
Lemma storage_min_ok t : wf t -> storage_min t = Ok DEPOSIT.
Proof. intros W. unfold storage_min. rewrite (wf_usage t W). exact storage_min_125. Qed.
Lemma add_deposit_one : add128 DEPOSIT 1 = Ok (DEPOSIT + 1).
Proof. vm_compute. reflexivity. Qed.

Lemma DEPOSIT_pos : 0 < DEPOSIT.
Proof. reflexivity. Qed.
#[local] Opaque DEPOSIT.

Lemma mlen_in k v (m : umap account_id N) b : mget k m = Some b -> mlen (minsert k v m) = mlen m.
Proof. intros G. pose proof (mlen_minsert k v m) as L. unfold mmem in L. rewrite G in L. lia. Qed.
Lemma mlen_out k v (m : umap account_id N) : mget k m = None -> mlen (minsert k v m) = mlen m + 1.
Proof. intros G. pose proof (mlen_minsert k v m) as L. unfold mmem in L. rewrite G in L. lia. Qed.

(** * What each call does *)
Definition set_balance (t : token) (a : account_id) (b s : N) : token :=
  mkToken (minsert a b (accounts t)) s (account_storage_usage t).
Definition moved (t : token) (s r : account_id) (bs br : N) : token :=
  mkToken (minsert r br (minsert s bs (accounts t))) (total_supply t) (account_storage_usage t).

Inductive effect (c : ctx) (t : token) : call -> token -> list promise -> value -> Prop :=
| F_deposit b : 0 < ctx_attached c -> mget (ctx_predecessor c) (accounts t) = Some b ->
    total_supply t + ctx_attached c < U128_BOUND ->
    effect c t NearDeposit (set_balance t (ctx_predecessor c) (b + ctx_attached c) (total_supply t + ctx_attached c)) [] VNone
| F_deposit_new : mget (ctx_predecessor c) (accounts t) = None -> DEPOSIT <= ctx_attached c ->
    total_supply t + (ctx_attached c - DEPOSIT) < U128_BOUND ->
    effect c t NearDeposit
      (set_balance (set_balance t (ctx_predecessor c) 0 (total_supply t)) (ctx_predecessor c) (0 + (ctx_attached c - DEPOSIT))
         (total_supply t + (ctx_attached c - DEPOSIT))) [] VNone
| F_withdraw x b : x + 1 < U128_BOUND -> ctx_attached c = 1 -> mget (ctx_predecessor c) (accounts t) = Some b -> x <= b ->
    effect c t (NearWithdraw x) (set_balance t (ctx_predecessor c) (b - x) (total_supply t - x))
      [PTransfer (ctx_predecessor c) (x + 1)] VNone
| F_transfer r x bs br : is_valid_account_id r = true -> ctx_attached c = 1 -> ctx_predecessor c <> r -> 0 < x ->
    mget (ctx_predecessor c) (accounts t) = Some bs -> x <= bs -> mget r (accounts t) = Some br ->
    effect c t (FtTransfer r x) (moved t (ctx_predecessor c) r (bs - x) (br + x)) [] VNone
| F_transfer_call r x bs br : is_valid_account_id r = true -> ctx_attached c = 1 -> ctx_predecessor c <> r -> 0 < x ->
    mget (ctx_predecessor c) (accounts t) = Some bs -> x <= bs -> mget r (accounts t) = Some br ->
    GAS_FOR_FT_TRANSFER_CALL <= ctx_prepaid_gas c ->
    effect c t (FtTransferCall r x) (moved t (ctx_predecessor c) r (bs - x) (br + x))
      [PTransferCall (ctx_predecessor c) r x (ctx_prepaid_gas c - GAS_FOR_FT_TRANSFER_CALL)] VNone
| F_resolve_nothing s d x r : ctx_predecessor c = ctx_current c -> ctx_result c = Some r ->
    unused_of r x = 0 \/ ft_balance_of t d = 0 ->
    effect c t (FtResolveTransfer s d x) t [] (VAmount x)
| F_resolve_refund s d x r bd bs : ctx_predecessor c = ctx_current c -> ctx_result c = Some r ->
    0 < unused_of r x -> mget d (accounts t) = Some bd -> 0 < bd ->
    mget s (minsert d (bd - N.min bd (unused_of r x)) (accounts t)) = Some bs ->
    effect c t (FtResolveTransfer s d x)
      (mkToken (minsert s (bs + N.min bd (unused_of r x)) (minsert d (bd - N.min bd (unused_of r x)) (accounts t)))
         (total_supply t) (account_storage_usage t)) [] (VAmount (x - N.min bd (unused_of r x)))
| F_resolve_burn s d x r bd : ctx_predecessor c = ctx_current c -> ctx_result c = Some r ->
    0 < unused_of r x -> mget d (accounts t) = Some bd -> 0 < bd -> s <> d -> mget s (accounts t) = None ->
    effect c t (FtResolveTransfer s d x)
      (set_balance t d (bd - N.min bd (unused_of r x)) (total_supply t - N.min bd (unused_of r x))) [] (VAmount x)
| F_storage_deposit_again o ro a : (match o with Some b => b | None => ctx_predecessor c end) = a ->
    mmem a (accounts t) = true ->
    effect c t (StorageDeposit o ro) t
      (if 0 <? ctx_attached c then [PTransfer (ctx_predecessor c) (ctx_attached c)] else []) (VStorage DEPOSIT 0)
| F_storage_deposit o ro a : (match o with Some b => b | None => ctx_predecessor c end) = a ->
    mget a (accounts t) = None -> DEPOSIT <= ctx_attached c ->
    effect c t (StorageDeposit o ro) (set_balance t a 0 (total_supply t))
      (if 0 <? ctx_attached c - DEPOSIT then [PTransfer (ctx_predecessor c) (ctx_attached c - DEPOSIT)] else [])
      (VStorage DEPOSIT 0)
| F_storage_withdraw o : ctx_attached c = 1 -> mmem (ctx_predecessor c) (accounts t) = true ->
    o = None \/ o = Some 0 -> effect c t (StorageWithdraw o) t [] (VStorage DEPOSIT 0)
| F_unregister b f : ctx_attached c = 1 -> mget (ctx_predecessor c) (accounts t) = Some b -> b = 0 \/ f = Some true ->
    effect c t (StorageUnregister f) (mkToken (mremove (ctx_predecessor c) (accounts t)) (total_supply t - b) (account_storage_usage t))
      [PTransfer (ctx_predecessor c) (DEPOSIT + 1)] (VBool true)
| F_unregister_none f : ctx_attached c = 1 -> mget (ctx_predecessor c) (accounts t) = None ->
    effect c t (StorageUnregister f) t [] (VBool false).

Lemma bal_le_total t a b : mget a (accounts t) = Some b -> b <= total t.
Proof. intros G. exact (msum_ge (fun x => x) _ _ _ G). Qed.

Lemma total_minsert t a b s u :
  total (mkToken (minsert a b (accounts t)) s u) + match mget a (accounts t) with Some o => o | None => 0 end = total t + b.
Proof. unfold total. cbn [accounts]. exact (msum_minsert (fun x => x) a b (accounts t)). Qed.

Lemma deposit_ok t a x t' : internal_deposit t a x = Ok t' ->
  exists b, mget a (accounts t) = Some b /\ total_supply t + x < U128_BOUND /\
    t' = set_balance t a (b + x) (total_supply t + x).
Proof. unfold internal_deposit, unwrap_balance_of. intros E. inv_res. eauto. Qed.
Lemma withdraw_ok t a x t' : internal_withdraw t a x = Ok t' ->
  exists b, mget a (accounts t) = Some b /\ x <= b /\ x <= total_supply t /\
    t' = set_balance t a (b - x) (total_supply t - x).
Proof. unfold internal_withdraw, unwrap_balance_of. intros E. inv_res. eauto 6. Qed.
Lemma register_ok t a t' : internal_register_account t a = Ok t' ->
  mget a (accounts t) = None /\ t' = set_balance t a 0 (total_supply t).
Proof.
  unfold internal_register_account. intros E. inv_res. split; auto.
  apply mmem_false. now destruct (mmem a (accounts t)).
Qed.
Lemma transfer_ok t s r x t' : internal_transfer t s r x = Ok t' ->
  s <> r /\ 0 < x /\ exists bs br, mget s (accounts t) = Some bs /\ mget r (accounts t) = Some br /\ x <= bs /\
    t' = moved t s r (bs - x) (br + x).
Proof.
  unfold internal_transfer. intros E. inv_res.
  match goal with K : negb _ = true |- _ => apply negb_true_iff, String.eqb_neq in K; rename K into NE end.
  match goal with K : (0 <? x) = true |- _ => apply N.ltb_lt in K; rename K into P end.
  match goal with K : internal_withdraw _ _ _ = _ |- _ => apply withdraw_ok in K; destruct K as (bs & G & L & L' & ->) end.
  apply deposit_ok in E. destruct E as (br & G' & B & ->). cbn [set_balance accounts total_supply account_storage_usage] in *.
  rewrite mget_minsert_neq in G' by congruence. split; auto. split; auto. exists bs, br. repeat split; auto.
  unfold moved, set_balance. cbn [accounts total_supply account_storage_usage]. f_equal. lia.
Qed.
Lemma resolve_ok t r s d x t' used : internal_resolve t r s d x = Ok (t', used) ->
  (unused_of r x = 0 \/ ft_balance_of t d = 0) /\ t' = t /\ used = x \/
  exists bd, mget d (accounts t) = Some bd /\ 0 < bd /\ 0 < unused_of r x /\
    let f := N.min bd (unused_of r x) in
    (exists bs, mget s (minsert d (bd - f) (accounts t)) = Some bs /\ used = x - f /\
       t' = mkToken (minsert s (bs + f) (minsert d (bd - f) (accounts t))) (total_supply t) (account_storage_usage t)) \/
    (mget s (minsert d (bd - f) (accounts t)) = None /\ used = x /\ t' = set_balance t d (bd - f) (total_supply t - f)).
Proof.
  unfold internal_resolve. change (match r with Unused n => N.min x n | _ => x end) with (unused_of r x). cbv zeta.
  fold (ft_balance_of t d). destruct (N.ltb_spec 0 (unused_of r x)) as [P|P].
  2: { intros E. injection E as <- <-. left. split; [left; lia|auto]. }
  destruct (N.ltb_spec 0 (ft_balance_of t d)) as [Q|Q].
  2: { intros E. injection E as <- <-. left. split; [right; lia|auto]. }
  intros E. right. unfold ft_balance_of in *. destruct (mget d (accounts t)) as [bd|] eqn:G; [|lia].
  exists bd. split; auto. split; auto. split; auto. inv_res.
  destruct (mget s _) as [bs|] eqn:GS; inv_res; [left|right]; eauto.
Qed.

Lemma exec_effect c t cl t' ps v : wf t -> exec c t cl = Ok (t', ps, v) -> effect c t cl t' ps v.
Proof.
  intros W E. unfold exec in E. apply bind_ok in E. destruct E as (u & A & E). apply require_ok in A.
  pose proof (storage_min_ok t W) as MIN.
  destruct cl as [| |x|r x|r x|s d x|o ro|o|f]; cbn [arguments_ok] in A; [discriminate| | | | | | | |].
  - unfold near_deposit in E. apply bind_ok in E. destruct E as ([] & P & E). apply require_ok, N.ltb_lt in P.
    apply bind_ok in E. destruct E as ([t1 x] & E1 & E). apply bind_ok in E. destruct E as (t2 & D & E).
    injection E as <- <- <-. apply deposit_ok in D. destruct D as (b & G & B & ->).
    destruct (mmem (ctx_predecessor c) (accounts t)) eqn:M; cbn [negb] in E1.
    + injection E1 as <- <-. now apply F_deposit.
    + apply mmem_false in M. rewrite MIN in E1. cbn [bind] in E1. apply bind_ok in E1. destruct E1 as ([] & L & E1).
      apply require_ok, N.leb_le in L. apply bind_ok in E1. destruct E1 as (t3 & R & E1).
      apply register_ok in R. destruct R as [_ ->].
      replace (storage_min (set_balance t (ctx_predecessor c) 0 (total_supply t))) with (storage_min t) in E1 by reflexivity.
      rewrite MIN in E1. cbn [bind] in E1. rewrite sub_chk_intro in E1 by auto. injection E1 as <- <-.
      cbn [set_balance accounts] in G. rewrite mget_minsert_eq in G. injection G as <-. exact (F_deposit_new c t M L B).
  - unfold near_withdraw, assert_one_yocto in E. apply bind_ok in E. destruct E as ([] & P & E).
    apply require_ok, N.eqb_eq in P. apply bind_ok in E. destruct E as (t1 & D & E).
    apply withdraw_ok in D. destruct D as (b & G & L & L' & ->). inv_res. now apply F_withdraw.
  - apply andb_true_iff in A. destruct A as [A1 A2].
    unfold ft_transfer, assert_one_yocto in E. apply bind_ok in E. destruct E as ([] & P & E).
    apply require_ok, N.eqb_eq in P. apply bind_ok in E. destruct E as (t1 & D & E). injection E as <- <- <-.
    apply transfer_ok in D. destruct D as (NE & Px & bs & br & G1 & G2 & L & ->). now apply F_transfer.
  - apply andb_true_iff in A. destruct A as [A1 A2].
    unfold ft_transfer_call, assert_one_yocto in E. apply bind_ok in E. destruct E as ([] & P & E).
    apply require_ok, N.eqb_eq in P. apply bind_ok in E. destruct E as (t1 & D & E).
    apply transfer_ok in D. destruct D as (NE & Px & bs & br & G1 & G2 & L & ->). inv_res. now apply F_transfer_call.
  - unfold ft_resolve_transfer in E. apply bind_ok in E. destruct E as ([] & P & E). apply require_ok, String.eqb_eq in P.
    apply bind_ok in E. destruct E as ([] & Q & E). apply bind_ok in E. destruct E as (r & R & E). apply expect_ok in R.
    apply bind_ok in E. destruct E as ([t1 used] & D & E). injection E as <- <- <-.
    apply resolve_ok in D. destruct D as [(Z & -> & ->)|(bd & G & Pb & Pu & D)].
    + now apply F_resolve_nothing with r.
    + cbv zeta in D. destruct D as [(bs & GS & -> & ->)|(GS & -> & ->)].
      * now apply F_resolve_refund.
      * rewrite mget_minsert in GS. destruct (keqb_spec s d); [discriminate|]. now apply F_resolve_burn.
  - unfold storage_deposit in E. rewrite MIN in E. cbn [bind] in E. cbv zeta in E.
    set (a := match o with Some b => b | None => ctx_predecessor c end) in *.
    destruct (mmem a (accounts t)) eqn:M.
    + injection E as <- <- <-. now apply F_storage_deposit_again with a.
    + apply bind_ok in E. destruct E as ([] & L & E). apply require_ok, N.leb_le in L.
      apply bind_ok in E. destruct E as (t1 & R & E). apply register_ok in R. destruct R as [G ->].
      inv_res. now apply F_storage_deposit.
  - unfold storage_withdraw, assert_one_yocto in E. apply bind_ok in E. destruct E as ([] & P & E).
    apply require_ok, N.eqb_eq in P. apply bind_ok in E. destruct E as ([] & M & E). apply require_ok in M.
    rewrite MIN in E. cbn [bind] in E. apply bind_ok in E. destruct E as ([] & Z & E). apply require_ok in Z.
    injection E as <- <- <-. apply F_storage_withdraw; auto. destruct o as [y|]; auto. apply N.eqb_eq in Z. subst. auto.
  - unfold storage_unregister, assert_one_yocto in E. apply bind_ok in E. destruct E as ([] & P & E).
    apply require_ok, N.eqb_eq in P. destruct (mget (ctx_predecessor c) (accounts t)) as [b|] eqn:G.
    + apply bind_ok in E. destruct E as ([] & Z & E). apply require_ok in Z. apply bind_ok in E. destruct E as (sp & S & E).
      rewrite MIN in E. cbn [bind] in E. rewrite add_deposit_one in E. cbn [bind] in E.
      apply sub_chk_ok in S. destruct S as [-> S]. injection E as <- <- <-.
      apply F_unregister; auto. apply orb_true_iff in Z. destruct Z as [Z|Z]; [left; now apply N.eqb_eq|right].
      destruct f as [[]|]; auto; discriminate.
    + injection E as <- <- <-. now apply F_unregister_none.
Qed.

(** * Well-formedness is kept *)
Definition old (t : token) (a : account_id) : N := ft_balance_of t a.
Lemma wf_set t a b s : wf t -> s + ft_balance_of t a = total_supply t + b -> s < U128_BOUND -> wf (set_balance t a b s).
Proof.
  intros [ND S B U] E L. constructor; cbn [set_balance accounts total_supply account_storage_usage]; auto.
  - now apply NoDup_minsert.
  - pose proof (total_minsert t a b s (account_storage_usage t)) as T. unfold ft_balance_of in E. unfold set_balance. lia.
Qed.
Lemma ft_set t a b s a' : ft_balance_of (set_balance t a b s) a' = if keqb a' a then b else ft_balance_of t a'.
Proof. unfold ft_balance_of, set_balance. cbn [accounts]. rewrite mget_minsert. destruct (keqb a' a); auto. Qed.
Lemma bal_le t a : wf t -> ft_balance_of t a <= total_supply t.
Proof.
  intros W. rewrite (wf_supply t W). unfold ft_balance_of. destruct (mget a (accounts t)) eqn:G; [|lia]. eapply bal_le_total; eauto.
Qed.
Lemma ft_get t a b : mget a (accounts t) = Some b -> ft_balance_of t a = b.
Proof. unfold ft_balance_of. now intros ->. Qed.
Lemma ft_none t a : mget a (accounts t) = None -> ft_balance_of t a = 0.
Proof. unfold ft_balance_of. now intros ->. Qed.
Lemma two_le t s r bs br : wf t -> s <> r -> mget s (accounts t) = Some bs -> mget r (accounts t) = Some br ->
  bs + br <= total_supply t.
Proof.
  intros W NE G1 G2. pose proof (bal_le t s W) as LS. rewrite (ft_get _ _ _ G1) in LS.
  assert (W1 : wf (set_balance t s 0 (total_supply t - bs))).
  { apply wf_set; auto. rewrite (ft_get _ _ _ G1). lia. pose proof (wf_bound t W). lia. }
  pose proof (bal_le _ r W1) as L. rewrite ft_set, keqb_neq in L by congruence. rewrite (ft_get _ _ _ G2) in L.
  cbn [set_balance total_supply] in L. lia.
Qed.
Lemma wf_moved t s r bs br bs' br' : wf t -> s <> r -> mget s (accounts t) = Some bs -> mget r (accounts t) = Some br ->
  bs' + br' = bs + br -> wf (moved t s r bs' br').
Proof.
  intros W NE G1 G2 E. pose proof (two_le t s r bs br W NE G1 G2) as L.
  assert (W1 : wf (set_balance t s 0 (total_supply t - bs))).
  { apply wf_set; auto. rewrite (ft_get _ _ _ G1). lia. pose proof (wf_bound t W). lia. }
  assert (W2 : wf (set_balance (set_balance t s 0 (total_supply t - bs)) r 0 (total_supply t - bs - br))).
  { apply wf_set; auto. rewrite ft_set, keqb_neq by congruence. rewrite (ft_get _ _ _ G2). cbn [set_balance total_supply]. lia.
    pose proof (wf_bound t W). lia. }
  destruct W as [ND S B U]. constructor; cbn [moved accounts total_supply account_storage_usage]; auto.
  - now do 2 apply NoDup_minsert.
  - pose proof (total_minsert t s bs' (total_supply t) (account_storage_usage t)) as T1. rewrite G1 in T1.
    pose proof (total_minsert (mkToken (minsert s bs' (accounts t)) (total_supply t) (account_storage_usage t))
      r br' (total_supply t) (account_storage_usage t)) as T2.
    cbn [accounts] in T2. rewrite mget_minsert_neq, G2 in T2 by congruence. unfold moved. lia.
Qed.
Lemma refund_cases t s d bd f bs : wf t -> mget d (accounts t) = Some bd -> f <= bd ->
  mget s (minsert d (bd - f) (accounts t)) = Some bs ->
  let t' := mkToken (minsert s (bs + f) (minsert d (bd - f) (accounts t))) (total_supply t) (account_storage_usage t) in
  bs + f <= total_supply t /\ wf t' /\ mlen (accounts t') = mlen (accounts t).
Proof.
  intros W G L GS t'.
  pose proof (bal_le t d W) as LD. rewrite (ft_get _ _ _ G) in LD.
  assert (W1 : wf (set_balance t d (bd - f) (total_supply t - f))).
  { apply wf_set; auto. rewrite (ft_get _ _ _ G). lia. pose proof (wf_bound t W). lia. }
  pose proof (bal_le _ s W1) as LS. rewrite (ft_get (set_balance t d (bd - f) (total_supply t - f)) s bs GS) in LS.
  cbn [set_balance total_supply] in LS. split; [lia|]. split.
  - assert (W2 : wf (set_balance (set_balance t d (bd - f) (total_supply t - f)) s (bs + f) (total_supply t))).
    { apply wf_set; auto. rewrite (ft_get (set_balance t d (bd - f) (total_supply t - f)) s bs GS). cbn [set_balance total_supply]. lia.
      exact (wf_bound t W). }
    exact W2.
  - unfold t'. cbn [accounts]. rewrite (mlen_in _ _ _ _ GS). now rewrite (mlen_in _ _ _ _ G).
Qed.

Lemma effect_wf c t cl t' ps v : wf t -> effect c t cl t' ps v -> wf t'.
Proof.
  intros W F. pose proof (wf_bound t W) as B. destruct F; auto.
  - apply wf_set; auto. rewrite (ft_get _ _ _ H0). lia.
  - apply wf_set; [apply wf_set; auto; rewrite (ft_none _ _ H); lia| |auto].
    rewrite ft_set, keqb_refl. cbn [set_balance total_supply]. lia.
  - pose proof (bal_le t (ctx_predecessor c) W) as L. rewrite (ft_get _ _ _ H1) in L.
    apply wf_set; auto. rewrite (ft_get _ _ _ H1). lia. lia.
  - eapply wf_moved; eauto. lia.
  - eapply wf_moved; eauto. lia.
  - eapply refund_cases; eauto. lia.
  - pose proof (bal_le t d W) as L. rewrite (ft_get _ _ _ H2) in L.
    apply wf_set; auto. rewrite (ft_get _ _ _ H2). lia. lia.
  - apply wf_set; auto. rewrite (ft_none _ _ H0). lia.
  - pose proof (bal_le t (ctx_predecessor c) W) as L. rewrite (ft_get _ _ _ H0) in L.
    destruct W as [ND S _ U]. constructor; cbn [accounts total_supply account_storage_usage]; auto.
    + now apply NoDup_mremove.
    + unfold total in *. cbn [accounts]. pose proof (msum_mremove (fun x => x) (ctx_predecessor c) (accounts t)) as M.
      rewrite H0 in M. lia.
    + lia.
Qed.

(** No call pays out more than it brings in and stops owing. *)
Lemma effect_owed c t cl t' ps v : wf t -> effect c t cl t' ps v -> owed t' + sent ps <= owed t + ctx_attached c.
Proof.
  intros W F. unfold owed. destruct F; cbn [sent fold_right]; cbn [set_balance moved accounts total_supply]; try lia.
  - rewrite (mlen_in _ _ _ _ H0). lia.
  - rewrite (mlen_in _ _ _ 0) by apply mget_minsert_eq. rewrite (mlen_out _ _ _ H), N.mul_add_distr_l, N.mul_1_r. lia.
  - pose proof (bal_le t (ctx_predecessor c) W) as L. rewrite (ft_get _ _ _ H1) in L.
    rewrite (mlen_in _ _ _ _ H1). lia.
  - rewrite (mlen_in _ _ _ br), (mlen_in _ _ _ _ H3) by (rewrite mget_minsert_neq; congruence). lia.
  - rewrite (mlen_in _ _ _ br), (mlen_in _ _ _ _ H3) by (rewrite mget_minsert_neq; congruence). lia.
  - rewrite (mlen_in _ _ _ _ H4), (mlen_in _ _ _ _ H2). lia.
  - rewrite (mlen_in _ _ _ _ H2). lia.
  - destruct (N.ltb_spec 0 (ctx_attached c)); cbn [sent fold_right]; lia.
  - rewrite (mlen_out _ _ _ H0), N.mul_add_distr_l, N.mul_1_r. destruct (N.ltb_spec 0 (ctx_attached c - DEPOSIT)); cbn [sent fold_right]; lia.
  - pose proof (bal_le t (ctx_predecessor c) W) as L. rewrite (ft_get _ _ _ H0) in L.
    pose proof (mlen_mremove (ctx_predecessor c) (accounts t)) as M. unfold mmem in M. rewrite H0 in M.
    rewrite <- M, N.mul_add_distr_l, N.mul_1_r. lia.
Qed.

(** Conversely, nothing else makes a call fail. *)
Lemma transfer_intro t s r x bs br : wf t -> s <> r -> 0 < x -> mget s (accounts t) = Some bs -> x <= bs ->
  mget r (accounts t) = Some br -> internal_transfer t s r x = Ok (moved t s r (bs - x) (br + x)).
Proof.
  intros W NE P G1 L G2. pose proof (two_le t s r bs br W NE G1 G2) as T. pose proof (wf_bound t W) as B.
  unfold internal_transfer. rewrite (proj2 (String.eqb_neq _ _) NE), (proj2 (N.ltb_lt _ _) P). cbn [negb require bind].
  unfold internal_withdraw, unwrap_balance_of. rewrite G1. cbn [expect bind]. rewrite !sub_chk_intro by lia. cbn [bind].
  unfold internal_deposit, unwrap_balance_of. cbn [accounts total_supply account_storage_usage].
  rewrite mget_minsert_neq, G2 by congruence. cbn [expect bind]. unfold add128. rewrite !add_chk_intro by lia. cbn [bind].
  unfold moved. do 2 f_equal. lia.
Qed.
Lemma effect_exec c t cl t' ps v : wf t -> arguments_ok cl = true ->
  (forall s d x, cl = FtResolveTransfer s d x -> ctx_attached c = 0) ->
  effect c t cl t' ps v -> exec c t cl = Ok (t', ps, v).
Proof.
  intros W A Z F. unfold exec. rewrite A. cbn [require bind]. pose proof (storage_min_ok t W) as MIN.
  pose proof (wf_supply t W) as WS. pose proof (wf_bound t W) as WB.
  assert (LE : forall a b, mget a (accounts t) = Some b -> b <= total_supply t).
  { intros a b G. rewrite WS. eapply bal_le_total; eauto. }
  destruct F.
  - unfold near_deposit. cbv zeta. rewrite (proj2 (N.ltb_lt _ _) H). cbn [require bind]. unfold mmem. rewrite H0. cbn [negb bind].
    unfold internal_deposit, unwrap_balance_of. rewrite H0. cbn [expect bind].
    specialize (LE _ _ H0). unfold add128. rewrite !add_chk_intro by lia. reflexivity.
  - assert (P : 0 < ctx_attached c). { pose proof DEPOSIT_pos. lia. }
    unfold near_deposit. cbv zeta. rewrite (proj2 (N.ltb_lt _ _) P). cbn [require bind]. unfold mmem. rewrite H. cbn [negb].
    rewrite MIN. cbn [bind]. rewrite (proj2 (N.leb_le _ _) H0). cbn [require bind].
    unfold internal_register_account, mmem. rewrite H. cbn [negb require bind].
    replace (storage_min (mkToken (minsert (ctx_predecessor c) 0 (accounts t)) (total_supply t) (account_storage_usage t)))
      with (storage_min t) by reflexivity.
    rewrite MIN. cbn [bind]. rewrite sub_chk_intro by auto. cbn [bind].
    unfold internal_deposit, unwrap_balance_of. cbn [accounts total_supply account_storage_usage].
    rewrite mget_minsert_eq. cbn [expect bind]. unfold add128. rewrite !add_chk_intro by lia. reflexivity.
  - unfold near_withdraw, assert_one_yocto. rewrite H0. change (1 =? 1) with true. cbn [require bind].
    unfold internal_withdraw, unwrap_balance_of. rewrite H1. cbn [expect bind]. specialize (LE _ _ H1).
    rewrite !sub_chk_intro by lia. cbn [bind]. unfold add128. rewrite add_chk_intro by lia. reflexivity.
  - unfold ft_transfer, assert_one_yocto. rewrite H0. change (1 =? 1) with true. cbn [require bind].
    rewrite (transfer_intro _ _ _ _ _ _ W H1 H2 H3 H4 H5). reflexivity.
  - unfold ft_transfer_call, assert_one_yocto. rewrite H0. change (1 =? 1) with true. cbn [require bind].
    rewrite (transfer_intro _ _ _ _ _ _ W H1 H2 H3 H4 H5). cbn [bind]. rewrite sub_chk_intro by auto. reflexivity.
  - unfold ft_resolve_transfer. rewrite H, String.eqb_refl, (Z _ _ _ eq_refl). change (0 =? 0) with true. cbn [require bind].
    rewrite H0. cbn [expect bind].
    unfold internal_resolve. change (match r with Unused n => N.min x n | _ => x end) with (unused_of r x). cbv zeta.
    fold (ft_balance_of t d). destruct (N.ltb_spec 0 (unused_of r x)); [|reflexivity].
    destruct H1 as [H1|H1]; [lia|]. rewrite H1. reflexivity.
  - unfold ft_resolve_transfer. rewrite H, String.eqb_refl, (Z _ _ _ eq_refl). change (0 =? 0) with true. cbn [require bind].
    rewrite H0. cbn [expect bind].
    unfold internal_resolve. change (match r with Unused n => N.min x n | _ => x end) with (unused_of r x). cbv zeta.
    rewrite (proj2 (N.ltb_lt _ _) H1), H2, (proj2 (N.ltb_lt _ _) H3).
    assert (UX : unused_of r x <= x) by (unfold unused_of; destruct r; lia).
    destruct (refund_cases t s d bd (N.min bd (unused_of r x)) bs W H2 ltac:(lia) H4) as [L _].
    rewrite sub_chk_intro by lia. cbn [bind]. rewrite H4. unfold add128. rewrite add_chk_intro by lia. cbn [bind].
    rewrite sub_chk_intro by lia. reflexivity.
  - unfold ft_resolve_transfer. rewrite H, String.eqb_refl, (Z _ _ _ eq_refl). change (0 =? 0) with true. cbn [require bind].
    rewrite H0. cbn [expect bind].
    unfold internal_resolve. change (match r with Unused n => N.min x n | _ => x end) with (unused_of r x). cbv zeta.
    rewrite (proj2 (N.ltb_lt _ _) H1), H2, (proj2 (N.ltb_lt _ _) H3). rewrite sub_chk_intro by lia. cbn [bind].
    rewrite mget_minsert_neq, H5 by auto. specialize (LE _ _ H2). rewrite sub_chk_intro by lia. reflexivity.
  - unfold storage_deposit. cbv zeta. rewrite MIN, H, H0. reflexivity.
  - unfold storage_deposit. cbv zeta. rewrite MIN, H. cbn [bind]. unfold mmem at 1. rewrite H0.
    rewrite (proj2 (N.leb_le _ _) H1). cbn [require bind]. unfold internal_register_account, mmem. rewrite H0. cbn [negb require bind].
    rewrite sub_chk_intro by auto. reflexivity.
  - unfold storage_withdraw, assert_one_yocto. rewrite H, H0, MIN. change (1 =? 1) with true. cbn [require bind].
    destruct H1 as [->| ->]; reflexivity.
  - unfold storage_unregister, assert_one_yocto. rewrite H, H0. change (1 =? 1) with true. cbn [require bind].
    replace ((b =? 0) || match f with Some b0 => b0 | None => false end) with true
      by (destruct H1 as [->| ->]; [reflexivity|now rewrite orb_true_r]).
    cbn [require bind]. specialize (LE _ _ H0). rewrite sub_chk_intro by lia. cbn [bind]. rewrite MIN. cbn [bind].
    rewrite add_deposit_one. reflexivity.
  - unfold storage_unregister, assert_one_yocto. rewrite H, H0. reflexivity.
Qed.
