(** Deposits and withdrawals in parts (C126). *)
From Coq Require Import NArith List Bool String Lia.
From Verif Require Import Prelude PreludeFacts StakingPoolModel StakingPoolSpec StakingPoolProofs
  StakingPoolHistory StakingPoolFacts StakingPoolPingFirst.
Import ListNotations.
Open Scope string_scope.
Open Scope N_scope.

Lemma minsert_twice (k : account_id) (v v' : account) m : minsert k v' (minsert k v m) = minsert k v' m.
Proof.
  induction m as [|[k1 v1] m IH]; cbn [minsert].
  - now rewrite keqb_refl.
  - destruct (keqb k k1) eqn:E; cbn [minsert]; rewrite E; [reflexivity|]. now rewrite IH.
Qed.
Lemma minsert_mremove (k : account_id) (v : account) m : mget k m <> None -> mremove k (minsert k v m) = mremove k m.
Proof.
  induction m as [|[k1 v1] m IH]; cbn [mget minsert mremove]; [congruence|]. intros H.
  destruct (keqb k k1) eqn:E; cbn [mremove]; rewrite E; [reflexivity|]. now rewrite IH.
Qed.
Lemma get_saved p k acc : 0 < unstaked acc -> internal_get_account (internal_save_account p k acc) k = acc.
Proof.
  intros H. unfold internal_get_account, internal_save_account. apply N.ltb_lt in H. rewrite H. cbn.
  now rewrite mget_minsert_eq.
Qed.
Lemma save_twice p k acc acc' : 0 < unstaked acc -> (mget k (accounts p) <> None \/ 0 < unstaked acc') ->
  internal_save_account (internal_save_account p k acc) k acc' = internal_save_account p k acc'.
Proof.
  intros H O. unfold internal_save_account. apply N.ltb_lt in H. rewrite H. cbn [orb].
  destruct ((0 <? unstaked acc') || (0 <? stake_shares acc')) eqn:E; unfold set_accounts; cbn.
  - now rewrite minsert_twice.
  - rewrite minsert_mremove; [reflexivity|]. destruct O as [O|O]; [exact O|]. apply N.ltb_lt in O. rewrite O in E. discriminate E.
Qed.
Lemma save_last p k acc : last_total_balance (internal_save_account p k acc) = last_total_balance p.
Proof. unfold internal_save_account. now destruct (_ || _). Qed.
Lemma save_set_last x p k acc : internal_save_account (set_last_total x p) k acc = set_last_total x (internal_save_account p k acc).
Proof. unfold internal_save_account. now destruct (_ || _). Qed.

Lemma get_set_last x p k : internal_get_account (set_last_total x p) k = internal_get_account p k.
Proof. reflexivity. Qed.
Lemma last_set_last x p : last_total_balance (set_last_total x p) = x.
Proof. reflexivity. Qed.
Lemma set_last_twice x y p : set_last_total x (set_last_total y p) = set_last_total x p.
Proof. reflexivity. Qed.

Lemma deposit_parts c1 c2 c3 p p1 p2 x1 x2 :
  internal_deposit c1 p = Ok (p1, x1) -> internal_deposit c2 p1 = Ok (p2, x2) ->
  ctx_predecessor c2 = ctx_predecessor c1 -> ctx_predecessor c3 = ctx_predecessor c1 -> 0 < ctx_attached c1 ->
  ctx_attached c3 = ctx_attached c1 + ctx_attached c2 ->
  exists x, internal_deposit c3 p = Ok (p2, x).
Proof.
  unfold internal_deposit. cbv zeta. intros H1 H2 P2 P3 A1 A3. rewrite P2 in H2. rewrite P3.
  inv_res. rewrite !save_last in *.
  repeat match goal with H : add128 _ _ = Ok _ |- _ => apply add_chk_ok in H; destruct H as (? & ?) end.
  rewrite get_set_last, last_set_last in *. rewrite get_saved in * by (cbn; lia). cbn [unstaked stake_shares unstaked_available_epoch_height] in *.
  eexists. unfold add128. rewrite add_chk_intro by lia. cbn [bind]. rewrite save_last, add_chk_intro by lia. cbn [bind].
  rewrite save_set_last, set_last_twice, save_twice by (cbn; lia). rewrite A3, !N.add_assoc. reflexivity.
Qed.

Lemma get_saved_zero p k acc : NoDup (mkeys (accounts p)) -> unstaked acc = 0 ->
  unstaked (internal_get_account (internal_save_account p k acc) k) = 0.
Proof.
  intros ND Z. unfold internal_get_account, internal_save_account. rewrite Z. cbn [N.ltb orb].
  destruct (0 <? stake_shares acc) eqn:E; cbn; rewrite ?E; cbn.
  - now rewrite mget_minsert_eq.
  - now rewrite mget_mremove_eq by exact ND.
Qed.

Lemma withdraw_parts c c2 c3 p p1 p2 a b o1 o2 : NoDup (mkeys (accounts p)) ->
  ctx_predecessor c2 = ctx_predecessor c -> ctx_predecessor c3 = ctx_predecessor c -> ctx_epoch c3 = ctx_epoch c ->
  internal_withdraw c p a = Ok (p1, o1) -> internal_withdraw c2 p1 b = Ok (p2, o2) ->
  internal_withdraw c3 p (a + b) = Ok (p2, [PTransfer (ctx_predecessor c) (a + b)]) /\
  o1 = [PTransfer (ctx_predecessor c) a] /\ o2 = [PTransfer (ctx_predecessor c) b].
Proof.
  intros ND P2 P3 E3. unfold internal_withdraw. cbv zeta. rewrite P2, P3, E3. intros H1 H2. inv_res. rewrite !save_last in *.
  repeat match goal with
  | H : sub_chk _ _ = Ok _ |- _ => apply sub_chk_ok in H; destruct H as (? & ?)
  | H : (_ <? _) = true |- _ => apply N.ltb_lt in H
  | H : (_ <=? _) = true |- _ => apply N.leb_le in H
  end. subst. split; [|auto].
  rewrite !get_set_last, !last_set_last in *. set (k := ctx_predecessor c) in *. set (r := internal_get_account p k) in *.
  assert (AB : a < unstaked r).
  { destruct (N.eq_dec (unstaked r - a) 0) as [Z|]; [|lia].
    rewrite get_saved_zero in * by auto. lia. }
  rewrite get_saved in * by (cbn; lia). cbn [unstaked stake_shares unstaked_available_epoch_height] in *.
  assert (IN : mget k (accounts p) <> None).
  { unfold r, internal_get_account in AB. destruct (mget k (accounts p)); [discriminate|]. cbn in AB. lia. }
  rewrite save_set_last, set_last_twice, save_twice by (cbn; auto; lia).
  assert (R1 : (0 <? a + b) = true) by (apply N.ltb_lt; lia).
  assert (R2 : (a + b <=? unstaked r) = true) by (apply N.leb_le; lia).
  assert (R3 : (unstaked_available_epoch_height r <=? ctx_epoch c) = true) by (now apply N.leb_le).
  rewrite R1, R2, R3. cbn [require bind]. rewrite sub_chk_intro by lia. cbn [bind].
  rewrite save_last, sub_chk_intro by lia. cbn [bind]. now rewrite <- !N.sub_add_distr.
Qed.

Lemma restake_deposit c p p' x : internal_deposit c p = Ok (p', x) -> internal_restake p' = internal_restake p.
Proof. unfold internal_deposit, internal_save_account. cbv zeta. intros H. inv_res. now destruct (_ || _). Qed.
Lemma restake_withdraw c p a p' o : internal_withdraw c p a = Ok (p', o) -> internal_restake p' = internal_restake p.
Proof. unfold internal_withdraw, internal_save_account. cbv zeta. intros H. inv_res. now destruct (_ || _). Qed.

Lemma deposits_add_up self w who a b loc rs w1 ps1 loc2 rs2 w2 ps2 :
  step self w (EvCall who a loc rs Deposit) = (w1, Some ps1) ->
  step self w1 (EvCall who b loc2 rs2 Deposit) = (w2, Some ps2) ->
  0 < a -> w_total w + a + b < U128_BOUND ->
  step self w (EvCall who (a + b) loc rs Deposit) = (w2, Some (ps1 ++ ps2)%list).
Proof.
  intros H1 H2 A B. apply step_call_some in H1. destruct H1 as (CP & L & p1 & E1 & O1 & ->).
  pose proof (exec_epoch _ _ _ _ _ E1) as LE. cbn in LE.
  apply step_call_some in H2. destruct H2 as (_ & L2 & p2 & E2 & O2 & ->).
  cbn [w_pool w_total w_epoch] in *.
  unfold exec, deposit in E1, E2. inv_res.
  repeat match goal with H : internal_ping _ _ = Ok ?x |- _ => is_var x; destruct x as [? ?] end.
  repeat match goal with H : internal_deposit _ _ = Ok ?x |- _ => is_var x; destruct x as [? ?] end.
  inv_res.
  match goal with H : internal_ping (call_ctx _ (mkWorld _ _ _) _ _ _ _) _ = _ |- _ =>
    rewrite StakingPoolFeeLater.ping_now in H by (cbn; exact LE); injection H as <- <- end.
  repeat match goal with H : internal_deposit _ _ = Ok ?x |- _ => is_var x; destruct x as [? ?] end. inv_res.
  destruct (deposit_parts _ _ (call_ctx self w who (a + b) loc rs) _ _ _ _ _ E8 E7) as (z & D); auto.
  pose proof (restake_deposit _ _ _ _ E7) as RS.
  assert (R : forall n, restake_if n p2 = restake_if n p1) by (intros []; cbn; auto).
  unfold step. rewrite CP. assert (LB : (loc <=? w_total w) = true) by (now apply N.leb_le). rewrite LB. cbn [andb].
  change (mkCtx self who (a + b) (w_total w - loc + (a + b)) loc (w_epoch w) rs) with (call_ctx self w who (a + b) loc rs).
  unfold exec, deposit. cbn [args_fit payable orb require bind].
  rewrite (internal_ping_ext _ (call_ctx self w who a loc rs)) by (cbn; lia). rewrite E6. cbn [bind]. rewrite D. cbn [bind].
  rewrite R, !outgoing_restake_if, app_nil_r. cbn [N.leb N.compare].
  destruct (N.leb_spec 0 (w_total w - loc + (a + b))); [|lia]. do 2 f_equal. cbn [outgoing fold_right]. lia.
Qed.

Lemma withdrawals_add_up self w0 evs who a b loc rs w1 ps1 loc2 rs2 w2 ps2 :
  initial self w0 ->
  let w := final self w0 evs in
  step self w (EvCall who 0 loc rs (Withdraw a)) = (w1, Some ps1) ->
  step self w1 (EvCall who 0 loc2 rs2 (Withdraw b)) = (w2, Some ps2) ->
  w_total w < U128_BOUND ->
  payments ps1 = [PTransfer who a] /\ payments ps2 = [PTransfer who b] /\
  exists ps3, step self w (EvCall who 0 loc2 rs2 (Withdraw (a + b))) = (w2, Some ps3) /\
    payments ps3 = [PTransfer who (a + b)] /\ last_stake ps3 = last_stake (ps1 ++ ps2)%list.
Proof.
  intros HI w H1 H2 B. destruct (reach self w0 evs HI) as (W & _). fold w in W.
  pose proof (wi_pool _ _ _ W) as PI.
  apply step_call_some in H1. destruct H1 as (CP & L & p1 & E1 & O1 & ->).
  pose proof (exec_epoch _ _ _ _ _ E1) as LE. cbn in LE.
  apply step_call_some in H2. destruct H2 as (_ & L2 & p2 & E2 & O2 & ->).
  cbn [w_pool w_total w_epoch] in *.
  unfold exec, withdraw in E1, E2. inv_res.
  repeat match goal with H : internal_ping _ _ = Ok ?x |- _ => is_var x; destruct x as [? ?] end.
  inv_res.
  match goal with H : internal_ping (call_ctx _ (mkWorld _ _ _) _ _ _ _) _ = _ |- _ =>
    rewrite StakingPoolFeeLater.ping_now in H by (cbn; exact LE); injection H as <- <- end.
  repeat match goal with H : internal_withdraw _ _ _ = Ok ?x |- _ => is_var x; destruct x as [? ?] end. inv_res.
  destruct (ping_winv _ _ w _ _ _ W E6) as (W1 & _); [cbn; lia|reflexivity|].
  pose proof (pi_nodup _ _ (wi_pool _ _ _ W1)) as ND. cbn [w_pool] in ND.
  destruct (withdraw_parts _ _ (call_ctx self w who 0 loc2 rs2) _ _ _ _ _ _ _ ND eq_refl eq_refl eq_refl E8 E7) as (D & -> & ->).
  pose proof (restake_withdraw _ _ _ _ _ E7) as RS. cbn [ctx_predecessor call_ctx] in *.
  assert (R : forall n, restake_if n p2 = restake_if n p1) by (intros []; cbn; auto).
  assert (PN : forall n q, payments (restake_if n q) = []) by (intros [] q; cbn; unfold internal_restake; [destruct (paused q)|]; reflexivity).
  cbn [app restake_if] in *. rewrite !outgoing_transfer, ?outgoing_restake_if in *. cbn [outgoing fold_right] in *.
  split; [unfold payments in *; cbn [filter]; now rewrite PN|]. split; [reflexivity|].
  exists (PTransfer who (a + b) :: restake_if b1 p2). split; [|split].
  - unfold step. change (caller_possible self who (Withdraw (a + b))) with (caller_possible self who (Withdraw a)). rewrite CP. assert (LB : (loc2 <=? w_total w) = true) by (apply N.leb_le; lia). rewrite LB. cbn [andb].
    change (mkCtx self who 0 (w_total w - loc2 + 0) loc2 (w_epoch w) rs2) with (call_ctx self w who 0 loc2 rs2).
    unfold exec, withdraw. cbn [args_fit payable orb]. unfold fits. 
    assert (F : (a + b <? U128_BOUND) = true) by (apply N.ltb_lt; lia). rewrite F. cbn [require bind ctx_attached call_ctx N.eqb].
    change (mkCtx self who 0 (w_total w - loc2 + 0) loc2 (w_epoch w) rs2) with (call_ctx self w who 0 loc2 rs2).
    rewrite (internal_ping_ext _ (call_ctx self w who 0 loc rs)) by (cbn; lia). rewrite E6. cbn [bind].
    rewrite D. cbn [bind app]. rewrite outgoing_transfer, outgoing_restake_if.
    destruct (N.leb_spec (a + b + 0) (w_total w - loc2 + 0)); [|lia]. do 2 f_equal. lia.
  - unfold payments in *; cbn [filter]; now rewrite PN.
  - rewrite R. destruct b1; cbn; unfold internal_restake; [destruct (paused p1)|]; reflexivity.
Qed.
