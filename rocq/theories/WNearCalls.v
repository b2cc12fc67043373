(** The calls of the wrapped NEAR token, one by one, in every reachable state. *)
From Coq Require Import NArith List Bool String Lia ZifyN ZifyBool Permutation.
From Verif Require Import Prelude PreludeFacts MapFacts Messages WNearModel WNearSpec WNearProofs WNearHist.
Import ListNotations.
Open Scope string_scope.
Open Scope N_scope.
#[local] Opaque DEPOSIT.

(** A state some history leads to. *)
Definition good (w : world) : Prop := wf (w_token w) /\ owed (w_token w) <= w_balance w /\ Forall msg_ok (w_msgs w).
Lemma good_reach self b evs : good (final self (start b) evs).
Proof. destruct (inv_history self b evs) as [W B M _ _]. split; [auto|split; [lia|auto]]. Qed.

Lemma accept self w who attached gas cl t ps v : good w -> who <> self -> is_valid_account_id who = true ->
  arguments_ok cl = true -> effect (mkCtx self who attached gas None) (w_token w) cl t ps v ->
  step_obs self w (ECall who attached gas cl) =
    (mkWorld t (w_balance w + attached - sent ps) (w_msgs w ++ map message ps), [BAccepted who attached cl v]).
Proof.
  intros (W & B & _) NE V A F. cbn [step_obs]. rewrite (proj2 (String.eqb_neq _ _) NE), V. cbn [orb negb].
  assert (E : exec (mkCtx self who attached gas None) (w_token w) cl = Ok (t, ps, v)).
  { apply effect_exec; auto. intros s d x ->. inversion F; cbn in *; congruence. }
  rewrite E. pose proof (effect_owed _ _ _ _ _ _ W F) as O. cbn [ctx_attached] in O.
  replace (sent ps <=? w_balance w + attached) with true by lia. reflexivity.
Qed.
Lemma accepted_inv self w who attached gas cl v : good w ->
  snd (step_obs self w (ECall who attached gas cl)) = [BAccepted who attached cl v] ->
  who <> self /\ is_valid_account_id who = true /\ arguments_ok cl = true /\
  exists t ps, effect (mkCtx self who attached gas None) (w_token w) cl t ps v /\
    step self w (ECall who attached gas cl) = mkWorld t (w_balance w + attached - sent ps) (w_msgs w ++ map message ps) /\
    sent ps <= w_balance w + attached.
Proof.
  intros (W & B & _) H. unfold step. cbn [step_obs] in *.
  destruct (String.eqb who self || negb (is_valid_account_id who)) eqn:G; [discriminate|].
  apply orb_false_iff in G. destruct G as [G V]. apply String.eqb_neq in G. apply negb_false_iff in V.
  destruct (exec _ _ _) as [[[t ps] v']|e] eqn:E; [|discriminate].
  destruct (N.leb_spec (sent ps) (w_balance w + attached)) as [L|]; [|discriminate].
  cbn [snd] in H. injection H as ->. split; auto. split; auto. split.
  { unfold exec in E. apply bind_ok in E. destruct E as (u & A & _). now apply require_ok in A. }
  exists t, ps. apply exec_effect in E; auto.
Qed.

Lemma not_registered w a : good w -> ~ registered w a <-> mget a (accounts (w_token w)) = None.
Proof.
  intros (W & _). rewrite registered_mem by auto. rewrite <- mmem_false. destruct (mmem a _); split; auto; congruence.
Qed.
Lemma is_registered w a : good w -> registered w a <-> mget a (accounts (w_token w)) = Some (bal w a).
Proof.
  intros (W & _). rewrite registered_mem by auto. rewrite mmem_mget. unfold bal, ft_balance_of.
  split; [intros [v ->]; auto|intros E; eauto].
Qed.

(** The state after an accepted call, in terms of the views. *)
Lemma accepts_effect self w who attached gas cl : good w -> accepts self w who attached gas cl ->
  let w' := step self w (ECall who attached gas cl) in
  exists t ps v, effect (mkCtx self who attached gas None) (w_token w) cl t ps v /\ sent ps <= w_balance w + attached /\
    (forall a, bal w' a = ft_balance_of t a) /\ supply w' = total_supply t /\
    (forall a, registered w' a <-> mmem a (accounts t) = true) /\
    w_balance w' = w_balance w + attached - sent ps /\ w_msgs w' = (w_msgs w ++ map message ps)%list.
Proof.
  intros G (v & H) w'. apply accepted_inv in H; auto. destruct H as (NE & V & _ & t & ps & F & E & L). fold w' in E.
  exists t, ps, v. split; auto. split; auto. pose proof (effect_wf _ _ _ _ _ _ (proj1 G) F) as W'.
  rewrite E. split; [reflexivity|]. split; [reflexivity|]. split; [|split; reflexivity].
  intros a. rewrite registered_mem; [reflexivity|exact W'].
Qed.

Ltac views G A w' :=
  destruct (accepts_effect _ _ _ _ _ _ G A) as (t & ps & v & F & L & EB & ES & RM & Eb & Em);
  fold w' in EB, ES, RM, Eb, Em; clearbody w'; rewrite ES; unfold supply, ft_total_supply;
  setoid_rewrite EB; unfold bal; clear EB ES; inversion F; subst; cbn [ctx_attached ctx_predecessor] in *;
  cbn [map sent fold_right message] in Eb, Em.
Lemma in_bounds x : fits U128_BOUND x = true <-> x < U128_BOUND.
Proof. apply N.ltb_lt. Qed.

(** * Deposits and withdrawals *)

Lemma deposit_accepted_iff self w who attached gas : good w -> who <> self -> is_valid_account_id who = true ->
  accepts self w who attached gas NearDeposit <->
  registered w who /\ 0 < attached /\ supply w + attached < 2 ^ 128 \/
  ~ registered w who /\ DEPOSIT <= attached /\ supply w + (attached - DEPOSIT) < 2 ^ 128.
Proof.
  intros G NE V. change (2 ^ 128) with U128_BOUND. split.
  - intros (v & H). apply accepted_inv in H; auto. destruct H as (_ & _ & _ & t & ps & F & _).
    inversion F; subst; cbn [ctx_attached ctx_predecessor] in *; [left|right]; (split; [|split; auto]).
    + apply is_registered; auto. unfold bal. now rewrite (ft_get _ _ _ H0).
    + apply not_registered; auto.
  - intros [(R & P & S)|(R & P & S)].
    + apply is_registered in R; auto. exists VNone.
      rewrite (accept self w who attached gas NearDeposit _ _ _ G NE V eq_refl (F_deposit (mkCtx self who attached gas None) _ _ P R S)). reflexivity.
    + apply not_registered in R; auto. exists VNone.
      rewrite (accept self w who attached gas NearDeposit _ _ _ G NE V eq_refl (F_deposit_new (mkCtx self who attached gas None) _ R P S)). reflexivity.
Qed.

Lemma deposit_effect self w who attached gas : good w -> accepts self w who attached gas NearDeposit ->
  let w' := step self w (ECall who attached gas NearDeposit) in
  exists minted, (registered w who /\ minted = attached \/ ~ registered w who /\ minted + DEPOSIT = attached) /\
    bal w' who = bal w who + minted /\ supply w' = supply w + minted /\ (forall a, a <> who -> bal w' a = bal w a) /\
    (forall a, registered w' a <-> registered w a \/ a = who) /\
    w_balance w' = w_balance w + attached /\ w_msgs w' = w_msgs w.
Proof.
  intros G A w'. views G A w'; rewrite app_nil_r in Em.
  - exists attached. split; [left; split; auto; apply is_registered; auto; unfold bal; now rewrite (ft_get _ _ _ H0)|].
    rewrite ft_set, keqb_refl, (ft_get _ _ _ H0). split; [auto|]. split; [auto|].
    split; [intros a N0; rewrite ft_set, keqb_neq; auto|]. split; [|split; [lia|auto]].
    intros a. rewrite RM, (registered_mem w a (proj1 G)). cbn [set_balance accounts]. rewrite mmem_minsert.
    destruct (keqb_spec a who); cbn [orb]; split; auto; intros [X|X]; [auto|contradiction].
  - exists (attached - DEPOSIT). split; [right; split; [apply not_registered; auto|lia]|].
    rewrite ft_set, keqb_refl, (ft_none _ _ H). split; [auto|]. split; [auto|].
    split; [intros a N0; rewrite !ft_set, keqb_neq; auto|]. split; [|split; [lia|auto]].
    intros a. rewrite RM, (registered_mem w a (proj1 G)). cbn [set_balance accounts]. rewrite !mmem_minsert.
    destruct (keqb_spec a who); cbn [orb]; split; auto; intros [X|X]; [auto|contradiction].
Qed.

Lemma withdraw_accepted_iff self w who attached gas x : good w -> who <> self -> is_valid_account_id who = true ->
  accepts self w who attached gas (NearWithdraw x) <->
  attached = 1 /\ registered w who /\ x <= bal w who /\ x + 1 < 2 ^ 128.
Proof.
  intros G NE V. change (2 ^ 128) with U128_BOUND. split.
  - intros (v & H). apply accepted_inv in H; auto. destruct H as (_ & _ & _ & t & ps & F & _).
    inversion F; subst; cbn [ctx_attached ctx_predecessor] in *. split; auto. split.
    + apply is_registered; auto. unfold bal. match goal with K : mget _ _ = Some _ |- _ => now rewrite (ft_get _ _ _ K) end.
    + unfold bal. match goal with K : mget _ _ = Some _ |- _ => now rewrite (ft_get _ _ _ K) end.
  - intros (-> & R & L & B). apply is_registered in R; auto. exists VNone.
    assert (A : arguments_ok (NearWithdraw x) = true) by (apply in_bounds; lia).
    rewrite (accept self w who 1 gas (NearWithdraw x) _ _ _ G NE V A (F_withdraw (mkCtx self who 1 gas None) _ x _ B eq_refl R L)).
    reflexivity.
Qed.
Lemma withdraw_effect self w who attached gas x : good w -> accepts self w who attached gas (NearWithdraw x) ->
  let w' := step self w (ECall who attached gas (NearWithdraw x)) in
  bal w' who + x = bal w who /\ supply w' + x = supply w /\ (forall a, a <> who -> bal w' a = bal w a) /\
  (forall a, registered w' a <-> registered w a) /\
  w_balance w' + (x + 1) = w_balance w + attached /\ w_msgs w' = (w_msgs w ++ [MTransfer who (x + 1)])%list.
Proof.
  intros G A w'. views G A w'.
  pose proof (bal_le (w_token w) who (proj1 G)) as LE. rewrite (ft_get _ _ _ H2) in *.
  rewrite ft_set, keqb_refl. cbn [set_balance total_supply]. split; [lia|]. split; [lia|].
  split; [intros a N0; rewrite ft_set, keqb_neq; auto|]. split; [|split; [cbn [sent fold_right] in L; lia|auto]].
  intros a. rewrite RM, (registered_mem w a (proj1 G)). cbn [set_balance accounts]. rewrite mmem_minsert.
  destruct (keqb_spec a who); cbn [orb]; [|tauto]. subst. unfold mmem. rewrite H2. tauto.
Qed.

(** * Transfers *)
Ltac gets a b := match goal with A1 : mget a _ = Some _, A2 : mget b _ = Some _ |- _ => rename A1 into GA, A2 into GB end.
Lemma transfer_accepted_iff self w who r attached gas x : good w -> who <> self -> is_valid_account_id who = true ->
  accepts self w who attached gas (FtTransfer r x) <-> can_transfer w who r attached x.
Proof.
  intros G NE V. unfold can_transfer. split.
  - intros (v & H). apply accepted_inv in H; auto. destruct H as (_ & _ & _ & t & ps & F & _).
    inversion F; subst; cbn [ctx_attached ctx_predecessor] in *. gets who r.
    rewrite !is_registered by auto. unfold bal. rewrite (ft_get _ _ _ GA), (ft_get _ _ _ GB). do 6 (split; auto).
  - intros (-> & Vr & N0 & P & R & L & Rr). rewrite is_registered in R, Rr by auto. exists VNone.
    pose proof (bal_le (w_token w) who (proj1 G)) as LE. pose proof (wf_bound _ (proj1 G)) as B.
    assert (A : arguments_ok (FtTransfer r x) = true).
    { cbn [arguments_ok]. rewrite Vr. apply in_bounds. unfold bal in L. lia. }
    rewrite (accept self w who 1 gas (FtTransfer r x) _ _ _ G NE V A (F_transfer (mkCtx self who 1 gas None) _ r x _ _ Vr eq_refl N0 P R L Rr)).
    reflexivity.
Qed.
Lemma transfer_call_accepted_iff self w who r attached gas x : good w -> who <> self -> is_valid_account_id who = true ->
  accepts self w who attached gas (FtTransferCall r x) <->
  can_transfer w who r attached x /\ 30000000000000 <= gas.
Proof.
  intros G NE V. unfold can_transfer. change 30000000000000 with GAS_FOR_FT_TRANSFER_CALL. split.
  - intros (v & H). apply accepted_inv in H; auto. destruct H as (_ & _ & _ & t & ps & F & _).
    inversion F; subst; cbn [ctx_attached ctx_predecessor ctx_prepaid_gas] in *. gets who r.
    rewrite !is_registered by auto. unfold bal. rewrite (ft_get _ _ _ GA), (ft_get _ _ _ GB). split; [do 6 (split; auto)|auto].
  - intros ((-> & Vr & N0 & P & R & L & Rr) & Lg). rewrite is_registered in R, Rr by auto. exists VNone.
    pose proof (bal_le (w_token w) who (proj1 G)) as LE. pose proof (wf_bound _ (proj1 G)) as B.
    assert (A : arguments_ok (FtTransferCall r x) = true).
    { cbn [arguments_ok]. rewrite Vr. apply in_bounds. unfold bal in L. lia. }
    rewrite (accept self w who 1 gas (FtTransferCall r x) _ _ _ G NE V A (F_transfer_call (mkCtx self who 1 gas None) _ r x _ _ Vr eq_refl N0 P R L Rr Lg)).
    reflexivity.
Qed.
Lemma ft_moved t s r bs br a : ft_balance_of (moved t s r bs br) a =
  if keqb a r then br else if keqb a s then bs else ft_balance_of t a.
Proof.
  unfold ft_balance_of, moved. cbn [accounts]. rewrite !mget_minsert. destruct (keqb a r); auto. destruct (keqb a s); auto.
Qed.
Lemma mem_moved t s r bs br bs' br' a : mget s (accounts t) = Some bs -> mget r (accounts t) = Some br ->
  mmem a (accounts (moved t s r bs' br')) = mmem a (accounts t).
Proof.
  intros G1 G2. unfold moved. cbn [accounts]. rewrite !mmem_minsert.
  destruct (keqb_spec a r); cbn [orb]; [subst; unfold mmem; now rewrite G2|].
  destruct (keqb_spec a s); cbn [orb]; [subst; unfold mmem; now rewrite G1|auto].
Qed.
Lemma transfer_effect self w who r attached gas x : good w -> accepts self w who attached gas (FtTransfer r x) ->
  let w' := step self w (ECall who attached gas (FtTransfer r x)) in
  transferred w w' who r x /\ w_balance w' = w_balance w + 1 /\ w_msgs w' = w_msgs w.
Proof.
  intros G A w'. unfold transferred. views G A w'. gets who r. rewrite app_nil_r in Em.
  split; [|split; [lia|auto]]. rewrite !ft_moved, keqb_refl, (keqb_neq who r), keqb_refl by auto.
  rewrite (ft_get _ _ _ GA), (ft_get _ _ _ GB). split; [lia|]. split; [lia|].
  split; [intros a N1 N2; now rewrite ft_moved, !keqb_neq|]. split; [reflexivity|].
  intros a. rewrite RM, (mem_moved _ _ _ _ _ _ _ _ GA GB), registered_mem; [tauto|apply G].
Qed.
Lemma transfer_call_effect self w who r attached gas x : good w -> accepts self w who attached gas (FtTransferCall r x) ->
  let w' := step self w (ECall who attached gas (FtTransferCall r x)) in
  transferred w w' who r x /\ w_balance w' = w_balance w + 1 /\ w_msgs w' = (w_msgs w ++ [MOnTransfer who r x])%list.
Proof.
  intros G A w'. unfold transferred. views G A w'. gets who r.
  split; [|split; [lia|auto]]. rewrite !ft_moved, keqb_refl, (keqb_neq who r), keqb_refl by auto.
  rewrite (ft_get _ _ _ GA), (ft_get _ _ _ GB). split; [lia|]. split; [lia|].
  split; [intros a N1 N2; now rewrite ft_moved, !keqb_neq|]. split; [reflexivity|].
  intros a. rewrite RM, (mem_moved _ _ _ _ _ _ _ _ GA GB), registered_mem; [tauto|apply G].
Qed.

(** * Registration *)
Lemma storage_deposit_accepted_iff self w who attached gas o ro : good w -> who <> self -> is_valid_account_id who = true ->
  accepts self w who attached gas (StorageDeposit o ro) <->
  (registered w (target who o) \/ DEPOSIT <= attached) /\ is_valid_account_id (target who o) = true.
Proof.
  intros G NE V. split.
  - intros (v & H). apply accepted_inv in H; auto. destruct H as (_ & _ & A & t & ps & F & _).
    assert (VT : is_valid_account_id (target who o) = true) by (destruct o; auto). split; auto.
    inversion F; subst; cbn [ctx_attached ctx_predecessor] in *; [left; apply registered_mem; [apply G|]; assumption|right; auto].
  - intros (H & VT).
    assert (A : arguments_ok (StorageDeposit o ro) = true) by (destruct o; auto).
    destruct (mmem (target who o) (accounts (w_token w))) eqn:M.
    + exists (VStorage DEPOSIT 0).
      rewrite (accept self w who attached gas _ _ _ _ G NE V A (F_storage_deposit_again (mkCtx self who attached gas None) _ o ro _ eq_refl M)).
      reflexivity.
    + destruct H as [H|H]; [apply registered_mem in H; [congruence|apply G]|]. apply mmem_false in M.
      exists (VStorage DEPOSIT 0).
      rewrite (accept self w who attached gas _ _ _ _ G NE V A (F_storage_deposit (mkCtx self who attached gas None) _ o ro _ eq_refl M H)).
      reflexivity.
Qed.
Lemma storage_deposit_effect self w who attached gas o ro : good w -> accepts self w who attached gas (StorageDeposit o ro) ->
  let w' := step self w (ECall who attached gas (StorageDeposit o ro)) in
  (forall a, bal w' a = bal w a) /\ supply w' = supply w /\
  (forall a, registered w' a <-> registered w a \/ a = target who o) /\
  (registered w (target who o) -> w_balance w' = w_balance w /\ w_msgs w' = (w_msgs w ++ change who attached)%list) /\
  (~ registered w (target who o) ->
     w_balance w' = w_balance w + DEPOSIT /\ w_msgs w' = (w_msgs w ++ change who (attached - DEPOSIT))%list).
Proof.
  intros G A w'. views G A w'; fold (target who o) in *; unfold change; rewrite !registered_mem by apply G.
  - do 2 (split; [reflexivity|]). split.
    { intros a. rewrite RM, registered_mem by apply G. split; auto. intros [X| ->]; auto. }
    split; [intros _|congruence]. destruct (N.ltb_spec 0 attached); cbn [sent fold_right map message] in *; split; auto; lia.
  - split; [|split; [reflexivity|]].
    { intros a. rewrite ft_set. destruct (keqb_spec a (target who o)); auto. subst. match goal with K : mget _ _ = None |- _ => now rewrite (ft_none _ _ K) end. }
    split.
    { intros a. rewrite RM, registered_mem by apply G. cbn [set_balance accounts]. rewrite mmem_minsert.
      destruct (keqb_spec a (target who o)); cbn [orb]; split; auto; intros [X|X]; auto; contradiction. }
    split; [intros X; apply mmem_mget in X; destruct X; congruence|intros _].
    destruct (N.ltb_spec 0 (attached - DEPOSIT)); cbn [sent fold_right map message] in *; split; auto; lia.
Qed.
Lemma unregister_accepted_iff self w who attached gas f : good w -> who <> self -> is_valid_account_id who = true ->
  accepts self w who attached gas (StorageUnregister f) <->
  attached = 1 /\ (registered w who -> bal w who = 0 \/ f = Some true).
Proof.
  intros G NE V. split.
  - intros (v & H). apply accepted_inv in H; auto. destruct H as (_ & _ & A & t & ps & F & _).
    inversion F; subst; cbn [ctx_attached ctx_predecessor] in *; split; auto.
    + intros _. unfold bal. match goal with K : mget _ _ = Some _ |- _ => now rewrite (ft_get _ _ _ K) end.
    + intros R. apply is_registered in R; auto. congruence.
  - intros (-> & H). destruct (mget who (accounts (w_token w))) as [b|] eqn:E.
    + assert (R : registered w who) by (apply is_registered; auto; unfold bal; now rewrite (ft_get _ _ _ E)).
      specialize (H R). unfold bal in H. rewrite (ft_get _ _ _ E) in H. exists (VBool true).
      rewrite (accept self w who 1 gas (StorageUnregister f) _ _ _ G NE V eq_refl (F_unregister (mkCtx self who 1 gas None) _ b f eq_refl E H)). reflexivity.
    + exists (VBool false).
      rewrite (accept self w who 1 gas (StorageUnregister f) _ _ _ G NE V eq_refl (F_unregister_none (mkCtx self who 1 gas None) _ f eq_refl E)). reflexivity.
Qed.
Lemma unregister_effect self w who attached gas f : good w -> accepts self w who attached gas (StorageUnregister f) ->
  let w' := step self w (ECall who attached gas (StorageUnregister f)) in
  bal w' who = 0 /\ (forall a, a <> who -> bal w' a = bal w a) /\ supply w' + bal w who = supply w /\
  (forall a, registered w' a <-> registered w a /\ a <> who) /\
  (registered w who -> w_balance w' + DEPOSIT = w_balance w /\ w_msgs w' = (w_msgs w ++ [MTransfer who (DEPOSIT + 1)])%list) /\
  (~ registered w who -> w_balance w' = w_balance w + 1 /\ w_msgs w' = w_msgs w).
Proof.
  intros G A w'. pose proof (wf_nd _ (proj1 G)) as ND. views G A w'; rewrite !registered_mem by apply G.
  - match goal with K : mget who _ = Some _ |- _ => rename K into GA end. pose proof (bal_le (w_token w) who (proj1 G)) as LE. rewrite (ft_get _ _ _ GA) in *. cbn [total_supply].
    assert (FT : forall a, ft_balance_of (mkToken (mremove who (accounts (w_token w))) (total_supply (w_token w) - b)
              (account_storage_usage (w_token w))) a = if keqb a who then 0 else ft_balance_of (w_token w) a).
    { intros a. unfold ft_balance_of. cbn [accounts]. rewrite mget_mremove by auto. destruct (keqb a who); auto. }
    split; [rewrite FT, keqb_refl; auto|]. split; [intros a N0; now rewrite FT, keqb_neq|]. split; [lia|].
    split.
    { intros a. rewrite RM, registered_mem by apply G. cbn [accounts]. rewrite mmem_mremove by auto.
      destruct (keqb_spec a who); cbn [negb andb]; split; auto; try discriminate; tauto. }
    split; [intros _; split; [cbn [sent fold_right] in L; lia|auto]|].
    intros X. exfalso. apply X. unfold mmem. now rewrite GA.
  - match goal with K : mget who _ = None |- _ => rename K into GA end. rewrite app_nil_r in Em. rewrite (ft_none _ _ GA). split; auto. split; auto. split; [lia|].
    split.
    { intros a. rewrite RM, registered_mem by apply G. split; [|tauto]. intros X. split; auto. intros ->. unfold mmem in X. now rewrite GA in X. }
    split; [intros X; unfold mmem in X; now rewrite GA in X|]. split; [lia|auto].
Qed.

(** * The end of a transfer call *)
Lemma resolve_effect self w n s d x r : good w -> nth_error (w_msgs w) n = Some (MResolve s d x r) ->
  let w' := step self w (EResolve n true) in
  exists used, snd (step_obs self w (EResolve n true)) = [BResolved s d x used] /\
  s <> d /\ bal w' d + refund_of w d x r = bal w d /\ (forall a, a <> s -> a <> d -> bal w' a = bal w a) /\
  (forall a, registered w' a <-> registered w a) /\ w_balance w' = w_balance w /\ w_msgs w' = drop_nth n (w_msgs w) /\
  (registered w s -> bal w' s = bal w s + refund_of w d x r /\ supply w' = supply w /\ used + refund_of w d x r = x) /\
  (~ registered w s -> bal w' s = 0 /\ supply w' + refund_of w d x r = supply w /\ used = x).
Proof.
  intros G E w'. pose proof G as (W & B & M).
  assert (MO : msg_ok (MResolve s d x r)) by (rewrite Forall_forall in M; apply M; eapply nth_error_In; eauto).
  destruct (resolve_total (w_token w) self s d x r W MO) as (t & used & EX & F).
  assert (ST : step_obs self w (EResolve n true) = (mkWorld t (w_balance w) (drop_nth n (w_msgs w)), [BResolved s d x used])).
  { cbn [step_obs]. rewrite E, EX. change (sent []) with 0. replace (0 <=? w_balance w) with true by lia. cbn [andb].
    now rewrite N.sub_0_r, app_nil_r. }
  exists used. split; [now rewrite ST|]. assert (W' : wf t) by (eapply effect_wf; eauto).
  assert (Ew : w' = mkWorld t (w_balance w) (drop_nth n (w_msgs w))) by (unfold w', step; now rewrite ST).
  assert (RM : forall a, registered w' a <-> mmem a (accounts t) = true).
  { intros a. rewrite Ew. now rewrite registered_mem. }
  assert (BL : forall a, bal w' a = ft_balance_of t a) by now rewrite Ew.
  assert (SP : supply w' = total_supply t) by now rewrite Ew.
  rewrite SP, !BL. setoid_rewrite BL. setoid_rewrite RM. rewrite not_registered, !(is_registered w s) by auto.
  setoid_rewrite (fun a => registered_mem w a W). rewrite Ew. cbn [w_balance w_msgs]. clear Ew RM BL SP ST EX w'.
  destruct MO as (NE & _). split; auto. unfold refund_of. pose proof (bal_le (w_token w) d W) as LE. unfold bal in *. unfold supply, ft_total_supply.
  assert (UX : unused_of r x <= x) by (unfold unused_of; destruct r; lia).
  assert (BD : forall b, mget d (accounts (w_token w)) = Some b -> mmem d (accounts (w_token w)) = true) by (intros b0 Q; unfold mmem; now rewrite Q).
  inversion F; subst; cbn [ctx_result ctx_predecessor ctx_current] in *;
    match goal with K : Some _ = Some _ |- _ => injection K as <- end.
  - match goal with |- context [N.min ?p ?q] => assert (Z : N.min p q = 0) by lia end.
    rewrite Z, !N.add_0_r. do 5 (split; [tauto|]). split; [auto|]. intros X. split; auto. now apply ft_none.
  - match goal with K : mget d _ = Some _ |- _ => rename K into GD; rewrite (ft_get _ _ _ GD) in * end.
    match goal with K : mget s (minsert _ _ _) = Some _ |- _ => rewrite mget_minsert_neq in K by auto; rename K into GS end.
    rewrite (ft_get _ _ _ GS). set (f := N.min bd (unused_of r x)) in *.
    change (mkToken (minsert s (bs + f) (minsert d (bd - f) (accounts (w_token w)))) (total_supply (w_token w)) (account_storage_usage (w_token w)))
      with (moved (w_token w) d s (bd - f) (bs + f)).
    rewrite !ft_moved, (keqb_neq d s), !keqb_refl by auto. setoid_rewrite ft_moved. cbn [moved total_supply].
    split; [lia|]. split; [intros a N1 N2; now rewrite !keqb_neq|].
    split; [intros a; rewrite (mem_moved _ _ _ _ _ _ _ _ GD GS); tauto|]. split; auto. split; auto.
    split; [|congruence]. intros _. split; auto. split; auto. lia.
  - match goal with K : mget d _ = Some _ |- _ => rename K into GD; rewrite (ft_get _ _ _ GD) in * end.
    match goal with K : mget s _ = None |- _ => rename K into GS end.
    match goal with |- context [N.min bd ?u] => set (f := N.min bd u) in * end.
    rewrite !ft_set, keqb_refl, (keqb_neq s d), (ft_none _ _ GS) by auto. setoid_rewrite ft_set. cbn [set_balance total_supply accounts].
    split; [lia|]. split; [intros a N1 N2; now rewrite keqb_neq|].
    split. { intros a. rewrite mmem_minsert. destruct (keqb_spec a d); cbn [orb]; [subst|tauto]. rewrite (BD _ GD). tauto. }
    split; auto. split; auto. split; [congruence|]. intros _. split; auto. split; auto. lia.
Qed.

(** * Who can make a balance smaller *)
Lemma who_reduces self w ev a : good w -> bal (step self w ev) a < bal w a ->
  (exists attached gas cl, ev = ECall a attached gas cl /\
     ((exists x, cl = NearWithdraw x /\ bal (step self w ev) a + x = bal w a) \/
      (exists r x, (cl = FtTransfer r x \/ cl = FtTransferCall r x) /\ bal (step self w ev) a + x = bal w a) \/
      cl = StorageUnregister (Some true))) \/
  (exists n s x r, ev = EResolve n true /\ nth_error (w_msgs w) n = Some (MResolve s a x r) /\
     bal w a <= bal (step self w ev) a + unused_of r x).
Proof.
  intros G H. destruct ev as [who attached gas cl|n ok|n r|n gas|x].
  - left. set (w' := step self w (ECall who attached gas cl)) in *.
    destruct (snd (step_obs self w (ECall who attached gas cl))) as [|o l] eqn:SO.
    { exfalso. unfold w', step in H. cbn [step_obs] in *. destruct (_ || _); [cbn [fst] in H; lia|].
      destruct (exec _ _ _) as [[[t ps] v]|]; [|discriminate]. destruct (_ <=? _); discriminate. }
    destruct (snd (step_obs self w (ECall who attached gas cl))) eqn:SO2; [discriminate|]. injection SO as -> ->.
    assert (AC : accepts self w who attached gas cl \/ w' = w).
    { unfold accepts, w', step. cbn [step_obs] in *. destruct (_ || _); [auto|].
      destruct (exec _ _ _) as [[[t ps] v]|]; [|auto]. destruct (_ <=? _); [left; exists v; reflexivity|auto]. }
    destruct AC as [AC|E]; [|exfalso; rewrite E in H; lia]. clear o l SO2.
    destruct (string_dec who a) as [->|NE].
    + exists attached, gas, cl. split; auto. destruct cl as [| |x|r x|r x|s d x|o ro|o|f].
      * destruct AC as (v & AC). apply accepted_inv in AC; auto. destruct AC as (_ & _ & _ & t & ps & F & _). inversion F.
      * exfalso. destruct (deposit_effect _ _ _ _ _ G AC) as (m & _ & E & _). cbv zeta in E. fold w' in E. lia.
      * left. exists x. split; auto. destruct (withdraw_effect _ _ _ _ _ _ G AC) as (E & _). exact E.
      * right. left. exists r, x. split; auto. destruct (transfer_effect _ _ _ _ _ _ _ G AC) as ((E & _) & _). exact E.
      * right. left. exists r, x. split; auto. destruct (transfer_call_effect _ _ _ _ _ _ _ G AC) as ((E & _) & _). exact E.
      * exfalso. destruct AC as (v & AC). apply accepted_inv in AC; auto. destruct AC as (_ & _ & _ & t & ps & F & _).
        inversion F; cbn in *; congruence.
      * exfalso. destruct (storage_deposit_effect _ _ _ _ _ _ _ G AC) as (E & _). cbv zeta in E. fold w' in E. rewrite E in H. lia.
      * exfalso. destruct (accepts_effect _ _ _ _ _ _ G AC) as (t & ps & v & F & _ & EB & _). fold w' in EB.
        inversion F; subst. rewrite EB in H. unfold bal in H. lia.
      * right. right. destruct (proj1 (unregister_accepted_iff self w a attached gas f G
          ltac:(destruct AC as (v & AC); apply accepted_inv in AC; tauto) ltac:(destruct AC as (v & AC); apply accepted_inv in AC; tauto)) AC)
          as (_ & X).
        destruct X as [X|X]; [|lia|now subst].
        apply is_registered; auto. unfold bal, ft_balance_of in *. destruct (mget a (accounts (w_token w))); auto. lia.
    + exfalso. destruct cl as [| |x|r x|r x|s d x|o ro|o|f].
      * destruct AC as (v & AC). apply accepted_inv in AC; auto. destruct AC as (_ & _ & _ & t & ps & F & _). inversion F.
      * destruct (deposit_effect _ _ _ _ _ G AC) as (m & _ & _ & _ & E & _). cbv zeta in E. fold w' in E. rewrite E in H by auto. lia.
      * destruct (withdraw_effect _ _ _ _ _ _ G AC) as (_ & _ & E & _). fold w' in E. rewrite E in H by auto. lia.
      * destruct (transfer_effect _ _ _ _ _ _ _ G AC) as ((_ & E1 & E & _) & _). fold w' in E, E1.
        destruct (string_dec a r); [subst; lia|]. rewrite E in H by auto. lia.
      * destruct (transfer_call_effect _ _ _ _ _ _ _ G AC) as ((_ & E1 & E & _) & _). fold w' in E, E1.
        destruct (string_dec a r); [subst; lia|]. rewrite E in H by auto. lia.
      * destruct AC as (v & AC). apply accepted_inv in AC; auto. destruct AC as (_ & _ & _ & t & ps & F & _).
        inversion F; cbn in *; congruence.
      * destruct (storage_deposit_effect _ _ _ _ _ _ _ G AC) as (E & _). cbv zeta in E. fold w' in E. rewrite E in H. lia.
      * destruct (accepts_effect _ _ _ _ _ _ G AC) as (t & ps & v & F & _ & EB & _). fold w' in EB.
        inversion F; subst. rewrite EB in H. unfold bal in H. lia.
      * destruct (unregister_effect _ _ _ _ _ _ G AC) as (_ & E & _). fold w' in E. rewrite E in H by auto. lia.
  - exfalso. revert H. unfold step. cbn [step_obs]. destruct (nth_error (w_msgs w) n) as [[]|]; try destruct ok; unfold bal; cbn [fst w_token]; lia.
  - exfalso. revert H. unfold step. cbn [step_obs]. destruct (nth_error (w_msgs w) n) as [[]|]; unfold bal; cbn [fst w_token]; lia.
  - right. destruct (nth_error (w_msgs w) n) as [[| |s d x r]|] eqn:E.
    1, 2, 4: exfalso; revert H; unfold step; cbn [step_obs]; rewrite E; cbn [fst]; lia.
    destruct gas.
    + destruct (resolve_effect self w n s d x r G E) as (used & _ & NE & E1 & E2 & _ & _ & _ & E3 & E4). cbv zeta in *.
      set (w' := step self w (EResolve n true)) in *.
      assert (X : a = d).
      { destruct (string_dec a d); auto. exfalso. destruct (string_dec a s) as [->|N0]; [|rewrite E2 in H by auto; lia].
        destruct (mmem s (accounts (w_token w))) eqn:MS.
        - destruct E3 as (E3 & _); [apply registered_mem; [apply G|auto]|]. lia.
        - apply mmem_false in MS. unfold bal at 2 in H. rewrite (ft_none _ _ MS) in H. lia. }
      subst. exists n, s, x, r. split; auto. split; auto. unfold refund_of in E1. lia.
    + exfalso. revert H. unfold step. cbn [step_obs]. rewrite E.
      destruct (exec _ _ _) as [[[t ps] []]|]; cbn [andb fst]; unfold bal; cbn [w_token]; lia.
  - exfalso. revert H. unfold step, bal. cbn. lia.
Qed.

(** * Everybody leaves *)
Lemma bank_run self w gas l : (exists b evs, w = final self (start b) evs) -> supply w + 1 < 2 ^ 128 -> NoDup l ->
  (forall a, In a l -> registered w a /\ a <> self /\ is_valid_account_id a = true) ->
  let evs := map (fun a => ECall a 1 gas (NearWithdraw (bal w a))) l in
  log self w evs = map (fun a => BAccepted a 1 (NearWithdraw (bal w a)) VNone) l /\
  w_msgs (final self w evs) = (w_msgs w ++ map (fun a => MTransfer a (bal w a + 1)) l)%list /\
  supply (final self w evs) + sum (map (bal w) l) = supply w /\
  (forall a, In a l -> bal (final self w evs) a = 0) /\ (forall a, ~ In a l -> bal (final self w evs) a = bal w a).
Proof.
  revert w. induction l as [|a l IH]; intros w RE SB ND H.
  - cbn [map log final]. rewrite app_nil_r. split; auto. split; auto. split; [cbn; lia|]. split; auto. intros a [].
  - inversion ND as [|? ? NI ND']; subst.
    assert (G : good w) by (destruct RE as (b & evs & ->); apply good_reach).
    destruct (H a (or_introl eq_refl)) as (R & NS & V).
    pose proof (bal_le (w_token w) a (proj1 G)) as LE. fold (bal w a) in LE. change (total_supply (w_token w)) with (supply w) in LE.
    assert (AC : accepts self w a 1 gas (NearWithdraw (bal w a))).
    { apply withdraw_accepted_iff; auto. split; auto. split; auto. split; lia. }
    destruct (withdraw_effect _ _ _ _ _ _ G AC) as (E1 & E2 & E3 & E4 & E5 & E6).
    set (w1 := step self w (ECall a 1 gas (NearWithdraw (bal w a)))) in *.
    assert (EQ : map (fun a0 => ECall a0 1 gas (NearWithdraw (bal w a0))) l = map (fun a0 => ECall a0 1 gas (NearWithdraw (bal w1 a0))) l).
    { apply map_ext_in. intros x I. rewrite E3; auto. intros ->. contradiction. }
    assert (EQ1 : map (fun a0 => BAccepted a0 1 (NearWithdraw (bal w a0)) VNone) l = map (fun a0 => BAccepted a0 1 (NearWithdraw (bal w1 a0)) VNone) l).
    { apply map_ext_in. intros x I. rewrite E3; auto. intros ->. contradiction. }
    assert (EQ2 : map (fun a0 => MTransfer a0 (bal w a0 + 1)) l = map (fun a0 => MTransfer a0 (bal w1 a0 + 1)) l).
    { apply map_ext_in. intros x I. rewrite E3; auto. intros ->. contradiction. }
    assert (EQ3 : map (bal w) l = map (bal w1) l).
    { apply map_ext_in. intros x I. rewrite E3; auto. intros ->. contradiction. }
    destruct (IH w1) as (I1 & I2 & I3 & I4 & I5); auto.
    { destruct RE as (b & evs & ->). exists b, (evs ++ [ECall a 1 gas (NearWithdraw (bal (final self (start b) evs) a))])%list. now rewrite final_app. }
    { lia. }
    { intros x I. destruct (H x (or_intror I)) as (Rx & Nx & Vx). split; auto. now apply E4. }
    cbv zeta. cbn [map log final]. fold w1. rewrite EQ, EQ1, EQ2, EQ3.
    destruct AC as (v & AC). rewrite AC. split.
    { assert (v = VNone) as ->. { apply accepted_inv in AC; auto. destruct AC as (_ & _ & _ & t & ps & F & _). inversion F; auto. }
      cbn [app]. f_equal. exact I1. }
    split; [rewrite I2, E6, <- app_assoc; reflexivity|].
    split; [cbn [sum fold_right]; fold (sum (map (bal w1) l)); lia|]. split.
    + intros x [<-|I]; [|now apply I4]. rewrite I5 by auto. lia.
    + intros x NX. rewrite I5 by (intros I; apply NX; now right). apply E3. intros ->. apply NX. now left.
Qed.

Lemma storage_withdraw_spec self w who attached gas o : good w -> who <> self -> is_valid_account_id who = true ->
  (accepts self w who attached gas (StorageWithdraw o) <->
     attached = 1 /\ registered w who /\ (o = None \/ o = Some 0)) /\
  (accepts self w who attached gas (StorageWithdraw o) ->
     step self w (ECall who attached gas (StorageWithdraw o)) = mkWorld (w_token w) (w_balance w + 1) (w_msgs w)).
Proof.
  intros G NE V. split; [split|].
  - intros (v & H). apply accepted_inv in H; auto. destruct H as (_ & _ & A & t & ps & F & _).
    inversion F; subst; cbn [ctx_attached ctx_predecessor] in *. rewrite registered_mem by apply G. auto.
  - intros (-> & R & Z). rewrite registered_mem in R by apply G. exists (VStorage DEPOSIT 0).
    assert (A : arguments_ok (StorageWithdraw o) = true) by (destruct Z; subst; reflexivity).
    rewrite (accept self w who 1 gas (StorageWithdraw o) _ _ _ G NE V A
               (F_storage_withdraw (mkCtx self who 1 gas None) _ o eq_refl R Z)). reflexivity.
  - intros (v & H). apply accepted_inv in H; auto. destruct H as (_ & _ & A & t & ps & F & E & _). rewrite E.
    inversion F; subst; cbn [ctx_attached ctx_predecessor sent fold_right map message] in *. subst. f_equal; [lia|now rewrite app_nil_r].
Qed.
Lemma storage_view w a : good w ->
  (registered w a -> storage_balance_of (w_token w) a = Ok (Some (DEPOSIT, 0))) /\
  (~ registered w a -> storage_balance_of (w_token w) a = Ok None).
Proof.
  intros (W & _). rewrite registered_mem by auto. unfold storage_balance_of. rewrite (storage_min_ok _ W). cbn [bind].
  destruct (mmem a (accounts (w_token w))); split; congruence.
Qed.
Lemma resolve_private self who attached gas result t s r x :
  is_ok (exec (mkCtx self who attached gas result) t (FtResolveTransfer s r x)) = true ->
  who = self /\ attached = 0 /\ result <> None.
Proof.
  unfold exec. destruct (arguments_ok (FtResolveTransfer s r x)); unfold require; cbn [bind]; [|discriminate].
  unfold ft_resolve_transfer, require, expect. cbn [ctx_predecessor ctx_current ctx_attached ctx_result].
  destruct (String.eqb_spec who self); cbn [bind]; [|discriminate].
  destruct (N.eqb_spec attached 0); cbn [bind]; [|discriminate].
  destruct result; cbn [bind]; [|discriminate]. intros _. repeat split; auto; discriminate.
Qed.
