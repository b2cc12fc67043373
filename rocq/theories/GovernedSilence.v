(** A staking pool whose owner, and a whitelist whose foundation, is a multisig some of whose members refuse (C121). *)
From Coq Require Import NArith List Bool String Permutation.
From Verif Require Import Prelude PreludeFacts OwnedLockup OwnedLockupProofs Governed GovernedProofs.
From Verif Require StakingPoolModel StakingPoolSpec MultisigModel MultisigSpec MultisigAccount MultisigSilence.
From Verif Require WhitelistModel WhitelistSpec WhitelistProofs MultisigVeto Multisig2Model Multisig2Spec Multisig2Account Multisig2Veto Multisig2Silence.
Import ListNotations.
Open Scope N_scope.

(** What is asked of the account among what happens to both. *)
Lemma in_at_account {H E X : Type} (h : H) (js : list (@gevent H E X)) : In h (at_account js) -> In (GAccount h) js.
Proof.
  unfold at_account. intros I. apply in_flat_map in I. destruct I as (ev & I & J).
  destruct ev as [h'| |]; try now destruct J. destruct J as [->|[]]. exact I.
Qed.

Lemma pool_silent1 self decode read k s0 ks hs pool w js A :
  MultisigModel.new false k = Ok s0 ->
  NoDup (mkeys ks) -> (forall pk x, mget pk ks = Some x -> MultisigAccount.limited self x) ->
  StakingPoolModel.owner_id (StakingPoolSpec.w_pool w) = self ->
  let a := MultisigAccount.run self decode (MultisigAccount.start s0 ks) hs in
  let s := MultisigAccount.w_contract a in
  let evs := gevents (MultisigAccount.happen_obs self decode) (for_lockup1 pool) read (pool_step pool) (pool_accepted pool)
               pool_pays (pool_calls self) (pool_said self) (mkState a [] w) js in
  (forall p, In p (MultisigAccount.executions self s0 (MultisigAccount.w_calls a)) -> MultisigModel.p_receiver p = self ->
             MultisigAccount.keeps_guard self (MultisigModel.p_actions p)) ->
  MultisigAccount.w_flight a = [] ->
  N.of_nat (List.length A) < MultisigModel.get_num_confirmations s ->
  (forall id pk, In id (MultisigModel.list_request_ids s) ->
     In pk (MultisigSpec.confirmers (MultisigSpec.log self s0 (MultisigAccount.w_calls a)) id) -> In pk A) ->
  (forall key to acts, In (GAccount (MultisigAccount.HTx key to acts)) js -> ~ In key A ->
     MultisigSilence.carries_no_confirmation decode acts) ->
  owners_calls self (StakingPoolSpec.history pool w evs) = [] /\
  forall en, In en (StakingPoolSpec.history pool w evs) -> steered self (fun _ => False) en.
Proof.
  intros Hn Hd Hl O a s evs G FL LA HC HT.
  destruct (MultisigSilence.silence self decode k s0 ks hs (at_account js) A Hn Hd Hl G FL LA HC) as (D & _).
  { intros key to acts I. apply HT with (to := to). now apply in_at_account. }
  fold a in D.
  destruct (governed (A1.happen_obs self decode) (for_lockup1 pool) read (pool_step pool) (pool_accepted pool) pool_pays
              (pool_calls self) (pool_said self) (pool_pays_said self) (pool_calls_said self) js (mkState a [] w))
    as (done & rest & _ & _ & Pe & Ma).
  cbn [g_flying g_account g_contract app] in Pe, Ma. rewrite adeps1 in Pe. rewrite D in Pe.
  apply Permutation_sym, Permutation_nil, app_eq_nil in Pe. destruct Pe as [-> _].
  fold evs in Ma. rewrite <- pool_made in Ma. cbn [flat_map] in Ma. split; [exact Ma|].
  intros en I. eapply steered_mono; [|exact (all_steered pool self _ w O en I)]. rewrite Ma. intros m [].
Qed.

Lemma pool_silent2 self decode read ms k s0 p0 ks key hs pool w js B :
  Multisig2Model.new self false ms k = Ok (s0, p0) ->
  NoDup (mkeys ks) -> (forall pk x, mget pk ks = Some x -> Multisig2Account.limited self x) ->
  StakingPoolModel.owner_id (StakingPoolSpec.w_pool w) = self ->
  let a := Multisig2Account.run self decode (Multisig2Account.start s0 p0 ks key) hs in
  let s := Multisig2Account.w_contract a in
  let evs := gevents (Multisig2Account.happen_obs self decode) (for_lockup2 pool) read (pool_step pool) (pool_accepted pool)
               pool_pays (pool_calls self) (pool_said self) (mkState a [] w) js in
  (forall p, In p (Multisig2Account.executions self s0 (Multisig2Account.w_calls a)) -> Multisig2Model.p_receiver p = self ->
             Multisig2Account.keeps_guard self (Multisig2Model.p_actions p)) ->
  Multisig2Account.w_flight a = [] ->
  NoDup B -> incl B (Multisig2Model.get_members s) ->
  N.of_nat (List.length (Multisig2Model.get_members s)) <
    Multisig2Model.get_num_confirmations s + N.of_nat (List.length B) ->
  (forall id m, In id (Multisig2Model.list_request_ids s) ->
     In m (Multisig2Spec.confirmers (Multisig2Spec.log self s0 (Multisig2Account.w_calls a)) id) ->
     In m (Multisig2Model.get_members s) /\ ~ In m B) ->
  (forall key to acts, In (GAccount (Multisig2Account.HTx key to acts)) js -> In (Multisig2Model.AccessKey key) B ->
     Multisig2Silence.carries_no_confirmation decode acts) ->
  (forall pred key attached t m, In (GAccount (Multisig2Account.HCall pred key attached t m)) js ->
     In (Multisig2Model.Account pred) B -> Multisig2Veto.confirms m = false) ->
  owners_calls self (StakingPoolSpec.history pool w evs) = [] /\
  forall en, In en (StakingPoolSpec.history pool w evs) -> steered self (fun _ => False) en.
Proof.
  intros Hn Hd Hl O a s evs G FL NB IB LB HC HT HH.
  destruct (Multisig2Silence.silence self decode ms k p0 s0 ks key hs (at_account js) B Hn Hd Hl G FL NB IB LB HC) as (D & _).
  { intros key' to acts I. apply HT with (to := to). now apply in_at_account. }
  { intros pred key' att t m I. apply (HH pred key' att t m). now apply in_at_account. }
  fold a in D.
  destruct (governed (A2.happen_obs self decode) (for_lockup2 pool) read (pool_step pool) (pool_accepted pool) pool_pays
              (pool_calls self) (pool_said self) (pool_pays_said self) (pool_calls_said self) js (mkState a [] w))
    as (done & rest & _ & _ & Pe & Ma).
  cbn [g_flying g_account g_contract app] in Pe, Ma. rewrite adeps2 in Pe. rewrite D in Pe.
  apply Permutation_sym, Permutation_nil, app_eq_nil in Pe. destruct Pe as [-> _].
  fold evs in Ma. rewrite <- pool_made in Ma. cbn [flat_map] in Ma. split; [exact Ma|].
  intros en I. eapply steered_mono; [|exact (all_steered pool self _ w O en I)]. rewrite Ma. intros m [].
Qed.

(** * The whitelist *)
Section Whitelist.
Import WhitelistModel WhitelistSpec.

(** The lists without the foundation: factories stay, pools stay, and only factories that are listed add pools. *)
Definition list_kept (w : contract) (es : list event) : Prop :=
  let w' := WhitelistSpec.final w es in
  (forall f, is_factory_whitelisted w' f = is_factory_whitelisted w f) /\
  (forall p, is_whitelisted w p = Ok true -> is_whitelisted w' p = Ok true) /\
  (forall p, is_whitelisted w' p = Ok true -> is_whitelisted w p = Ok true \/
     exists e, In e es /\ e_call e = AddStakingPool p /\
       (is_valid_account_id (e_who e) = true -> is_factory_whitelisted w (e_who e) = Ok true)) /\
  foundation_account_id w' = foundation_account_id w.

Lemma list_step w e : (e_who e = foundation_account_id w -> WhitelistSpec.accepted w e = false) ->
  WhitelistSpec.step w e = w \/
  exists p, e_call e = AddStakingPool p /\ ls_contains FACTORY_PREFIX (keys w) (e_who e) = true /\
    WhitelistSpec.step w e = mkContract (foundation_account_id w) (sinsert (lookup_key WHITELIST_PREFIX p) (keys w)).
Proof.
  unfold WhitelistSpec.accepted, WhitelistSpec.step. intros NA. destruct (exec _ _ _) as [[s b]|] eqn:E; [|now left].
  assert (NF : e_who e <> foundation_account_id w) by (intros Y; specialize (NA Y); discriminate).
  unfold exec, require in E. destruct (_ =? 0) in E; cbn [bind] in E; [|discriminate].
  assert (AF : assert_called_by_foundation (mkCtx (e_who e) (e_attached e)) w = Panic "Can only be called by NEAR Foundation").
  { unfold assert_called_by_foundation, require. cbn [ctx_predecessor]. now rewrite (proj2 (String.eqb_neq _ _) NF). }
  destruct (e_call e) as [p|p|f|f].
  - unfold add_staking_pool, require in E. rewrite AF in E. cbn [ctx_predecessor] in E.
    destruct (is_valid_account_id p); cbn [bind] in E; [|discriminate].
    destruct (ls_contains FACTORY_PREFIX (keys w) (e_who e)) eqn:L; cbn [negb bind] in E; [|discriminate].
    cbn in E. injection E as <- _. right. exists p. auto.
  - unfold remove_staking_pool in E. rewrite AF in E. discriminate.
  - unfold add_factory, require in E. rewrite AF in E. destruct (is_valid_account_id f); discriminate.
  - unfold remove_factory in E. rewrite AF in E. discriminate.
Qed.

Lemma keep_lists self es : forall w, foundation_account_id w = self ->
  made WhitelistSpec.step WhitelistSpec.accepted (list_said self) w es = [] -> list_kept w es.
Proof.
  induction es as [|e es IH]; intros w F M; unfold list_kept; cbv zeta.
  - cbn. auto.
  - cbn [made] in M. apply app_eq_nil in M. destruct M as [M1 M2].
    change (WhitelistSpec.final w (e :: es)) with (WhitelistSpec.final (WhitelistSpec.step w e) es).
    destruct (list_step w e) as [S|(p & C & L & S)].
    { intros Y. unfold list_said in M1. rewrite Y, F, String.eqb_refl in M1. destruct (WhitelistSpec.accepted w e); [discriminate|reflexivity]. }
    + rewrite S in *. destruct (IH w F M2) as (I1 & I2 & I3 & I4). repeat split; auto.
      intros p W. destruct (I3 p W) as [|(e' & J & K)]; [now left|]. right. exists e'. split; [now right|exact K].
    + set (w1 := WhitelistSpec.step w e) in *.
      assert (F1 : foundation_account_id w1 = self) by now rewrite S.
      destruct (IH w1 F1 M2) as (I1 & I2 & I3 & I4).
      assert (EF : forall f, is_factory_whitelisted w1 f = is_factory_whitelisted w f).
      { intros f. unfold is_factory_whitelisted, ls_contains. rewrite S. cbn [keys]. rewrite smem_sinsert.
        change (keqb (lookup_key FACTORY_PREFIX f) (lookup_key WHITELIST_PREFIX p)) with false. reflexivity. }
      split; [intros f; now rewrite I1|]. split; [|split; [|rewrite I4; now rewrite S]].
      * intros q W. apply I2. unfold is_whitelisted, ls_contains, require in *. rewrite S. cbn [keys]. rewrite smem_sinsert.
        destruct (is_valid_account_id q); cbn [bind] in *; [|discriminate]. injection W as ->. now rewrite orb_true_r.
      * intros q W. destruct (I3 q W) as [W1|(e' & J & K1 & K2)].
        -- unfold is_whitelisted, ls_contains, require in W1 |- *. rewrite S in W1. cbn [keys] in W1. rewrite smem_sinsert in W1.
           destruct (is_valid_account_id q); cbn [bind] in *; [|discriminate].
           destruct (keqb_spec (lookup_key WHITELIST_PREFIX q) (lookup_key WHITELIST_PREFIX p)) as [Q|Q].
           ++ right. apply WhitelistProofs.key_inj in Q. subst q. exists e. split; [now left|]. split; [exact C|].
              intros V. unfold is_factory_whitelisted, require. rewrite V. cbn [bind]. now rewrite L.
           ++ left. exact W1.
        -- right. exists e'. split; [now right|]. split; [exact K1|]. intros V. rewrite <- EF. auto.
Qed.
End Whitelist.

Lemma list_silent1 self decode read k s0 ks hs target w js A :
  MultisigModel.new false k = Ok s0 ->
  NoDup (mkeys ks) -> (forall pk x, mget pk ks = Some x -> MultisigAccount.limited self x) ->
  WhitelistModel.foundation_account_id w = self ->
  let a := MultisigAccount.run self decode (MultisigAccount.start s0 ks) hs in
  let s := MultisigAccount.w_contract a in
  let evs := gevents (MultisigAccount.happen_obs self decode) (for_lockup1 target) read WhitelistSpec.step WhitelistSpec.accepted
               list_pays (list_calls self) (list_said self) (mkState a [] w) js in
  (forall p, In p (MultisigAccount.executions self s0 (MultisigAccount.w_calls a)) -> MultisigModel.p_receiver p = self ->
             MultisigAccount.keeps_guard self (MultisigModel.p_actions p)) ->
  MultisigAccount.w_flight a = [] ->
  N.of_nat (List.length A) < MultisigModel.get_num_confirmations s ->
  (forall id pk, In id (MultisigModel.list_request_ids s) ->
     In pk (MultisigSpec.confirmers (MultisigSpec.log self s0 (MultisigAccount.w_calls a)) id) -> In pk A) ->
  (forall key to acts, In (GAccount (MultisigAccount.HTx key to acts)) js -> ~ In key A ->
     MultisigSilence.carries_no_confirmation decode acts) ->
  list_kept w evs.
Proof.
  intros Hn Hd Hl O a s evs G FL LA HC HT.
  destruct (MultisigSilence.silence self decode k s0 ks hs (at_account js) A Hn Hd Hl G FL LA HC) as (D & _).
  { intros key to acts I. apply HT with (to := to). now apply in_at_account. }
  fold a in D.
  destruct (governed (A1.happen_obs self decode) (for_lockup1 target) read WhitelistSpec.step WhitelistSpec.accepted list_pays
              (list_calls self) (list_said self) (list_pays_said self) (list_calls_said self) js (mkState a [] w))
    as (done & rest & _ & _ & Pe & Ma).
  cbn [g_flying g_account g_contract app] in Pe, Ma. rewrite adeps1 in Pe. rewrite D in Pe.
  apply Permutation_sym, Permutation_nil, app_eq_nil in Pe. destruct Pe as [-> _].
  fold evs in Ma. cbn [flat_map] in Ma. exact (keep_lists self evs w O Ma).
Qed.

Lemma list_silent2 self decode read ms k s0 p0 ks key hs target w js B :
  Multisig2Model.new self false ms k = Ok (s0, p0) ->
  NoDup (mkeys ks) -> (forall pk x, mget pk ks = Some x -> Multisig2Account.limited self x) ->
  WhitelistModel.foundation_account_id w = self ->
  let a := Multisig2Account.run self decode (Multisig2Account.start s0 p0 ks key) hs in
  let s := Multisig2Account.w_contract a in
  let evs := gevents (Multisig2Account.happen_obs self decode) (for_lockup2 target) read WhitelistSpec.step WhitelistSpec.accepted
               list_pays (list_calls self) (list_said self) (mkState a [] w) js in
  (forall p, In p (Multisig2Account.executions self s0 (Multisig2Account.w_calls a)) -> Multisig2Model.p_receiver p = self ->
             Multisig2Account.keeps_guard self (Multisig2Model.p_actions p)) ->
  Multisig2Account.w_flight a = [] ->
  NoDup B -> incl B (Multisig2Model.get_members s) ->
  N.of_nat (List.length (Multisig2Model.get_members s)) <
    Multisig2Model.get_num_confirmations s + N.of_nat (List.length B) ->
  (forall id m, In id (Multisig2Model.list_request_ids s) ->
     In m (Multisig2Spec.confirmers (Multisig2Spec.log self s0 (Multisig2Account.w_calls a)) id) ->
     In m (Multisig2Model.get_members s) /\ ~ In m B) ->
  (forall key to acts, In (GAccount (Multisig2Account.HTx key to acts)) js -> In (Multisig2Model.AccessKey key) B ->
     Multisig2Silence.carries_no_confirmation decode acts) ->
  (forall pred key attached t m, In (GAccount (Multisig2Account.HCall pred key attached t m)) js ->
     In (Multisig2Model.Account pred) B -> Multisig2Veto.confirms m = false) ->
  list_kept w evs.
Proof.
  intros Hn Hd Hl O a s evs G FL NB IB LB HC HT HH.
  destruct (Multisig2Silence.silence self decode ms k p0 s0 ks key hs (at_account js) B Hn Hd Hl G FL NB IB LB HC) as (D & _).
  { intros key' to acts I. apply HT with (to := to). now apply in_at_account. }
  { intros pred key' att t m I. apply (HH pred key' att t m). now apply in_at_account. }
  fold a in D.
  destruct (governed (A2.happen_obs self decode) (for_lockup2 target) read WhitelistSpec.step WhitelistSpec.accepted list_pays
              (list_calls self) (list_said self) (list_pays_said self) (list_calls_said self) js (mkState a [] w))
    as (done & rest & _ & _ & Pe & Ma).
  cbn [g_flying g_account g_contract app] in Pe, Ma. rewrite adeps2 in Pe. rewrite D in Pe.
  apply Permutation_sym, Permutation_nil, app_eq_nil in Pe. destruct Pe as [-> _].
  fold evs in Ma. cbn [flat_map] in Ma. exact (keep_lists self evs w O Ma).
Qed.
