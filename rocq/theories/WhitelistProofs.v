(** Proofs about the whitelist contract. *)
From Coq Require Import NArith List Bool String Ascii Lia.
From Verif Require Import Prelude PreludeFacts WhitelistModel WhitelistSpec.
Import ListNotations.
Open Scope N_scope.

Lemma borsh_inj a b : borsh_string a = borsh_string b -> a = b.
Proof. unfold borsh_string, borsh_u32. cbn [append]. intros E. congruence. Qed.

Lemma key_inj p a b : lookup_key p a = lookup_key p b -> a = b.
Proof.
  unfold lookup_key. induction p as [|c p IH]; cbn [append]; intros E.
  - now apply borsh_inj.
  - injection E as E. auto.
Qed.

Lemma key_disjoint a b : lookup_key WHITELIST_PREFIX a <> lookup_key FACTORY_PREFIX b.
Proof. discriminate. Qed.

Lemma key_eqb p a b : keqb (lookup_key p a) (lookup_key p b) = String.eqb a b.
Proof.
  destruct (String.eqb_spec a b) as [->|N]; [apply keqb_refl|].
  apply keqb_neq. intros E. apply key_inj in E. auto.
Qed.

Lemma key_cross a b : keqb (lookup_key WHITELIST_PREFIX a) (lookup_key FACTORY_PREFIX b) = false.
Proof. apply keqb_neq, key_disjoint. Qed.
Lemma key_cross' a b : keqb (lookup_key FACTORY_PREFIX a) (lookup_key WHITELIST_PREFIX b) = false.
Proof. rewrite keqb_sym. apply key_cross. Qed.

(** The contract matches the history. *)
Definition matches (fnd : account_id) (past : list event) (s : contract) : Prop :=
  foundation_account_id s = fnd /\
  (forall p, ls_contains WHITELIST_PREFIX (keys s) p = pool_listed fnd past p) /\
  (forall f, ls_contains FACTORY_PREFIX (keys s) f = factory_listed fnd past f).

Ltac keys_simpl :=
  unfold ls_contains, ls_insert, ls_remove in *; cbn [keys foundation_account_id];
  repeat rewrite ?smem_sinsert, ?smem_sremove, ?key_eqb, ?key_cross, ?key_cross'; cbn [orb andb negb].

Lemma step_matches fnd past s ev :
  matches fnd past s ->
  accepted s ev = authorised fnd past ev /\
  matches fnd (ev :: past) (step s ev).
Proof.
  intros (F & P & Q). destruct ev as [who att m]. unfold accepted, step, authorised, matches.
  cbn [e_who e_attached e_call pool_listed factory_listed]. unfold exec, in_order.
  cbn [e_who e_attached e_call ctx_attached ctx_predecessor].
  destruct (att =? 0); cbn [andb require bind is_ok].
  2:{ split; [reflexivity|]. repeat split; auto. }
  destruct m as [p|p|f|f];
    unfold add_staking_pool, remove_staking_pool, add_factory, remove_factory, assert_called_by_foundation;
    cbn [ctx_predecessor]; rewrite ?F;
    destruct (is_valid_account_id _) eqn:VAL; cbn [require bind is_ok andb negb];
    try rewrite Q;
    destruct (String.eqb_spec who fnd) as [WF|WF]; cbn [require bind is_ok andb orb negb];
    try (destruct (factory_listed fnd past who) eqn:FL; cbn [require bind is_ok andb orb negb]);
    (split; [reflexivity|]); repeat split; auto;
    cbn [keys foundation_account_id]; intros x; keys_simpl;
    rewrite ?andb_true_r, ?andb_false_r; auto;
    try match goal with |- context [String.eqb x ?y] =>
      rewrite (String.eqb_sym x y); destruct (String.eqb y x); cbn [orb andb negb]; auto
    end.
Qed.

Lemma final_matches fnd evs : forall past s, matches fnd past s ->
  matches fnd (rev evs ++ past) (final s evs).
Proof.
  induction evs as [|ev evs IH]; cbn [rev app final fold_left]; intros past s M; auto.
  rewrite <- app_assoc. cbn [app]. apply IH. now apply step_matches.
Qed.

Lemma new_matches fnd s : new false fnd = Ok s -> matches fnd [] s.
Proof. unfold new. intros E. inv_res. repeat split; auto. Qed.

Lemma reach_matches fnd s evs : new false fnd = Ok s -> matches fnd (rev evs) (final s evs).
Proof.
  intros E. apply new_matches in E. apply (final_matches fnd evs) in E. now rewrite app_nil_r in E.
Qed.

Lemma final_app s a b : final s (a ++ b) = final (final s a) b.
Proof. unfold final. now rewrite fold_left_app. Qed.

(** * Properties *)
Lemma answers_follow_history fnd s0 evs :
  new false fnd = Ok s0 ->
  let s := final s0 evs in
  (forall p, is_valid_account_id p = true -> is_whitelisted s p = Ok (pool_listed fnd (rev evs) p)) /\
  (forall f, is_valid_account_id f = true -> is_factory_whitelisted s f = Ok (factory_listed fnd (rev evs) f)).
Proof.
  intros E s. destruct (reach_matches fnd s0 evs E) as (_ & P & Q).
  unfold is_whitelisted, is_factory_whitelisted.
  split; intros x V; rewrite V; cbn [require bind]; [now rewrite P|now rewrite Q].
Qed.

Lemma accepted_iff_authorised fnd s0 evs ev :
  new false fnd = Ok s0 ->
  accepted (final s0 evs) ev = authorised fnd (rev evs) ev.
Proof. intros E. apply step_matches. now apply reach_matches. Qed.

Lemma returned_value fnd s0 evs ev s' b :
  new false fnd = Ok s0 ->
  exec (mkCtx (e_who ev) (e_attached ev)) (final s0 evs) (e_call ev) = Ok (s', b) ->
  b = match e_call ev with
      | AddStakingPool p => negb (pool_listed fnd (rev evs) p)
      | RemoveStakingPool p => pool_listed fnd (rev evs) p
      | AddFactory f => negb (factory_listed fnd (rev evs) f)
      | RemoveFactory f => factory_listed fnd (rev evs) f
      end.
Proof.
  intros E X. destruct (reach_matches fnd s0 evs E) as (_ & P & Q).
  unfold exec in X. inv_res.
  destruct (e_call ev) as [p|p|f|f];
    unfold add_staking_pool, remove_staking_pool, add_factory, remove_factory, ls_insert, ls_remove in X;
    inv_res; rewrite <- ?P, <- ?Q; reflexivity.
Qed.

(** The key a call works on. *)
Definition call_key (m : call) : string :=
  match m with
  | AddStakingPool p | RemoveStakingPool p => lookup_key WHITELIST_PREFIX p
  | AddFactory f | RemoveFactory f => lookup_key FACTORY_PREFIX f
  end.

Lemma only_own_key s ev k :
  k <> call_key (e_call ev) -> In k (keys (step s ev)) <-> In k (keys s).
Proof.
  intros N. unfold step. destruct (exec _ _ _) as [[s' b]|] eqn:X; [|tauto].
  unfold exec in X. inv_res.
  destruct (e_call ev); unfold call_key in N;
    unfold add_staking_pool, remove_staking_pool, add_factory, remove_factory, ls_insert, ls_remove in X;
    inv_res; cbn [keys]; rewrite ?sinsert_in, ?sremove_in; tauto.
Qed.

Lemma whitelists_independent s ev :
  (forall p q, e_call ev = AddStakingPool q \/ e_call ev = RemoveStakingPool q -> p <> q ->
     is_whitelisted (step s ev) p = is_whitelisted s p) /\
  (forall f q, e_call ev = AddStakingPool q \/ e_call ev = RemoveStakingPool q ->
     is_factory_whitelisted (step s ev) f = is_factory_whitelisted s f) /\
  (forall f g, e_call ev = AddFactory g \/ e_call ev = RemoveFactory g -> f <> g ->
     is_factory_whitelisted (step s ev) f = is_factory_whitelisted s f) /\
  (forall p g, e_call ev = AddFactory g \/ e_call ev = RemoveFactory g ->
     is_whitelisted (step s ev) p = is_whitelisted s p).
Proof.
  assert (X : forall pre a, lookup_key pre a <> call_key (e_call ev) ->
    ls_contains pre (keys (step s ev)) a = ls_contains pre (keys s) a).
  { intros pre a N. unfold ls_contains. apply eq_true_iff_eq. rewrite !smem_in. now apply only_own_key. }
  unfold is_whitelisted, is_factory_whitelisted.
  repeat split; intros a b [E|E]; try intros N; rewrite X; auto; rewrite E; unfold call_key;
    try (intros K; apply key_inj in K; congruence); discriminate.
Qed.

Lemma storage_keys_distinct :
  (forall a b, lookup_key WHITELIST_PREFIX a = lookup_key WHITELIST_PREFIX b -> a = b) /\
  (forall a b, lookup_key FACTORY_PREFIX a = lookup_key FACTORY_PREFIX b -> a = b) /\
  (forall a b, lookup_key WHITELIST_PREFIX a <> lookup_key FACTORY_PREFIX b) /\
  (forall a, lookup_key WHITELIST_PREFIX a <> STATE_KEY /\ lookup_key FACTORY_PREFIX a <> STATE_KEY).
Proof. repeat split; try apply key_inj; discriminate. Qed.

(** The foundation does not add [f] in [evs]. *)
Definition not_added_again (fnd f : account_id) (evs : list event) : Prop :=
  forall ev, In ev evs -> ~ (e_who ev = fnd /\ e_call ev = AddFactory f).

Lemma stays_unlisted fnd f evs past :
  not_added_again fnd f evs -> factory_listed fnd past f = false ->
  factory_listed fnd (rev evs ++ past) f = false.
Proof.
  intros N U. assert (X : forall l, (forall ev, In ev l -> ~ (e_who ev = fnd /\ e_call ev = AddFactory f)) ->
    factory_listed fnd (l ++ past) f = false).
  { induction l as [|ev l IH]; intros H; cbn [app factory_listed]; auto.
    rewrite IH by (intros; apply H; cbn; auto).
    destruct (in_order ev && String.eqb (e_who ev) fnd) eqn:O; auto.
    apply andb_true_iff in O. destruct O as [_ O]. apply String.eqb_eq in O.
    destruct (e_call ev) as [|?|g|g] eqn:C; auto.
    - destruct (String.eqb_spec g f) as [->|]; auto. exfalso. apply (H ev); cbn; auto.
    - destruct (String.eqb g f); auto. }
  apply X. intros ev I. apply N. now apply in_rev.
Qed.

Lemma removed_factory_powerless fnd s0 evs f evs' p att :
  new false fnd = Ok s0 -> f <> fnd ->
  accepted (final s0 evs) (mkEvent fnd 0 (RemoveFactory f)) = true ->
  not_added_again fnd f evs' ->
  accepted (final s0 (evs ++ [mkEvent fnd 0 (RemoveFactory f)] ++ evs')) (mkEvent f att (AddStakingPool p)) = false.
Proof.
  intros E NF A N. rewrite (accepted_iff_authorised fnd s0 evs _ E) in A.
  rewrite (accepted_iff_authorised fnd s0 _ _ E). rewrite !rev_app_distr. cbn [rev app].
  unfold authorised. cbn [e_who e_call]. rewrite <- app_assoc. cbn [app].
  rewrite (proj2 (String.eqb_neq f fnd) NF). cbn [orb].
  rewrite stays_unlisted; auto; [apply andb_false_r|].
  cbn [factory_listed]. unfold authorised in A. cbn [e_who e_call] in A.
  apply andb_true_iff in A. destruct A as [-> _]. cbn [e_who e_call andb].
  now rewrite !String.eqb_refl.
Qed.

Lemma removed_factory_pools_stay s f who att p :
  is_whitelisted (step s (mkEvent who att (RemoveFactory f))) p = is_whitelisted s p.
Proof. apply (proj2 (proj2 (proj2 (whitelists_independent s _))) p f). auto. Qed.

(** * C74 *)
Lemma created_iff ex fnd : is_ok (new ex fnd) = true <-> ex = false /\ is_valid_account_id fnd = true.
Proof.
  unfold new, require. destruct ex, (is_valid_account_id fnd); cbn; split; try discriminate; tauto || intros [? ?]; discriminate.
Qed.
Lemma starts_empty fnd s0 : new false fnd = Ok s0 ->
  (forall p, is_whitelisted s0 p <> Ok true) /\ (forall f, is_factory_whitelisted s0 f <> Ok true) /\
  (forall who att f, accepted s0 (mkEvent who att (AddFactory f)) = true <->
                     who = fnd /\ att = 0 /\ is_valid_account_id f = true).
Proof.
  unfold new, require. intros E. inv_res.
  split. { intros p. unfold is_whitelisted, require. destruct (is_valid_account_id p); cbn; discriminate. }
  split. { intros p. unfold is_factory_whitelisted, require. destruct (is_valid_account_id p); cbn; discriminate. }
  intros who att f. unfold accepted, exec, add_factory, assert_called_by_foundation, require. cbn [e_call e_who e_attached ctx_attached ctx_predecessor foundation_account_id].
  destruct (N.eqb_spec att 0); cbn [bind is_ok]; [|split; [discriminate|tauto]].
  destruct (is_valid_account_id f); cbn [bind is_ok]; [|split; [discriminate|intros (_ & _ & ?); discriminate]].
  destruct (String.eqb_spec who fnd); cbn [bind is_ok]; [|split; [discriminate|tauto]].
  destruct (ls_insert _ _ _). cbn. tauto.
Qed.
