(** The property lemmas of the voting contract. *)
From Coq Require Import NArith List Bool String Lia Permutation.
From Verif Require Import Prelude PreludeFacts VotingModel VotingSpec VotingProofs.
Import ListNotations.
Open Scope N_scope.

Lemma tally_is_sum w evs :
  initial w -> Forall event_ok evs ->
  let s := w_contract (final w evs) in
  NoDup (mkeys (get_votes s)) /\
  fst (get_total_voted_stake (call_ctx (final w evs) EmptyString 0 0) s) = msum (fun v => v) (get_votes s) /\
  (forall a v, In (a, v) (get_votes s) -> 0 < v).
Proof.
  intros I OK s. destruct (reach_inv w evs I OK) as [_ ND S P _ _ _]. repeat split; auto.
  intros a v X. apply in_mget in X; eauto.
Qed.

Lemma result_iff w evs who att ts m :
  initial w -> Forall event_ok evs ->
  let w1 := final w evs in
  let ev := EvCall who att ts m in
  accepted w1 ev = true ->
  get_result (w_contract w1) = None /\
  get_result (w_contract (step w1 ev)) =
    if 2 * total_stake w1 <? 3 * stake_for w1 (poll w (evs ++ [ev]) nobody) then Some ts else None.
Proof.
  intros I OK w1 ev A. pose proof (reach_inv w evs I OK) as V. fold w1 in V.
  destruct (exec_spec _ _ who att ts m V) as (E & _ & R). fold ev in E, R.
  rewrite A in E. specialize (R (eq_sym E)). destruct R as [R _].
  rewrite poll_app. cbn [poll]. fold w1. split; [|exact R].
  unfold get_result. destruct (result (w_contract w1)) eqn:X; auto.
  unfold ev in A. rewrite (ended_rejects _ _ _ _ _ _ X) in A. discriminate.
Qed.

Lemma open_means_not_passed w evs :
  initial w -> Forall event_ok evs ->
  let w1 := final w evs in
  get_result (w_contract w1) = None ->
  last_epoch_height (w_contract w1) = w_epoch w1 ->
  3 * stake_for w1 (poll w evs nobody) <= 2 * total_stake w1.
Proof.
  intros I OK w1 R L. destruct (reach_inv w evs I OK) as [_ _ _ _ _ _ NOW].
  destruct (NOW R L) as [_ D]. apply N.ltb_ge in D. auto.
Qed.

Lemma accepted_iff w evs who att ts m :
  initial w -> Forall event_ok evs ->
  let w1 := final w evs in
  accepted w1 (EvCall who att ts m) = true <->
  att = 0 /\ get_result (w_contract w1) = None /\
  (m = Vote true -> 0 < stake_of w1 who \/
     2 * total_stake w1 < 3 * stake_for w1 (fun a => poll w evs nobody a && (0 <? stake_of w1 a))).
Proof.
  intros I OK w1. pose proof (reach_inv w evs I OK) as V. fold w1 in V.
  destruct (exec_spec _ _ who att ts m V) as (E & _ & _). rewrite E. unfold acceptable, get_result.
  rewrite andb_true_iff, N.eqb_eq.
  destruct (result (w_contract w1)); [intuition congruence|].
  destruct m as [|[]]; try (intuition congruence).
  rewrite orb_true_iff, N.ltb_lt. unfold decided, survivors. rewrite N.ltb_lt. intuition.
Qed.

Lemma result_final w evs evs' t :
  get_result (w_contract (final w evs)) = Some t ->
  w_contract (final w (evs ++ evs')) = w_contract (final w evs) /\
  (forall who att ts m, accepted (final w (evs ++ evs')) (EvCall who att ts m) = false).
Proof.
  intros R. rewrite final_app. rewrite (ended_stays _ evs' t R). split; auto.
  intros. eapply ended_rejects. rewrite (ended_stays _ evs' t R). exact R.
Qed.

Lemma votes_are_current_stakes w evs who att ts m :
  initial w -> Forall event_ok evs ->
  let w1 := final w evs in
  let ev := EvCall who att ts m in
  accepted w1 ev = true ->
  let w2 := step w1 ev in
  (forall a v, In (a, v) (get_votes (w_contract w2)) <->
     poll w (evs ++ [ev]) nobody a = true /\ v = stake_of w2 a /\ 0 < v) /\
  (forall a, poll w (evs ++ [ev]) nobody a = true -> 0 < stake_of w2 a).
Proof.
  intros I OK w1 ev A w2. pose proof (reach_inv w evs I OK) as V. fold w1 in V.
  destruct (exec_spec _ _ who att ts m V) as (E & V2 & R). fold ev in E, R, V2.
  rewrite A in E. specialize (R (eq_sym E)). destruct R as (_ & _ & G & _).
  rewrite poll_app. cbn [poll]. fold w1.
  assert (S : forall a, stake_of w2 a = stake_of w1 a).
  { intros a. unfold w2, ev, stake_of. cbn [step]. destruct (exec _ _ _); reflexivity. }
  destruct V2 as [_ ND _ P D _ _]. fold w2 in ND, P, D.
  assert (Y : forall a, poll_step w1 ev (poll w evs nobody) a = true -> 0 < stake_of w2 a).
  { intros a Y. specialize (G a). rewrite Y in G. rewrite S. eapply P; eauto. }
  split; [|exact Y]. intros a v. split.
  - intros X. apply in_mget in X; auto. pose proof X as X2. apply P in X2.
    unfold w2 in X. rewrite G in X. destruct (poll_step _ _ _ a) eqn:Z; [|discriminate].
    injection X as <-. rewrite S. auto.
  - intros (Z & -> & X). apply mget_in. unfold w2 at 1. rewrite G, Z, S. reflexivity.
Qed.

Lemma only_own_vote w evs who att ts m a :
  initial w -> Forall event_ok evs ->
  let w1 := final w evs in
  let w2 := step w1 (EvCall who att ts m) in
  accepted w1 (EvCall who att ts m) = true -> a <> who -> 0 < stake_of w1 a ->
  (In a (mkeys (get_votes (w_contract w2))) <-> In a (mkeys (get_votes (w_contract w1)))).
Proof.
  intros I OK w1 w2 A NE P. pose proof (reach_inv w evs I OK) as V. fold w1 in V.
  destruct (exec_spec _ _ who att ts m V) as (E & V2 & _). fold w2 in V2.
  pose proof (i_dom _ _ V a) as D1. pose proof (i_dom _ _ V2 a) as D2.
  assert (X : forall (mm : umap account_id N), In a (mkeys mm) <-> mmem a mm = true).
  { intros mm. rewrite in_mkeys. unfold mmem. destruct (mget a mm); split; eauto.
    - intros []; discriminate. - discriminate. }
  unfold get_votes. rewrite !X, <- D1, <- D2. cbn [poll_step]. rewrite A.
  apply N.ltb_lt in P.
  destruct m as [|v]; [rewrite P, andb_true_r; tauto|].
  destruct (decided _ _); [rewrite P, andb_true_r; tauto|].
  apply String.eqb_neq in NE. rewrite NE, P, andb_true_r. tauto.
Qed.

Lemma order_irrelevant c s s' m :
  NoDup (mkeys (votes s)) -> same_up_to_order s s' ->
  match exec c s m, exec c s' m with
  | Ok r, Ok r' => same_up_to_order r r' /\ (forall a, mget a (get_votes r) = mget a (get_votes r'))
  | Panic _, Panic _ => True
  | _, _ => False
  end.
Proof.
  intros ND SM. pose proof (exec_order c s s' m ND SM) as X.
  destruct (exec c s m) as [r|] eqn:E, (exec c s' m) as [r'|]; cbn in X; auto.
  split; auto. intros a. destruct X as [P _]. apply mget_perm; auto.
  unfold exec in E. inv_res. destruct m as [|v].
  - eapply ping_nodup; eauto.
  - unfold vote in E. inv_res. assert (N1 : NoDup (mkeys (votes x0))) by (eapply ping_nodup; eauto).
    destruct (result x0); inv_res; auto.
    destruct (0 <? x1); inv_res; cbn [votes].
    + unfold check_result in E. inv_res.
      match type of E with (if ?b then _ else _) = _ => destruct b end; inv_res;
        now apply NoDup_minsert, NoDup_mremove.
    + now apply NoDup_mremove.
Qed.

(** * C74 *)
Lemma created ex : (is_ok (new ex) = true <-> ex = false) /\
  forall s0, new ex = Ok s0 -> get_votes s0 = [] /\ get_result s0 = None /\
    forall c, fst (get_total_voted_stake c s0) = 0.
Proof.
  unfold new, require. destruct ex; cbn; split; try (split; congruence); intros s0 E; inversion E. auto.
Qed.
