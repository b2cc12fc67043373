(** Who can end a poll and who can keep it open: proofs. *)
From Coq Require Import NArith List Bool String Lia Permutation.
From Verif Require Import Prelude PreludeFacts VotingModel VotingSpec VotingProofs VotingFacts.
Import ListNotations.
Open Scope N_scope.

(** Nobody's epoch changes. *)
Definition is_call (ev : event) : bool := match ev with EvCall _ _ _ _ => true | EvEpoch _ _ => false end.

Lemma call_world w ev : is_call ev = true ->
  w_epoch (step w ev) = w_epoch w /\ w_validators (step w ev) = w_validators w.
Proof. destruct ev; [|discriminate]. cbn [step]. destruct (exec _ _ _); auto. Qed.
Lemma calls_world w evs : Forall (fun ev => is_call ev = true) evs ->
  w_epoch (final w evs) = w_epoch w /\ w_validators (final w evs) = w_validators w.
Proof.
  revert w. induction evs as [|ev evs IH]; cbn [final]; intros w F; auto. inversion F; subst.
  destruct (IH (step w ev)) as [-> ->]; auto. now apply call_world.
Qed.
Lemma open_before w evs : result (w_contract (final w evs)) = None -> result (w_contract w) = None.
Proof.
  intros R. destruct (result (w_contract w)) as [t|] eqn:E; auto.
  pose proof (ended_stays w evs t E) as S. rewrite S in R. congruence.
Qed.
Lemma calls_ok evs : Forall (fun ev => is_call ev = true) evs -> Forall event_ok evs.
Proof. apply Forall_impl. intros []; cbn; [auto|discriminate]. Qed.

(** After an accepted call that left the poll open nobody but the caller has changed their mind. *)
Lemma open_step w yes ev : inv w yes -> is_call ev = true -> result (w_contract (step w ev)) = None ->
  accepted w ev = true ->
  last_epoch_height (w_contract (step w ev)) = w_epoch w /\
  match ev with
  | EvCall who _ _ (Vote v) => forall a, 0 < stake_of w a -> poll_step w ev yes a = if String.eqb a who then v else yes a
  | _ => forall a, 0 < stake_of w a -> poll_step w ev yes a = yes a
  end.
Proof.
  intros I C R A. destruct ev as [who att ts m|]; [|discriminate].
  destruct (exec_spec w yes who att ts m I) as (E & _ & X). rewrite E in A. destruct (X A) as (RE & LE & _).
  split; [exact LE|]. rewrite R in RE. cbn [poll_step] in *. rewrite E, A in *.
  destruct m as [|v]; intros a P; apply N.ltb_lt in P.
  - now rewrite P, andb_true_r.
  - destruct (decided w (fun a => yes a && (0 <? stake_of w a))) eqn:D.
    + rewrite D in RE. discriminate.
    + destruct (String.eqb a who); auto. now rewrite P, andb_true_r.
Qed.

(** While the poll stays open, a yes voter who does not take it back stays one. *)
Lemma yes_stays evs : forall w yes a, inv w yes -> Forall (fun ev => is_call ev = true) evs ->
  result (w_contract (final w evs)) = None -> 0 < stake_of w a ->
  (forall att ts, ~ In (EvCall a att ts (Vote false)) evs) ->
  yes a = true \/ (exists ts, In (EvCall a 0 ts (Vote true)) evs) -> poll w evs yes a = true.
Proof.
  induction evs as [|ev evs IH]; cbn [final poll]; intros w yes a I F R P NF H.
  - destruct H as [H|(ts & [])]. exact H.
  - inversion F as [|? ? C F']; subst. pose proof (open_before _ _ R) as R1. pose proof (open_before w [ev] R1) as R0.
    destruct (call_world w ev C) as [_ V]. assert (S : stake_of (step w ev) a = stake_of w a) by (unfold stake_of; now rewrite V).
    apply IH; auto.
    + apply step_inv; auto. destruct ev; [exact Logic.I|discriminate].
    + now rewrite S.
    + intros att ts X. apply (NF att ts). now right.
    + destruct (accepted w ev) eqn:A.
      * destruct (open_step w yes ev I C R1 A) as [_ Q]. destruct ev as [who att ts m|]; [|discriminate].
        destruct H as [H|(ts' & [H|H])].
        -- left. destruct m as [|v]; rewrite Q by exact P; auto.
           destruct (String.eqb_spec a who) as [->|]; auto. destruct v; auto. exfalso. apply (NF att ts). now left.
        -- injection H as -> -> -> ->. left. rewrite Q by exact P. now rewrite String.eqb_refl.
        -- right. eauto.
      * destruct ev as [who att ts m|]; [|discriminate]. destruct H as [H|(ts' & [H|H])].
        -- left. cbn [poll_step]. now rewrite A.
        -- exfalso. injection H as -> -> -> ->. destruct (exec_spec w yes a 0 ts' (Vote true) I) as (E & _).
           rewrite E in A. unfold acceptable in A. rewrite R0 in A. apply N.ltb_lt in P. rewrite P in A. rewrite orb_true_r in A. discriminate.
        -- right. eauto.
Qed.
Lemma epoch_reached evs : forall w yes, inv w yes -> Forall (fun ev => is_call ev = true) evs ->
  result (w_contract (final w evs)) = None -> last_epoch_height (w_contract w) = w_epoch w ->
  last_epoch_height (w_contract (final w evs)) = w_epoch w.
Proof.
  induction evs as [|ev evs IH]; cbn [final]; intros w yes I F R L; auto.
  inversion F as [|? ? C F']; subst. pose proof (open_before _ _ R) as R1. destruct (call_world w ev C) as [E _].
  rewrite <- E. apply (IH _ (poll_step w ev yes)); auto.
  - apply step_inv; auto. destruct ev; [exact Logic.I|discriminate].
  - rewrite E. destruct (accepted w ev) eqn:A; [now apply (open_step w yes ev)|].
    destruct ev as [who att ts m|]; [|discriminate]. now rewrite rejected_step.
Qed.
Lemma epoch_reached_by evs : forall w yes a ts, inv w yes -> Forall (fun ev => is_call ev = true) evs ->
  result (w_contract (final w evs)) = None -> 0 < stake_of w a -> In (EvCall a 0 ts (Vote true)) evs ->
  last_epoch_height (w_contract (final w evs)) = w_epoch w.
Proof.
  induction evs as [|ev evs IH]; cbn [final]; intros w yes a ts I F R P H; [destruct H|].
  inversion F as [|? ? C F']; subst. pose proof (open_before _ _ R) as R1. pose proof (open_before w [ev] R1) as R0.
  destruct (call_world w ev C) as [E V].
  assert (I' : inv (step w ev) (poll_step w ev yes)) by (apply step_inv; auto; destruct ev; [exact Logic.I|discriminate]).
  rewrite <- E. destruct H as [->|H].
  - apply (epoch_reached _ _ (poll_step w (EvCall a 0 ts (Vote true)) yes)); auto.
    rewrite E. apply (open_step w yes _ I C R1).
    destruct (exec_spec w yes a 0 ts (Vote true) I) as (X & _). rewrite X. unfold acceptable. rewrite R0.
    apply N.ltb_lt in P. now rewrite P, orb_true_r.
  - apply (IH _ (poll_step w ev yes) a ts); auto. unfold stake_of. rewrite V. exact P.
Qed.

Lemma stake_for_mono w yes yes' : NoDup (mkeys (w_validators w)) ->
  (forall a, 0 < stake_of w a -> yes a = true -> yes' a = true) -> stake_for w yes <= stake_for w yes'.
Proof.
  unfold stake_for, stake_of. induction (w_validators w) as [|[k s] vs IH]; cbn [fold_right fst snd mget mkeys map]; intros ND H; [lia|].
  inversion ND; subst.
  assert (fold_right (fun kv acc => (if yes (fst kv) then snd kv else 0) + acc) 0 vs <=
          fold_right (fun kv acc => (if yes' (fst kv) then snd kv else 0) + acc) 0 vs).
  { apply IH; auto. intros a P. apply H. destruct (keqb_spec a k) as [->|]; auto.
    exfalso. destruct (mget k vs) eqn:G; [|lia]. apply H2. apply in_mkeys. eauto. }
  pose proof (H k) as K. rewrite keqb_refl in K.
  destruct (yes k); [|destruct (yes' k); lia]. destruct s as [|p]; [destruct (yes' k); lia|].
  rewrite K; auto; lia.
Qed.
Lemma stake_for_pos w yes : NoDup (mkeys (w_validators w)) -> 0 < stake_for w yes -> exists a, 0 < stake_of w a /\ yes a = true.
Proof.
  unfold stake_for, stake_of. induction (w_validators w) as [|[k s] vs IH]; cbn [fold_right fst snd mget mkeys map]; intros ND H; [lia|].
  inversion ND; subst. destruct (yes k) eqn:Y; [destruct (N.eq_dec s 0) as [->|]|].
  - destruct IH as (a & P & Q); auto. exists a. split; auto. destruct (keqb_spec a k) as [->|]; auto.
    exfalso. destruct (mget k vs) eqn:G; [|lia]. apply H2. apply in_mkeys. eauto.
  - exists k. rewrite keqb_refl. split; [lia|auto].
  - destruct IH as (a & P & Q); auto. exists a. split; auto. destruct (keqb_spec a k) as [->|]; auto. congruence.
Qed.
Lemma stake_for_disjoint w yes no : (forall a, yes a = true -> no a = false) ->
  stake_for w yes + stake_for w no <= total_stake w.
Proof.
  intros D. unfold stake_for, total_stake, msum. induction (w_validators w) as [|[k s] vs IH]; cbn [fold_right fst snd]; [lia|].
  specialize (D k). destruct (yes k); [rewrite D by auto; lia|destruct (no k); lia].
Qed.

(** * More than two thirds end the poll *)
Lemma majority_ends w evs evs' (s : account_id -> bool) : initial w -> Forall event_ok evs ->
  let w1 := final w evs in
  Forall (fun ev => is_call ev = true) evs' ->
  2 * total_stake w1 < 3 * stake_for w1 s ->
  (forall a, s a = true -> exists ts, In (EvCall a 0 ts (Vote true)) evs') ->
  (forall a att ts, s a = true -> ~ In (EvCall a att ts (Vote false)) evs') ->
  exists ts, get_result (w_contract (final w1 evs')) = Some ts.
Proof.
  intros IN OK w1 F T Y NN. unfold get_result.
  destruct (result (w_contract (final w1 evs'))) as [ts|] eqn:R; [eauto|exfalso].
  pose proof (reach_inv w evs IN OK) as I. fold w1 in I. pose proof (i_vals _ _ I) as [ND _].
  destruct (calls_world w1 evs' F) as [E V].
  assert (stake_for w1 s <= stake_for w1 (poll w1 evs' (poll w evs nobody))) as LE.
  { apply stake_for_mono; auto. intros a P SA. apply yes_stays; auto. }
  destruct (stake_for_pos w1 s ND) as (a & P & SA); [lia|]. destruct (Y a SA) as (ts & HI).
  pose proof (epoch_reached_by evs' w1 _ a ts I F R P HI) as L.
  pose proof (final_inv evs' w1 _ I (calls_ok _ F)) as I'.
  rewrite <- E in L. destruct (i_now _ _ I' R L) as [_ D].
  apply N.ltb_ge in D. unfold total_stake, stake_for in *. rewrite V in D. lia.
Qed.

(** Anybody can close a poll whose standing voters have the stake. *)
Lemma anyone_closes w evs who ts : initial w -> Forall event_ok evs ->
  let w1 := final w evs in
  get_result (w_contract w1) = None ->
  2 * total_stake w1 < 3 * stake_for w1 (poll w evs nobody) ->
  get_result (w_contract (step w1 (EvCall who 0 ts Ping))) = Some ts.
Proof.
  intros IN OK w1 R T. pose proof (reach_inv w evs IN OK) as I. fold w1 in I. pose proof (i_vals _ _ I) as [ND _].
  assert (A : accepted w1 (EvCall who 0 ts Ping) = true).
  { unfold w1. apply accepted_iff; auto. split; auto. split; auto. discriminate. }
  destruct (result_iff w evs who 0 ts Ping IN OK A) as [_ Q]. fold w1 in Q. rewrite Q.
  rewrite poll_app. cbn [poll]. fold w1. cbn [poll_step]. rewrite A.
  assert (S : stake_for w1 (poll w evs nobody) <= stake_for w1 (fun a => poll w evs nobody a && (0 <? stake_of w1 a))).
  { apply stake_for_mono; auto. intros a P Y. rewrite Y. now apply N.ltb_lt in P. }
  replace (2 * total_stake w1 <? _) with true; auto. symmetry. apply N.ltb_lt. lia.
Qed.

(** * A third keeps it open *)
Lemma poll_only_yes evs : forall w yes (no : account_id -> bool), (forall a, yes a = true -> no a = false) ->
  (forall who att ts, In (EvCall who att ts (Vote true)) evs -> no who = false) ->
  forall a, poll w evs yes a = true -> no a = false.
Proof.
  induction evs as [|ev evs IH]; cbn [poll]; intros w yes no Y H a P; auto.
  eapply (IH (step w ev) (poll_step w ev yes) no); eauto; [|intros; eapply H; right; eauto].
  intros b B. destruct ev as [who att ts m|]; [|auto]. cbn [poll_step] in B.
  destruct (accepted _ _); auto. destruct m as [|v].
  - apply andb_true_iff in B. apply Y, B.
  - destruct (decided _ _).
    + apply andb_true_iff in B. apply Y, B.
    + destruct (String.eqb_spec b who) as [E|].
      * subst. eapply H. left. reflexivity.
      * apply andb_true_iff in B. apply Y, B.
Qed.
Lemma minority_blocks w evs (no : account_id -> bool) : initial w -> Forall event_ok evs ->
  (forall who att ts, In (EvCall who att ts (Vote true)) evs -> no who = false) ->
  (forall evs1 evs2, evs = (evs1 ++ evs2)%list ->
     total_stake (final w evs1) <= 3 * stake_for (final w evs1) no) ->
  get_result (w_contract (final w evs)) = None.
Proof.
  intros IN. induction evs as [|ev evs IH] using rev_ind; intros OK NV T.
  - destruct IN as [N0 _]. unfold new in N0. cbn in N0. injection N0 as N0. cbn [final]. now rewrite <- N0.
  - apply Forall_app in OK. destruct OK as [OK _].
    assert (R : get_result (w_contract (final w evs)) = None).
    { apply IH; auto.
      - intros who att ts X. apply (NV who att ts). apply in_or_app. auto.
      - intros evs1 evs2 ->. apply (T evs1 (evs2 ++ [ev])%list). now rewrite app_assoc. }
    rewrite final_app. cbn [final]. destruct ev as [who att ts m|n vs]; [|exact R].
    destruct (accepted (final w evs) (EvCall who att ts m)) eqn:A; [|now rewrite rejected_step].
    destruct (result_iff w evs who att ts m IN OK A) as [_ ->].
    assert (D : forall a, poll w (evs ++ [EvCall who att ts m]) nobody a = true -> no a = false).
    { apply poll_only_yes; [discriminate|exact NV]. }
    pose proof (stake_for_disjoint (final w evs) _ no D) as S.
    pose proof (T evs [EvCall who att ts m] eq_refl) as H.
    replace (2 * total_stake (final w evs) <? _) with false; auto. symmetry. apply N.ltb_ge. lia.
Qed.

Lemma calls_only evs : (forall n vs, ~ In (EvEpoch n vs) evs) -> Forall (fun ev => is_call ev = true) evs.
Proof. intros H. apply Forall_forall. intros [] X; auto. exfalso. eapply H; eauto. Qed.
Lemma two_thirds_end w evs evs' (s : account_id -> bool) : initial w -> Forall event_ok evs ->
  let w1 := final w evs in
  (forall n vs, ~ In (EvEpoch n vs) evs') ->
  2 * total_stake w1 < 3 * stake_for w1 s ->
  (forall a, s a = true -> exists ts, In (EvCall a 0 ts (Vote true)) evs') ->
  (forall a att ts, s a = true -> ~ In (EvCall a att ts (Vote false)) evs') ->
  exists ts, get_result (w_contract (final w1 evs')) = Some ts.
Proof. intros IN OK w1 C. apply majority_ends; auto using calls_only. Qed.
