(** Proofs about a staking pool and the voting contract together. *)
From Coq Require Import NArith List Bool String Lia Permutation.
From Verif Require Import Prelude PreludeFacts MapFacts Messages PoolVotingSpec.
From Verif Require StakingPoolModel StakingPoolSpec StakingPoolProofs StakingPoolHistory StakingPoolFacts VotingModel VotingSpec VotingProofs
  VotingFacts.
Import ListNotations.
Open Scope N_scope.
Module SP := StakingPoolProofs.
Module SH := StakingPoolHistory.
Module SF := StakingPoolFacts.
Module VF := VotingFacts.
Module VP := VotingProofs.

Lemma drop_nth_none {A} : forall (l : list A) n, nth_error l n = None -> drop_nth n l = l.
Proof. induction l as [|x l IH]; intros [|n] E; cbn in *; try reflexivity; try discriminate. now rewrite IH. Qed.
Lemma list_eq_nil_dec {A} (l : list A) : {l = []} + {l <> []}.
Proof. destruct l; [now left|right; discriminate]. Qed.

Section Pair.
Variables self voting : account_id.
Notation step := (step self voting).
Notation final := (final self voting).
Notation voting_event := (voting_event self).
Notation voting_events := (voting_events self voting).

Lemma final_app l1 : forall w l2, final w (l1 ++ l2) = final (final w l1) l2.
Proof. induction l1 as [|ev l1 IH]; intros w l2; cbn [app PoolVotingSpec.final]; auto. Qed.
Lemma voting_events_app l1 : forall w l2,
  voting_events w (l1 ++ l2) = (voting_events w l1 ++ voting_events (final w l1) l2)%list.
Proof.
  induction l1 as [|ev l1 IH]; intros w l2; cbn [app PoolVotingSpec.final PoolVotingSpec.voting_events]; auto.
  now rewrite IH, app_assoc.
Qed.
Lemma voting_step w ev : w_voting (step w ev) = match voting_event w ev with Some e => VS.step (w_voting w) e | None => w_voting w end.
Proof. unfold PoolVotingSpec.step. destruct ev; reflexivity. Qed.
Lemma voting_final evs : forall w, w_voting (final w evs) = VS.final (w_voting w) (voting_events w evs).
Proof.
  induction evs as [|ev evs IH]; intros w; cbn [PoolVotingSpec.final PoolVotingSpec.voting_events]; auto.
  rewrite IH, VP.final_app, voting_step. destruct (voting_event w ev); reflexivity.
Qed.
Lemma voting_ok evs : forall w, Forall event_ok evs -> Forall VS.event_ok (voting_events w evs).
Proof.
  induction evs as [|ev evs IH]; intros w OK; cbn [PoolVotingSpec.voting_events]; [constructor|].
  inversion OK; subst. apply Forall_app. split; [|now apply IH].
  destruct ev as [e|n g ts|e]; cbn [PoolVotingSpec.voting_event]; [constructor| |].
  - destruct (nth_error _ _); [|constructor]. destruct g; repeat constructor.
  - destruct e; [destruct (String.eqb _ _); repeat constructor|].
    constructor; [assumption|constructor].
Qed.

(** The pool's own history inside. *)
Fixpoint pool_events (evs : list event) : list SS.event :=
  match evs with [] => [] | EPool e :: r => e :: pool_events r | _ :: r => pool_events r end.
Lemma pool_final evs : forall w, w_pool (final w evs) = SS.final self (w_pool w) (pool_events evs).
Proof.
  induction evs as [|ev evs IH]; intros w; cbn [PoolVotingSpec.final pool_events]; auto.
  rewrite IH. destruct ev; reflexivity.
Qed.

(** Only [vote] sends votes. *)
Lemma ballots_of_step w e :
  ballots voting (snd (SS.step self w e)) =
  match e with
  | SS.EvCall _ _ _ _ (SM.Vote a b) =>
      if String.eqb a voting && match snd (SS.step self w e) with Some _ => true | None => false end then [b] else []
  | _ => []
  end.
Proof.
  destruct e as [who att l rs m| |]; try reflexivity.
  destruct (SS.step self w _) as [w1 [ps|]] eqn:ST; cbn [snd ballots]; [|destruct m; auto; now rewrite andb_false_r].
  apply SH.step_call_some in ST. destruct ST as (_ & _ & p' & E & _ & _).
  assert (NV : forall qs : list SM.promise, (forall a b, ~ In (SM.PVote a b) qs) -> ballots voting (Some qs) = []).
  { intros qs H. cbn. induction qs as [|q qs IH]; auto. cbn [flat_map].
    rewrite IH by (intros a b I; apply (H a b); now right).
    destruct q; auto. exfalso. eapply H. left. reflexivity. }
  apply SP.exec_ok in E. destruct E as (_ & _ & [(PM & _ & X)|(PM & p1 & need & _ & X)]).
  - destruct m; try discriminate PM; cbn [SP.plain_effect] in X.
    + destruct X as (_ & r & _ & ->). apply NV. intros a b. destruct (_ && _); cbn; intuition congruence.
    + destruct X as (_ & _ & ->). cbn [flat_map]. rewrite app_nil_r, andb_true_r. reflexivity.
  - assert (R : forall a b q, ~ In (SM.PVote a b) (SM.internal_restake q)).
    { intros a b q. unfold SM.internal_restake. destruct (SM.paused q); cbn; intuition congruence. }
    assert (R2 : forall a b n q, ~ In (SM.PVote a b) (SM.restake_if n q)).
    { intros a b n q. unfold SM.restake_if. destruct n; [apply R|auto]. }
    destruct m; try discriminate PM; cbn [SP.body_effect] in X; try contradiction; apply NV; intros a b.
    all: repeat match goal with X : _ /\ _ |- _ => destruct X | X : exists _, _ |- _ => destruct X end; subst.
    all: try apply R; try apply R2.
    all: cbn [In]; intros [Y|Y]; try discriminate Y; try (now apply R in Y); try (now apply R2 in Y); auto.
Qed.

(** * Every vote was ordered by the owner, and every order gives one vote *)
Notation orders := (orders self voting).
Notation arrived := (arrived self voting).
Lemma ledger evs : forall w,
  Permutation (w_ballots w ++ map snd (orders w evs)) (arrived w evs ++ w_ballots (final w evs)).
Proof.
  induction evs as [|ev evs IH]; intros w; cbn [PoolVotingSpec.final PoolVotingSpec.orders PoolVotingSpec.arrived].
  { cbn. now rewrite app_nil_r. }
  rewrite map_app, <- app_assoc, <- IH. clear IH. set (rest := map snd (orders (step w ev) evs)). clearbody rest.
  destruct ev as [e|n g ts|e]; cbn [PoolVotingSpec.step w_ballots app map].
  - rewrite ballots_of_step.
    destruct e as [who att l rs m| |]; try (rewrite app_nil_r; reflexivity).
    destruct m; try (rewrite app_nil_r; reflexivity).
    destruct (_ && _); cbn [map snd]; now rewrite <- app_assoc.
  - destruct (nth_error (w_ballots w) n) eqn:E.
    + rewrite (drop_nth_perm _ _ _ E) at 1. reflexivity.
    + cbn [app]. rewrite drop_nth_none by exact E. reflexivity.
  - reflexivity.
Qed.

Lemma ordered_by_owner w0 evs who b :
  SS.initial self (w_pool w0) -> In (who, b) (orders w0 evs) -> who = SM.owner_id (SS.w_pool (w_pool w0)).
Proof.
  intros I. induction evs as [|ev evs IH] using rev_ind; [contradiction|].
  assert (A : forall l1 w l2, orders w (l1 ++ l2) = (orders w l1 ++ orders (final w l1) l2)%list).
  { induction l1 as [|x l1 IH1]; intros w l2; cbn [app PoolVotingSpec.final PoolVotingSpec.orders]; auto.
    now rewrite IH1, app_assoc. }
  rewrite A, in_app_iff. intros [X|X]; [auto|].
  cbn [PoolVotingSpec.orders] in X. rewrite app_nil_r in X.
  destruct ev as [e| |]; try contradiction. destruct e as [wh att l rs m| |]; try contradiction.
  destruct m; try contradiction.
  destruct (String.eqb_spec who (SM.owner_id (SS.w_pool (w_pool w0)))) as [|NE]; auto. exfalso.
  destruct (String.eqb voting_account_id voting); [|contradiction].
  rewrite pool_final in X. cbn [andb] in X.
  destruct (snd (SS.step self _ _)) eqn:ST; [|contradiction].
  destruct X as [X|[]]. injection X as <- <-.
  destruct (SF.owner_only self (w_pool w0) (pool_events evs) wh att l rs
              (SM.Vote voting_account_id is_vote) I eq_refl NE) as [S _].
  rewrite S in ST. discriminate.
Qed.

(** * The pool is listed only by a yes vote that no later no vote undid *)
Notation counts := (counts self).
Notation stands w0 evs := (VS.poll (w_voting w0) (voting_events w0 evs) VS.nobody self).

Lemma listed_stands w0 evs :
  VS.initial (w_voting w0) -> Forall event_ok evs -> listed (final w0 evs) self = stands w0 evs.
Proof.
  intros I OK. unfold listed, VM.get_votes. rewrite voting_final.
  symmetry. apply (VP.i_dom _ _ (VP.reach_inv _ _ I (voting_ok evs w0 OK))).
Qed.

Lemma stands_snoc w0 evs ev :
  stands w0 (evs ++ [ev]) =
  match voting_event (final w0 evs) ev with
  | Some e => VS.poll_step (w_voting (final w0 evs)) e (VS.poll (w_voting w0) (voting_events w0 evs) VS.nobody) self
  | None => stands w0 evs
  end.
Proof.
  rewrite voting_events_app, VP.poll_app. cbn [PoolVotingSpec.voting_events]. rewrite app_nil_r, <- voting_final.
  destruct (voting_event _ _); reflexivity.
Qed.

(** A counted vote sets the stance, or finds the voting decided. *)
Lemma vote_counts w0 evs b ts :
  VS.initial (w_voting w0) -> Forall event_ok evs ->
  let w := final w0 evs in
  let e := VS.EvCall self 0 ts (VM.Vote b) in
  counts w b ts = true ->
  VM.get_result (VS.w_contract (VS.step (w_voting w) e)) <> None \/
  VS.poll_step (w_voting w) e (VS.poll (w_voting w0) (voting_events w0 evs) VS.nobody) self = b.
Proof.
  intros I OK w e A. unfold PoolVotingSpec.counts in A. fold e in A.
  unfold w in *. rewrite voting_final in *.
  pose proof (voting_ok evs w0 OK) as OK'.
  destruct (VF.result_iff _ _ self 0 ts (VM.Vote b) I OK' A) as [_ R]. fold e in R. rewrite R.
  rewrite VP.poll_app. cbn [VS.poll]. 
  set (v := VS.final _ _) in *. set (yes := VS.poll (w_voting w0) (voting_events w0 evs) VS.nobody) in *.
  assert (PS : VS.poll_step v e yes =
    if VS.decided v (fun a => yes a && (0 <? VS.stake_of v a)) then (fun a => yes a && (0 <? VS.stake_of v a))
    else fun a => if String.eqb a self then b else yes a && (0 <? VS.stake_of v a)).
  { unfold e in A |- *. cbn [VS.poll_step]. rewrite A. reflexivity. }
  rewrite PS. destruct (VS.decided v _) eqn:D; [|right; now rewrite String.eqb_refl].
  left. unfold VS.decided in D. rewrite D. congruence.
Qed.

Lemma listed_by_yes w0 evs :
  VS.initial (w_voting w0) -> Forall event_ok evs -> listed (final w0 evs) self = true ->
  exists evs1 ev ts evs2,
    evs = evs1 ++ ev :: evs2 /\ arrives (final w0 evs1) ev true ts /\ counts (final w0 evs1) true ts = true /\
    (forall evs3 ev' ts' evs4, evs2 = evs3 ++ ev' :: evs4 ->
       let w' := final w0 (evs1 ++ ev :: evs3) in
       arrives w' ev' false ts' -> counts w' false ts' = true -> over (step w' ev')).
Proof.
  intros I OK L. rewrite listed_stands in L by assumption.
  induction evs as [|ev evs IH] using rev_ind; [discriminate|].
  apply Forall_app in OK. destruct OK as [OK OKe]. specialize (IH OK).
  rewrite stands_snoc in L.
  (* the old stance explains the new one *)
  assert (OLD : stands w0 evs = true ->
    (forall ts', arrives (final w0 evs) ev false ts' -> counts (final w0 evs) false ts' = true ->
                 over (step (final w0 evs) ev)) ->
    exists evs1 ev0 ts evs2,
      evs ++ [ev] = evs1 ++ ev0 :: evs2 /\ arrives (final w0 evs1) ev0 true ts /\
      counts (final w0 evs1) true ts = true /\
      (forall evs3 ev' ts' evs4, evs2 = evs3 ++ ev' :: evs4 ->
         let w' := final w0 (evs1 ++ ev0 :: evs3) in
         arrives w' ev' false ts' -> counts w' false ts' = true -> over (step w' ev'))).
  { intros S LAST. destruct (IH S) as (evs1 & ev0 & ts & evs2 & E & A & C & LATER).
    exists evs1, ev0, ts, (evs2 ++ [ev]). rewrite E. split; [now rewrite <- app_assoc|]. split; [exact A|].
    split; [exact C|]. intros evs3 ev' ts' evs4 E2 w' A' C'.
    destruct (list_eq_nil_dec evs4) as [->|NE].
    - apply app_inj_tail in E2. destruct E2 as [-> ->]. unfold w' in *. rewrite <- E in *. eauto.
    - destruct (exists_last NE) as (l & x & ->).
      rewrite app_comm_cons, app_assoc in E2. apply app_inj_tail in E2. destruct E2 as [E2 _].
      eapply LATER; eauto. }
  destruct ev as [e|n g ts|e]; cbn [PoolVotingSpec.voting_event] in L.
  - apply OLD; auto. intros ts' (n & X & _). discriminate.
  - destruct (nth_error (w_ballots (final w0 evs)) n) as [b|] eqn:N.
    2:{ apply OLD; auto. intros ts' (n' & X & Y). injection X as <- _ _. congruence. }
    destruct g.
    2:{ apply OLD; auto. intros ts' (n' & X & Y). discriminate. }
    destruct (counts (final w0 evs) b ts) eqn:C.
    + destruct (vote_counts w0 evs b ts I OK C) as [OV|ST].
      * assert (O2 : over (step (final w0 evs) (EBallot n true ts))).
        { unfold over. rewrite voting_step.
          cbn [PoolVotingSpec.voting_event]. rewrite N. exact OV. }
        destruct b.
        -- exists evs, (EBallot n true ts), ts, []. split; [reflexivity|]. split; [exists n; auto|]. split; [auto|].
           intros evs3 ev' ts' evs4 E. now destruct evs3.
        -- apply OLD; [|auto]. revert L. cbn [VS.poll_step].
           unfold PoolVotingSpec.counts in C. rewrite C.
           destruct (VS.decided _ _); [|rewrite String.eqb_refl; discriminate].
           intros X. apply andb_true_iff in X. tauto.
      * rewrite ST in L. subst b.
        exists evs, (EBallot n true ts), ts, []. split; [reflexivity|]. split; [exists n; auto|]. split; [auto|].
        intros evs3 ev' ts' evs4 E. now destruct evs3.
    + apply OLD.
      * revert L. cbn [VS.poll_step]. unfold PoolVotingSpec.counts in C. now rewrite C.
      * intros ts' (n' & X & Y) C'. injection X as <- <-. rewrite N in Y. injection Y as ->. congruence.
  - apply OLD; [|intros ts' (n & X & _); discriminate].
    destruct e as [who att ts m|]; [|exact L].
    destruct (String.eqb_spec who self) as [|NE]; [exact L|].
    cbn [VS.poll_step] in L. destruct (VS.accepted _ _); [|exact L].
    destruct m.
    + apply andb_true_iff in L. tauto.
    + destruct (VS.decided _ _); [apply andb_true_iff in L; tauto|].
      destruct (String.eqb_spec self who); [congruence|]. apply andb_true_iff in L. tauto.
Qed.

(** * The owner can make the pool vote *)
Lemma owner_votes w0 evs b ts :
  starts self w0 -> Forall event_ok evs ->
  let w := final w0 evs in
  let owner := SM.owner_id (SS.w_pool (w_pool w0)) in
  owner <> self -> is_valid_account_id voting = true -> ~ over w ->
  (b = true -> 0 < VS.stake_of (w_voting w) self) ->
  let w' := final w [EPool (SS.EvCall owner 0 0 [] (SM.Vote voting b)); EBallot (List.length (w_ballots w)) true ts] in
  over w' \/ listed w' self = b.
Proof.
  intros [IP IV IB] OK w owner NE VA OPEN ST w'.
  set (ev1 := EPool (SS.EvCall owner 0 0 [] (SM.Vote voting b))) in *.
  set (ev2 := EBallot (List.length (w_ballots w)) true ts) in *.
  assert (W1 : w_ballots (step w ev1) = (w_ballots w ++ [b])%list).
  { unfold ev1. cbn [PoolVotingSpec.step w_ballots]. rewrite ballots_of_step, String.eqb_refl.
    destruct (SF.reach self (w_pool w0) (pool_events evs) IP) as (_ & _ & _ & O & _).
    rewrite <- pool_final in O. fold w in O. unfold SS.step, SS.caller_possible.
    destruct (String.eqb_spec owner self) as [|_]; [contradiction|]. cbn [negb orb andb].
    unfold SM.exec, SM.vote. cbn [SM.args_fit SM.payable SM.ctx_attached orb andb SM.ctx_predecessor].
    replace (0 <=? _) with true by (symmetry; apply N.leb_le; lia).
    rewrite N.eqb_refl. unfold SM.assert_owner. cbn. unfold owner. rewrite O, String.eqb_refl. cbn.
    rewrite VA. cbn. destruct (N.leb_spec 0 (SS.w_total (w_pool w) - 0 + 0)); [reflexivity|lia]. }
  assert (W2 : nth_error (w_ballots (step w ev1)) (List.length (w_ballots w)) = Some b).
  { rewrite W1, nth_error_app2, PeanoNat.Nat.sub_diag by lia. reflexivity. }
  assert (V1 : w_voting (step w ev1) = w_voting w) by reflexivity.
  assert (OK1 : Forall event_ok (evs ++ [ev1])).
  { apply Forall_app. split; auto. constructor; [exact Logic.I|constructor]. }
  assert (OK2 : Forall event_ok ((evs ++ [ev1]) ++ [ev2])).
  { apply Forall_app. split; auto. constructor; [exact Logic.I|constructor]. }
  assert (F1 : final w0 (evs ++ [ev1]) = step w ev1) by (rewrite final_app; reflexivity).
  assert (F2 : w' = final w0 ((evs ++ [ev1]) ++ [ev2])) by (rewrite final_app, F1; reflexivity).
  assert (C : counts (step w ev1) b ts = true).
  { unfold PoolVotingSpec.counts. rewrite <- F1, voting_final.
    apply (VF.accepted_iff _ _ self 0 ts (VM.Vote b) IV (voting_ok _ w0 OK1)).
    rewrite <- voting_final, F1, V1. split; [reflexivity|]. split.
    - unfold over in OPEN. destruct (VM.get_result _); auto. exfalso. apply OPEN. congruence.
    - intros X. left. apply ST. congruence. }
  rewrite <- F1 in C. destruct (vote_counts w0 _ b ts IV OK1 C) as [OV|S].
  - left. rewrite F2. unfold over. rewrite final_app, F1. cbn [PoolVotingSpec.final]. rewrite voting_step.
    unfold ev2. cbn [PoolVotingSpec.voting_event]. rewrite W2. rewrite F1 in OV. exact OV.
  - right. rewrite F2, listed_stands, stands_snoc by assumption. unfold ev2.
    cbn [PoolVotingSpec.voting_event]. rewrite F1, W2. rewrite F1 in S. exact S.
Qed.
End Pair.
