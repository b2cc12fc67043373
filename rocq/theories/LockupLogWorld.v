(** The log of a lockup tells its books: any history. *)
From Coq Require Import NArith List Bool String Ascii Lia.
From Verif Require Import Prelude PreludeFacts LockupModel LockupWorld LockupSpec LockupFacts LockupInv LockupBusy LockupLogModel LockupLogSpec LockupLogProofs LockupLogTold LockupLogCalls LockupLogBacks.
Import ListNotations.
Open Scope string_scope.
Open Scope N_scope.

Lemma exec_told c s m n s' pr l :
  core n s -> (ctx_predecessor c = ctx_current c -> pre n m) -> exec_l c s m = Ok (s', pr, l) -> told n s' pr l.
Proof.
  intros C P H. destruct (callback m) eqn:M; [exact (backs_told c s m n s' pr l M C P H)|].
  exact (calls_told c s m n s' pr l M C H).
Qed.

Lemma exec_lines c s m s' pr : exec c s m = Ok (s', pr) -> exists l, exec_l c s m = Ok (s', pr, l).
Proof.
  rewrite <- (exec_same c s m). destruct (exec_l c s m) as [[[s1 p1] l]|e]; cbn; [|discriminate].
  intros H. injection H as <- <-. now exists l.
Qed.

Lemma pre_keep n n' m :
  (n_op n' = n_op n \/ staking_callback m = false) ->
  (n_term n' = n_term n \/ match m with OnWithdrawUnvestedAmount _ _ => False | _ => True end) ->
  pre n m -> pre n' m.
Proof.
  intros O T H.
  destruct m; cbn [pre] in *; auto;
  try (intros S; destruct O as [O|O]; [rewrite O; exact (H S)|rewrite O in S; discriminate]).
  destruct T as [T|[]]. now rewrite T.
Qed.
Lemma fits_keep n n' m :
  (n_op n' = n_op n \/ scnt m = 0) -> (n_term n' = n_term n \/ tcnt m = 0) -> fits_msg n m -> fits_msg n' m.
Proof.
  intros O T H. destruct m as [r cb|cb r|a]; cbn [fits_msg] in *; auto.
  - destruct r as [| |p op|r a|]; auto.
    + destruct O as [O|O]; [now rewrite O|discriminate].
    + destruct cb; auto. destruct T as [T|T]; [now rewrite T|discriminate].
  - apply (pre_keep n n'); auto.
    + destruct O as [O|O]; [now left|right]. unfold scnt in O. cbn [staking_msg] in O.
      destruct (staking_callback cb); [discriminate|reflexivity].
    + destruct T as [T|T]; [now left|right]. destruct cb; auto; discriminate.
Qed.
Lemma fits_all n n' l :
  (n_op n' = n_op n \/ total scnt l = 0) -> (n_term n' = n_term n \/ total tcnt l = 0) ->
  Forall (fits_msg n) l -> Forall (fits_msg n') l.
Proof.
  intros O T H. rewrite !total_zero in *. rewrite Forall_forall in *. intros m M.
  apply (fits_keep n n'); auto.
  - destruct O as [O|O]; [now left|right; auto].
  - destruct T as [T|T]; [now left|right; auto].
Qed.

Record linked (n : notes) (w : world) : Prop := mkLinked {
  k_inv : inv w;
  k_core : core n (w_lockup w);
  k_msgs : Forall (fits_msg n) (w_msgs w)
}.

(** One accepted call or callback. *)
Lemma run_told g w who att res m w' obs n :
  core n (w_lockup w) -> Forall (fits_msg n) (w_msgs w) -> inv w' ->
  (who = g_self g -> pre n m) ->
  run g w who att res m = (Some w', obs) ->
  exists fs n', Forall2 says (run_log g w who att res m) fs /\ note_facts n fs = Some n' /\ linked n' w' /\
    forall a, n_sent n' a = n_sent n a + sent_to a obs.
Proof.
  intros C F HI P H. unfold run_log. rewrite H. cbn [fst]. unfold run in H.
  set (c := mkCtx _ _ _ _ _ _ _) in *.
  destruct (exec c (w_lockup w) m) as [[s' pr]|e] eqn:E; [|discriminate].
  destruct (exec_lines _ _ _ _ _ E) as (l & L). rewrite L.
  destruct (exec_told c (w_lockup w) m n s' pr l C P L) as (fs & n' & S & N & C' & T & O & U & M).
  exists fs, n'. split; [exact S|]. split; [exact N|].
  assert (W : w_lockup w' = s' /\ w_msgs w' = (w_msgs w ++ match pr with Some p => [asked p] | None => [] end)%list /\
              forall a, sent_to a obs = sent_by a pr).
  { destruct pr as [p|].
    - destruct (_ <=? _); [|discriminate]. injection H as <- <-. cbn [w_lockup w_msgs]. repeat split.
      intros a. unfold sent_to. rewrite total_one. reflexivity.
    - injection H as <- <-. cbn [w_lockup w_msgs]. rewrite app_nil_r. auto. }
  destruct W as (Ws & Wm & Wo). split; [|intros a; now rewrite Wo].
  rewrite <- Ws in C'. split; [exact HI|exact C'|]. rewrite Wm. apply Forall_app.
  split; [|destruct pr; constructor; [exact M|constructor]].
  pose proof (i_one w' HI) as I1. pose proof (i_term w' HI) as I2. pose proof (idle_no_staking w' HI) as I3.
  rewrite Wm, total_app in I1, I2, I3.
  apply (fits_all n n'); [| |exact F].
  - destruct O as [O|[O|(p & -> & O)]]; [now left| |]; right.
    + pose proof (tl_busy _ _ (c_tells _ _ C')) as B. rewrite O in B. cbn in B.
      destruct (busy (w_lockup w')); [discriminate|]. specialize (I3 eq_refl). lia.
    + rewrite total_one in I1. unfold scnt at 2 in I1. rewrite O in I1. lia.
  - destruct U as [U|[U|(p & -> & U)]]; [now left| |]; right.
    + pose proof (tl_term _ _ (c_tells _ _ C')) as B. unfold is_paying in U.
      destruct (n_term n') as [[u st]|].
      * destruct B as (_ & t & B & K). rewrite B in I2.
        destruct st, t; try discriminate; try contradiction; cbn in I2; lia.
      * rewrite B in I2. lia.
    + rewrite total_one, U in I2. destruct (get_termination_status (w_lockup w')) as [[]|]; lia.
Qed.

Lemma delivered n w r cb o pools new obs tp :
  msg_ok (w_lockup w) tp (MCall r cb) -> fits_msg n (MCall r cb) -> execute w r cb o = Some (pools, new, obs) ->
  Forall (fits_msg n) new /\ forall a, sent_to a obs = 0.
Proof.
  intros K F H.
  assert (B : forall x, Forall (fits_msg n) (back cb x)).
  { intros x. destruct cb as [cb|]; cbn [back]; constructor; [|constructor].
    cbn [fits_msg]. destruct r as [wl p|poll|p op|rc a|pk]; cbn [msg_ok fits_msg] in *.
    - injection K as ->. exact F.
    - injection K as ->. discriminate.
    - destruct F as (o' & F1 & F2). injection F2 as ->.
      destruct o'; cbn [cb_of pre] in *; intros _; eauto.
    - destruct K as [K|[K _]]; [discriminate|]. injection K as ->. exact F.
    - discriminate. }
  assert (T : forall x, Forall (fits_msg n) (tokens x)).
  { intros x. unfold tokens. destruct (x =? 0); repeat constructor. }
  unfold execute in H.
  destruct o, r; try discriminate;
    repeat match type of H with (if ?b then _ else _) = _ => destruct b; try discriminate end;
    injection H as <- <- <-; (split; [|reflexivity]); auto;
    apply Forall_app; split; auto.
  destruct op; auto.
Qed.

Lemma sent_app a l1 l2 : sent_to a (l1 ++ l2) = sent_to a l1 + sent_to a l2.
Proof. apply total_app. Qed.

Lemma step_told g w ev n : linked n w ->
  exists fs n', Forall2 says (step_log g w ev) fs /\ note_facts n fs = Some n' /\ linked n' (step g w ev) /\
    forall a, n_sent n' a = n_sent n a + sent_to a (snd (step_obs g w ev)).
Proof.
  intros [HI C F]. pose proof (inv_step g w ev HI) as HI'. unfold step in *.
  assert (Q : forall w' obs, step_obs g w ev = (w', obs) -> w_lockup w' = w_lockup w -> Forall (fits_msg n) (w_msgs w') ->
    (forall a, sent_to a obs = 0) -> step_log g w ev = [] ->
    exists fs n', Forall2 says (step_log g w ev) fs /\ note_facts n fs = Some n' /\ linked n' (fst (step_obs g w ev)) /\
      forall a, n_sent n' a = n_sent n a + sent_to a (snd (step_obs g w ev))).
  { intros w' obs E L M S N. exists [], n. rewrite N. split; [constructor|]. split; [reflexivity|].
    rewrite E in *. cbn [fst snd] in *. split.
    - split; [exact HI'|now rewrite L|exact M].
    - intros a. rewrite S. lia. }
  destruct ev as [t|x|p s u|who att m|k o|k].
  - cbn [step_obs] in *. destruct (_ && _); eapply Q; try reflexivity; exact F.
  - eapply Q; try reflexivity; exact F.
  - cbn [step_obs] in *. destruct (_ && _); eapply Q; try reflexivity; exact F.
  - cbn [step_obs step_log] in *. destruct (String.eqb who (g_self g)) eqn:W; [eapply Q; try reflexivity; exact F|].
    destruct (run g w who att [] m) as [[w'|] obs] eqn:R; cbn [fst snd] in *.
    + apply String.eqb_neq in W.
      destruct (run_told g w who att [] m w' obs n C F HI' (fun e => False_ind _ (W e)) R) as (fs & n' & S & N & L & T).
      exists fs, n'. repeat (split; [assumption|]). intros a. rewrite T. reflexivity.
    + eapply Q; try reflexivity; [exact F|]. unfold run_log. now rewrite R.
  - cbn [step_obs step_log] in *.
    destruct (nth_error (w_msgs w) k) as [[r cb|cb r|a]|] eqn:K; try (eapply Q; try reflexivity; exact F).
    destruct (execute w r cb o) as [[[pools new] obs]|] eqn:X; [|eapply Q; try reflexivity; exact F].
    destruct (Forall_drop _ _ _ _ F K) as [F1 F2]. destruct (Forall_drop _ _ _ _ (i_msgs w HI) K) as [M1 M2].
    destruct (delivered n w r cb o pools new obs _ M1 F1 X) as [D1 D2].
    eapply Q; try reflexivity; [|exact D2]. cbn [w_msgs]. apply Forall_app. auto.
  - cbn [step_obs step_log] in *.
    destruct (nth_error (w_msgs w) k) as [[r cb|cb r|a]|] eqn:K; try (eapply Q; try reflexivity; exact F).
    + destruct (Forall_drop _ _ _ _ F K) as [F1 F2].
      set (w1 := mkWorld _ _ _ _ _) in *.
      destruct (run g w1 (g_self g) 0 [r] cb) as [[w'|] obs] eqn:R; cbn [fst snd] in *.
      * destruct (run_told g w1 (g_self g) 0 [r] cb w' obs n C F2 HI' (fun _ => F1) R) as (fs & n' & S & N & L & T).
        exists fs, n'. repeat (split; [assumption|]). intros a. rewrite T. reflexivity.
      * eapply Q; try reflexivity; [exact F2|]. unfold run_log. now rewrite R.
    + destruct (Forall_drop _ _ _ _ F K) as [F1 F2]. eapply Q; try reflexivity; exact F2.
Qed.

Lemma note_app n fs gs : note_facts n (fs ++ gs) = next (note_facts n fs) (fun n' => note_facts n' gs).
Proof.
  revert n. induction fs as [|f fs IH]; intros n; cbn [note_facts app]; [reflexivity|].
  destruct (note_fact f n) as [n'|]; cbn [next]; [apply IH|reflexivity].
Qed.

Lemma history_told g w evs n : linked n w ->
  exists fs n', Forall2 says (lockup_log g w evs) fs /\ note_facts n fs = Some n' /\ linked n' (final g w evs) /\
    forall a, n_sent n' a = n_sent n a + sent_to a (log g w evs).
Proof.
  revert w n. induction evs as [|ev evs IH]; intros w n K.
  - exists [], n. split; [constructor|]. split; [reflexivity|]. split; [exact K|]. intros a. cbn. lia.
  - destruct (step_told g w ev n K) as (fs & n1 & S & N & K1 & T).
    destruct (IH (step g w ev) n1 K1) as (gs & n2 & S2 & N2 & K2 & T2).
    exists (fs ++ gs)%list, n2. cbn [lockup_log final log]. split; [now apply Forall2_app|].
    split; [rewrite note_app, N; exact N2|]. split; [exact K2|].
    intros a. rewrite T2, T, sent_app. lia.
Qed.

Lemma start_linked g w : starts g w -> linked (blank w) w.
Proof.
  intros HS. split; [now apply (inv_start g)| |rewrite (st_msgs g w HS); constructor].
  destruct HS as [(ow & du & ti & tr & ve & re & wl & fo & pr & Hn & _) _ _ _ _].
  unfold new in Hn. unfold blank. set (s := w_lockup w) in *. clearbody s.
  apply bind_ok in Hn. destruct Hn as ([] & _ & Hn).
  apply bind_ok in Hn. destruct Hn as ([] & _ & Hn).
  apply bind_ok in Hn. destruct Hn as ([] & _ & Hn).
  apply bind_ok in Hn. destruct Hn as ([] & _ & Hn).
  apply bind_ok in Hn. destruct Hn as ([] & Hp & Hn). apply require_ok in Hp.
  apply bind_ok in Hn. destruct Hn as (v & Hv & Hn).
  apply bind_ok in Hn. destruct Hn as ([] & _ & Hn). injection Hn as <-.
  assert (V : match v with VTerminating _ => False | _ => True end).
  { destruct ve as [[h|vs]|].
    - injection Hv as <-. exact I.
    - injection Hv as <-. exact I.
    - apply bind_ok in Hv. destruct Hv as ([] & _ & Hv). injection Hv as <-. exact I. }
  split; cbn [n_op n_term n_foundation n_taken n_pool staking_information get_staking_pool_account_id option_map
              lockup_information transfers_information] in *; try discriminate; auto.
  - split; cbn; try reflexivity; try discriminate; auto.
    destruct v; try reflexivity. contradiction.
  - intros p ->. now apply valid_no_space.
Qed.

Lemma same_calls c s m :
  exec c s m = match exec_l c s m with Ok (s', pr, _) => Ok (s', pr) | Panic e => Panic e end.
Proof. symmetry. apply exec_same. Qed.

Lemma all_say_inj l fs gs : Forall2 says l fs -> Forall2 says l gs -> fs = gs.
Proof.
  intros S. revert gs. induction S as [|x f l fs H S IH]; intros gs G; inversion G; subst; [reflexivity|].
  f_equal; [now apply (says_inj x)|now apply IH].
Qed.

Lemma log_tells_the_books g w evs : starts g w ->
  let log_lines := lockup_log g w evs in
  (exists facts, Forall2 says log_lines facts) /\
  forall facts, Forall2 says log_lines facts ->
    exists n, note_facts (blank w) facts = Some n /\ tells n (w_lockup (final g w evs)) /\
      forall a, n_sent n a = sent_to a (log g w evs).
Proof.
  intros HS. cbv zeta.
  destruct (history_told g w evs _ (start_linked g w HS)) as (fs & n & S & N & K & T).
  split; [now exists fs|]. intros gs G. rewrite (all_say_inj _ _ _ G S). exists n. split; [exact N|].
  split; [apply c_tells, (k_core _ _ K)|]. intros a. rewrite T. reflexivity.
Qed.

(** In every reachable state the names are plain. *)
Lemma reachable_names g w evs : starts g w ->
  (forall m, (forall x r, m <> OnWithdrawUnvestedAmount x r) -> plain_names (w_lockup (final g w evs)) m) /\
  (forall cb r, In (MBack cb r) (w_msgs (final g w evs)) -> plain_names (w_lockup (final g w evs)) cb).
Proof.
  intros HS. destruct (history_told g w evs _ (start_linked g w HS)) as (fs & n & _ & _ & K & _).
  pose proof (c_pool _ _ (k_core _ _ K)) as P1. pose proof (c_poll _ _ (k_core _ _ K)) as P2. split.
  - intros m M. repeat split; auto. destruct m; auto. now destruct (M amount receiver).
  - intros cb r M. repeat split; auto. destruct cb; auto.
    pose proof (proj1 (Forall_forall _ _) (k_msgs _ _ K) _ M) as (u & F).
    exact (proj2 (c_paying _ _ (k_core _ _ K) _ _ _ F)).
Qed.
