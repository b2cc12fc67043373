(** Proofs about a lockup whose foundation is an account that a multisig guards (C106). *)
From Coq Require Import NArith List Bool String Lia.
From Verif Require Import Prelude PreludeFacts LockupModel LockupWorld LockupSpec LockupEffects LockupInv LockupFacts OwnedLockup
  OwnedLockupProofs.
From Verif Require MultisigModel MultisigSpec MultisigAccount MultisigAccountProps Multisig2Model Multisig2Spec Multisig2Account
  Multisig2AccountProps.
Import ListNotations.
Open Scope N_scope.

Section Foundation.
Variable g : genesis.
Variable f : account_id.
Hypothesis apart : f <> g_self g.

Definition asked_for (m : call) (l : list obs) : Prop := In (BCalled f m true) l.
Definition terminating (s : contract) : bool := match vesting_information s with VTerminating _ => true | _ => false end.

Record kept (l : list obs) (w : world) : Prop := {
  k_found : forall f', foundation_account_id (w_lockup w) = Some f' -> f' = f;
  k_term : terminating (w_lockup w) = true -> exists o, asked_for (TerminateVesting o) l;
  k_fly : forall to x cb, In (MCall (RTransfer to x) (Some cb)) (w_msgs w) -> asked_for (TerminationWithdraw to) l;
  k_paid : forall to x, In (BPaid to x true) l -> asked_for (TerminationWithdraw to) l;
  k_call : forall who m, In (BCalled who m true) l -> foundation_method m = true -> who = f }.

(** One accepted call: what it changes of the foundation, the termination and the payments. *)
Lemma effect_kept c s m s' p : effect c s m s' p ->
  (forall f', foundation_account_id s' = Some f' -> foundation_account_id s = Some f') /\
  (terminating s' = true -> terminating s = true \/ exists o, m = TerminateVesting o) /\
  (forall to x cb gas gas', p = Some (mkPromise (RTransfer to x) gas (Some (cb, gas'))) -> m = TerminationWithdraw to).
Proof.
  intros H. unfold terminating.
  inversion H; subst; (split; [|split]);
    try (intros; assumption); try (intros; discriminate); try (intros; left; assumption);
    try (intros; right; eexists; reflexivity);
    try (intros; left; match goal with E : vesting_information s = _ |- _ => rewrite E end; reflexivity);
    try (intros ? ? ? ? ? E; injection E; intros; subst; reflexivity).
  - destruct (_ <? _); [intros f' E; exact E|discriminate].
  - unfold get_terminated_unvested_balance in *. destruct (vesting_information s) eqn:V; try (rewrite (proj2 (N.ltb_ge _ _)) by lia; discriminate).
    intros _. left. reflexivity.
Qed.

Lemma kept_more l w l' : kept l w -> (forall to x, ~ In (BPaid to x true) l') ->
  (forall who m, In (BCalled who m true) l' -> foundation_method m = true -> who = f) -> kept (l ++ l') w.
Proof.
  intros [K1 K2 K3 K4 K5] P C. constructor; auto.
  - intros T. destruct (K2 T) as (o & I). exists o. apply in_or_app. now left.
  - intros to x cb I. apply in_or_app. left. eapply K3; eassumption.
  - intros to x I. apply in_app_or in I. destruct I as [I|I]; [|now apply P in I]. apply in_or_app. left. eapply K4; eassumption.
  - intros who m I F. apply in_app_or in I. destruct I as [I|I]; [eapply K5|eapply C]; eassumption.
Qed.

Lemma run_kept l w who att rs m w' l' : kept l w -> run g w who att rs m = (Some w', l') ->
  kept (l ++ (if String.eqb who (g_self g) then [] else [BCalled who m true]) ++ l') w'.
Proof.
  intros K H. unfold run in H. destruct (exec _ _ _) as [[s p]|] eqn:E; [|discriminate].
  assert (C := caller_checked _ _ _ _ _ E). destruct C as [_ C]. cbn [ctx_predecessor ctx_current] in C.
  apply ok_effect in E. destruct E as [_ E]. destruct (effect_kept _ _ _ _ _ E) as (E1 & E2 & E3).
  set (l0 := if String.eqb who (g_self g) then [] else [BCalled who m true]).
  assert (F : foundation_method m = true -> who = f).
  { intros F. destruct (owner_method m) eqn:O; [destruct m; discriminate|]. rewrite F in C. now apply (k_found _ _ K). }
  assert (L0 : foundation_method m = true -> asked_for m l0).
  { intros Fm. specialize (F Fm). subst who. unfold l0, asked_for. apply String.eqb_neq in apart. rewrite apart. now left. }
  assert (G : forall msgs l1, (forall to x cb, In (MCall (RTransfer to x) (Some cb)) msgs ->
       In (MCall (RTransfer to x) (Some cb)) (w_msgs w) \/ m = TerminationWithdraw to) ->
     (forall o, In o l1 -> exists r, o = BSent r) ->
     forall w1, w_lockup w1 = s -> w_msgs w1 = msgs -> kept (l ++ l0 ++ l1) w1).
  { intros msgs l1 M S w1 W1 W2. destruct K as [K1 K2 K3 K4 K5]. constructor; rewrite ?W1, ?W2.
    - intros f' Q. apply K1. now apply E1.
    - intros T. destruct (E2 T) as [T'|(o & ->)].
      + destruct (K2 T') as (o & I). exists o. apply in_or_app. now left.
      + exists o. apply in_or_app. right. apply in_or_app. left. apply L0. reflexivity.
    - intros to x cb I. destruct (M _ _ _ I) as [I'| ->].
      + apply in_or_app. left. eapply K3; eassumption.
      + apply in_or_app. right. apply in_or_app. left. apply L0. reflexivity.
    - intros to x I. apply in_app_or in I. destruct I as [I|I]; [apply in_or_app; left; eapply K4; eassumption|].
      apply in_app_or in I. destruct I as [I|I].
      + unfold l0 in I. destruct (String.eqb who (g_self g)); [destruct I|]. destruct I as [I|[]]. discriminate.
      + destruct (S _ I). discriminate.
    - intros who' m' I Fm. apply in_app_or in I. destruct I as [I|I]; [eapply K5; eassumption|].
      apply in_app_or in I. destruct I as [I|I].
      + unfold l0 in I. destruct (String.eqb who (g_self g)); [destruct I|]. destruct I as [I|[]]. injection I as -> ->. now apply F.
      + destruct (S _ I). discriminate. }
  destruct p as [p|].
  - destruct (_ <=? _); [|discriminate]. injection H as <- <-. eapply G; [| |reflexivity|cbn [w_msgs]; reflexivity].
    + intros to x cb I. apply in_app_or in I. destruct I as [I|[I|[]]]; [now left|]. right.
      destruct p as [r gas [[cb' gas']|]]; cbn in I; [|discriminate]. injection I as -> ->. eapply E3. reflexivity.
    + intros o [<-|[]]. now eexists.
  - injection H as <- <-. eapply G; [| |reflexivity|reflexivity]; [auto|intros o []].
Qed.

Lemma in_drop {B} (x : B) n l : In x (drop_nth n l) -> In x l.
Proof. revert n. induction l as [|y l IH]; intros [|n] I; cbn in *; auto. destruct I as [I|I]; eauto. Qed.

Lemma step_kept l w ev : kept l w -> kept (l ++ snd (step_obs g w ev)) (step g w ev).
Proof.
  intros K. unfold step.
  assert (S : forall w1, w_lockup w1 = w_lockup w -> (forall to x cb, In (MCall (RTransfer to x) (Some cb)) (w_msgs w1) ->
     In (MCall (RTransfer to x) (Some cb)) (w_msgs w)) -> kept l w1).
  { intros w1 W1 W2. destruct K as [K1 K2 K3 K4 K5]. constructor; rewrite ?W1; try assumption. intros to x cb I. exact (K3 _ _ _ (W2 _ _ _ I)). }
  assert (N : forall w1, kept l w1 -> kept (l ++ []) w1) by (intros w1; now rewrite app_nil_r).
  destruct ev as [t|x|q st u|who att m|n o|n]; cbn [step_obs].
  - destruct (_ && _); apply N, S; auto.
  - apply N, S; auto.
  - destruct (_ && _); apply N, S; auto.
  - destruct (String.eqb who (g_self g)) eqn:Q; [now apply N|].
    destruct (run g w who att [] m) as [[w'|] l'] eqn:R; cbn [fst snd].
    + apply (run_kept l) in R; [|exact K]. now rewrite Q in R.
    + apply kept_more; [exact K| |]; [intros ? ? [I|[]]; discriminate|intros ? ? [I|[]]; discriminate].
  - destruct (nth_error (w_msgs w) n) as [[r cb|cb r|a]|] eqn:M; try (now apply N).
    destruct (execute w r cb o) as [[[pools new] l']|] eqn:E; [|now apply N]. cbn [fst snd].
    assert (I := nth_error_In _ _ M).
    assert (NM : forall to x c, ~ In (MCall (RTransfer to x) (Some c)) new).
    { intros to x c J. revert J. unfold execute in E.
      destruct o; destruct r; try discriminate; try (destruct (is_view op); [|discriminate]);
        try (destruct (pool_keeps _ _ _); [|discriminate]); injection E as <- <- <-; unfold tokens, back; intros J;
        try (apply in_app_or in J; destruct J as [J|J]);
        repeat match goal with J : In _ (if ?b then _ else _) |- _ => destruct b
                             | J : In _ (match ?b with _ => _ end) |- _ => destruct b end;
        repeat (destruct J as [J|J]; try discriminate); try destruct J. }
    assert (P : forall y, In y l' -> (forall to x, y = BPaid to x true -> asked_for (TerminationWithdraw to) l) /\
                                    forall who m, y <> BCalled who m true).
    { intros y J. unfold execute in E.
      destruct o; destruct r; try discriminate; try (destruct (is_view op); [|discriminate]);
        try (destruct (pool_keeps _ _ _); [|discriminate]); injection E as <- <- <-; try (now destruct J);
        destruct J as [<-|[]]; (split; [|discriminate]); intros to' x' Y; try discriminate.
      destruct cb as [c|]; [|discriminate]. injection Y as -> ->. eapply (k_fly _ _ K). exact I. }
    assert (K' : kept l (mkWorld (w_lockup w) (w_balance w) (w_time w) pools (drop_nth n (w_msgs w) ++ new)%list)).
    { apply S; [reflexivity|]. cbn [w_msgs]. intros to x c J. apply in_app_or in J. destruct J as [J|J]; [now apply in_drop in J|].
      now apply NM in J. }
    destruct K' as [K1 K2 K3 K4 K5]. constructor; auto.
    + intros T. destruct (K2 T) as (o' & J). exists o'. apply in_or_app. now left.
    + intros to x c J. apply in_or_app. left. eapply K3. exact J.
    + intros to x J. apply in_or_app. left. apply in_app_or in J. destruct J as [J|J]; [eapply K4; exact J|].
      now apply (proj1 (P _ J) to x).
    + intros who m J Fm. apply in_app_or in J. destruct J as [J|J]; [eapply K5; eassumption|]. exfalso. exact (proj2 (P _ J) _ _ eq_refl).
  - destruct (nth_error (w_msgs w) n) as [[r cb|cb r|a]|] eqn:M; try (now apply N).
    + set (w1 := mkWorld _ _ _ _ _). assert (K1 : kept l w1) by (apply S; [reflexivity|intros to x c J; now apply in_drop in J]).
      destruct (run g w1 (g_self g) 0 [r] cb) as [[w'|] l'] eqn:R; cbn [fst snd].
      * apply (run_kept (l ++ [BCallback cb r true])) in R.
        -- rewrite String.eqb_refl in R. cbn [app] in R. now rewrite <- app_assoc in R.
        -- apply kept_more; [exact K1| |]; [intros ? ? [I|[]]; discriminate|intros ? ? [I|[]]; discriminate].
      * apply kept_more; [exact K1| |]; [intros ? ? [I|[]]; discriminate|intros ? ? [I|[]]; discriminate].
    + apply N, S; [reflexivity|]. cbn [w_msgs]. intros to x c J. now apply in_drop in J.
Qed.

Lemma log_kept evs : forall l w, kept l w -> kept (l ++ log g w evs) (final g w evs).
Proof.
  induction evs as [|ev evs IH]; intros l w K; cbn [log final]; [now rewrite app_nil_r|].
  rewrite app_assoc. apply IH. now apply step_kept.
Qed.
Lemma start_kept w : starts g w -> foundation_account_id (w_lockup w) = Some f -> kept [] w.
Proof.
  intros S F. constructor.
  - intros f' E. congruence.
  - destruct (st_new _ _ S) as (? & ? & ? & ? & v & ? & ? & fo & ? & E & _). unfold new in E. inv_res. unfold terminating.
    exfalso. unfold terminating in *.
    match goal with E : _ = w_lockup w, T : match _ with _ => _ end = true |- _ => rewrite <- E in T; cbn [vesting_information] in T end.
    destruct v as [[vs|h]|]; inv_res; discriminate.
  - intros to x cb I. rewrite (st_msgs _ _ S) in I. destruct I.
  - intros to x [].
  - intros who m [].
Qed.
Lemma foundation_kept w evs : starts g w -> foundation_account_id (w_lockup w) = Some f -> kept (log g w evs) (final g w evs).
Proof. intros S F. exact (log_kept evs [] w (start_kept w S F)). Qed.

(** In the pair. *)
Section Pair.
Context {A H P : Type}.
Variable happens : A -> H -> A * list P.
Variable for_lockup : P -> option (list act).
Variable read : string -> string -> option (option call).
Lemma by_departures a0 w0 js :
  starts g w0 -> foundation_account_id (w_lockup w0) = Some f ->
  let seen := jlog happens for_lockup read g f (mkPair a0 w0) js in
  let w := j_lockup (jfinal happens for_lockup read g f (mkPair a0 w0) js) in
  let asked m := exists p, In p (adeps happens a0 (account_part js)) /\ In m (asks for_lockup read p) in
  (forall who m, In (BCalled who m true) seen -> foundation_method m = true -> who = f /\ asked m) /\
  (terminating (w_lockup w) = true -> exists o, asked (TerminateVesting o)) /\
  (forall to x, In (BPaid to x true) seen -> asked (TerminationWithdraw to)).
Proof.
  intros S F seen w asked.
  destruct (pair_history happens for_lockup read g f apart js (mkPair a0 w0)) as (evs & done & W & L & _ & D & C).
  cbn [j_lockup j_account] in *. fold seen in L, C. fold w in W.
  pose proof (foundation_kept w0 evs S F) as [K1 K2 K3 K4 K5]. rewrite <- W, <- L in *.
  assert (Q : forall m, asked_for m seen -> asked m).
  { intros m I. assert (J : In m (owner_calls f seen)).
    { unfold owner_calls. apply in_flat_map. exists (BCalled f m true). split; [exact I|]. rewrite String.eqb_refl. now left. }
    rewrite C in J. apply in_flat_map in J. destruct J as (p & J1 & J2). exists p. split; [|exact J2]. eapply some_of_in; eassumption. }
  split; [|split].
  - intros who m I Fm. pose proof (K5 who m I Fm). subst who. split; [reflexivity|]. now apply Q.
  - intros T. destruct (K2 T) as (o & I). exists o. now apply Q.
  - intros to x I. apply Q. eapply K4. exact I.
Qed.
End Pair.
End Foundation.

(** * Both multisigs *)
Lemma foundation1 self decode read k s0 ks g w0 js :
  MultisigModel.new false k = Ok s0 ->
  NoDup (mkeys ks) -> (forall pk a, mget pk ks = Some a -> A1.limited self a) ->
  starts g w0 -> foundation_account_id (w_lockup w0) = Some self -> self <> g_self g ->
  let j := jfinal (A1.happen_obs self decode) (for_lockup1 (g_self g)) read g self (mkPair (A1.start s0 ks) w0) js in
  let calls := A1.w_calls (j_account j) in
  let seen := jlog (A1.happen_obs self decode) (for_lockup1 (g_self g)) read g self (mkPair (A1.start s0 ks) w0) js in
  let quorum_asked m := exists p, by_quorum1 self s0 ks calls p /\ In m (asks (for_lockup1 (g_self g)) read p) in
  (forall p, In p (A1.executions self s0 calls) -> MultisigModel.p_receiver p = self ->
             A1.keeps_guard self (MultisigModel.p_actions p)) ->
  (forall who m, In (BCalled who m true) seen -> foundation_method m = true -> who = self /\ quorum_asked m) /\
  (get_termination_status (w_lockup (j_lockup j)) <> None -> exists o, quorum_asked (TerminateVesting o)) /\
  (forall to x, In (BPaid to x true) seen -> quorum_asked (TerminationWithdraw to)).
Proof.
  intros Hn Hd Hl S F N j calls seen quorum_asked G.
  destruct (pair_history (A1.happen_obs self decode) (for_lockup1 (g_self g)) read g self N js (mkPair (A1.start s0 ks) w0)) as (_ & _ & _ & _ & R & _).
  rewrite arun1 in R. cbn [j_account] in R. fold j in R.
  destruct (by_departures g self N (A1.happen_obs self decode) (for_lockup1 (g_self g)) read (A1.start s0 ks) w0 js S F) as (B1 & B2 & B3).
  fold j seen in B1, B2, B3.
  assert (Q : forall m, (exists p, In p (adeps (A1.happen_obs self decode) (A1.start s0 ks) (account_part js)) /\
                              In m (asks (for_lockup1 (g_self g)) read p)) -> quorum_asked m).
  { intros m (p & I & J). exists p. split; [|exact J]. rewrite adeps1 in I. unfold by_quorum1, calls in *. rewrite R in *.
    now apply (MultisigAccountProps.C92_acts_only_by_quorum self decode k s0 ks (account_part js)). }
  split; [|split].
  - intros who m I Fm. destruct (B1 who m I Fm) as (E & X). split; [exact E|now apply Q].
  - intros T. destruct B2 as (o & X).
    { unfold terminating. unfold get_termination_status in T. now destruct (vesting_information _). }
    exists o. now apply Q.
  - intros to x I. now apply Q, (B3 to x).
Qed.
Lemma foundation2 self decode read ms k s0 p0 ks key g w0 js :
  Multisig2Model.new self false ms k = Ok (s0, p0) ->
  NoDup (mkeys ks) -> (forall pk a, mget pk ks = Some a -> A2.limited self a) ->
  starts g w0 -> foundation_account_id (w_lockup w0) = Some self -> self <> g_self g ->
  let j := jfinal (A2.happen_obs self decode) (for_lockup2 (g_self g)) read g self (mkPair (A2.start s0 p0 ks key) w0) js in
  let calls := A2.w_calls (j_account j) in
  let seen := jlog (A2.happen_obs self decode) (for_lockup2 (g_self g)) read g self (mkPair (A2.start s0 p0 ks key) w0) js in
  let quorum_asked m := exists p, by_quorum2 self s0 calls p /\ In m (asks (for_lockup2 (g_self g)) read p) in
  (forall p, In p (A2.executions self s0 calls) -> Multisig2Model.p_receiver p = self ->
             A2.keeps_guard self (Multisig2Model.p_actions p)) ->
  (forall who m, In (BCalled who m true) seen -> foundation_method m = true -> who = self /\ quorum_asked m) /\
  (get_termination_status (w_lockup (j_lockup j)) <> None -> exists o, quorum_asked (TerminateVesting o)) /\
  (forall to x, In (BPaid to x true) seen -> quorum_asked (TerminationWithdraw to)).
Proof.
  intros Hn Hd Hl S F N j calls seen quorum_asked G.
  destruct (pair_history (A2.happen_obs self decode) (for_lockup2 (g_self g)) read g self N js (mkPair (A2.start s0 p0 ks key) w0)) as (_ & _ & _ & _ & R & _).
  rewrite arun2 in R. cbn [j_account] in R. fold j in R.
  destruct (by_departures g self N (A2.happen_obs self decode) (for_lockup2 (g_self g)) read (A2.start s0 p0 ks key) w0 js S F) as (B1 & B2 & B3).
  fold j seen in B1, B2, B3.
  assert (Q : forall m, (exists p, In p (adeps (A2.happen_obs self decode) (A2.start s0 p0 ks key) (account_part js)) /\
                              In m (asks (for_lockup2 (g_self g)) read p)) -> quorum_asked m).
  { intros m (p & I & J). exists p. split; [|exact J]. rewrite adeps2 in I. unfold by_quorum2, calls in *. rewrite R in *.
    now apply (Multisig2AccountProps.C90_acts_only_by_quorum self decode ms k s0 p0 ks key (account_part js)). }
  split; [|split].
  - intros who m I Fm. destruct (B1 who m I Fm) as (E & X). split; [exact E|now apply Q].
  - intros T. destruct B2 as (o & X).
    { unfold terminating. unfold get_termination_status in T. now destruct (vesting_information _). }
    exists o. now apply Q.
  - intros to x I. now apply Q, (B3 to x).
Qed.
