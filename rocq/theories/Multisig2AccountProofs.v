(** Proofs about the account guarded by the second multisig. *)
From Coq Require Import NArith List Bool String Lia Permutation.
From Verif Require Import Prelude PreludeFacts MapFacts Multisig2Model Multisig2Spec Multisig2Proofs Multisig2Facts
  Multisig2Live Multisig2Account.
Import ListNotations.
Open Scope N_scope.

Section Account.
Variable self : account_id.
Variable decode : string -> string -> option call.
Notation invoke := (invoke self).
Notation apply := (apply self decode).
Notation happen := (happen self decode).
Notation happen_obs := (happen_obs self decode).
Notation run := (run self decode).
Notation departures := (departures self decode).

Definition foreign (l : list promise) : list promise := filter (fun p => negb (String.eqb (p_receiver p) self)) l.

Lemma foreign_app l1 l2 : foreign (l1 ++ l2) = (foreign l1 ++ foreign l2)%list.
Proof. unfold foreign. apply filter_app. Qed.

Lemma executions_app s0 l1 l2 :
  executions self s0 (l1 ++ l2) = (executions self s0 l1 ++ executions self (final self s0 l1) l2)%list.
Proof. unfold executions. now rewrite log_app, flat_map_app. Qed.

Lemma executions_one s ev s' o : exec (ctx_of self ev) s (e_call ev) = Ok (s', o) ->
  executions self s [ev] = scheduled o.
Proof.
  intros E. unfold executions. cbn [log flat_map]. rewrite app_nil_r.
  unfold confirmed, entry_of, outcome. cbn [l_event l_output]. rewrite E.
  unfold exec in E. destruct (require _ _); cbn [bind] in E; [|discriminate].
  destruct (e_call ev).
  - destruct (add_request _ _ _) as [[? ?]|]; cbn [bind] in E; [|discriminate]. injection E as _ <-. reflexivity.
  - destruct (add_request_and_confirm _ _ _) as [[? [? q]]|]; cbn [bind] in E; [|discriminate]. injection E as _ <-.
    destruct q; reflexivity.
  - destruct (delete_request _ _ _) as [[? ?]|]; cbn [bind] in E; [|discriminate]. injection E as _ <-. reflexivity.
  - destruct (confirm _ _ _) as [[? q]|]; cbn [bind] in E; [|discriminate]. injection E as _ <-. destruct q; reflexivity.
Qed.

Record inv (s0 : contract) (w : world) (dep : list promise) : Prop := {
  i_contract : w_contract w = final self s0 (w_calls w);
  i_nodup : NoDup (mkeys (w_keys w));
  i_keys : forall pk a, mget pk (w_keys w) = Some a -> limited self a;
  i_flight : forall rc, In rc (w_flight w) -> p_receiver (rc_batch rc) = self -> keeps_guard self (p_actions (rc_batch rc));
  i_perm : Permutation (dep ++ foreign (map rc_batch (w_flight w))) (foreign (executions self s0 (w_calls w)))
}.

Definition guarded (s0 : contract) (evs : list event) : Prop :=
  forall p, In p (executions self s0 evs) -> p_receiver p = self -> keeps_guard self (p_actions p).

Lemma guarded_prefix s0 l1 l2 : guarded s0 (l1 ++ l2) -> guarded s0 l1.
Proof. intros G p I. apply G. rewrite executions_app. apply in_or_app. now left. Qed.

Lemma invoke_calls w ev w' : invoke w ev = Some w' -> w_calls w' = (w_calls w ++ [ev])%list.
Proof. unfold Multisig2Account.invoke. destruct (exec _ _ _) as [[s o]|]; [|discriminate]. intros E. now injection E as <-. Qed.

Lemma apply_calls key t acts : forall w w', apply key t acts w = Some w' -> exists l, w_calls w' = (w_calls w ++ l)%list.
Proof.
  induction acts as [|a acts IH]; cbn [Multisig2Account.apply]; intros w w' E.
  - injection E as <-. exists []. now rewrite app_nil_r.
  - destruct a; try discriminate; eauto; try (destruct (mmem _ _); [try discriminate|try discriminate];
      apply IH in E; exact E).
    destruct (decode _ _) as [c|]; [|discriminate]. destruct (invoke _ _) as [w1|] eqn:V; [|discriminate].
    apply IH in E. destruct E as [l ->]. apply invoke_calls in V. rewrite V, <- app_assoc. eauto.
Qed.

Lemma happen_calls w h : exists l, w_calls (happen w h) = (w_calls w ++ l)%list.
Proof.
  unfold Multisig2Account.happen, Multisig2Account.happen_obs. destruct h as [key to acts|i t|pred key att t m].
  - destruct (mget _ _) as [a|]; [destruct (permits _ _ _)|]; exists []; cbn; now rewrite app_nil_r.
  - destruct (nth_error _ _) as [rc|]; [|exists []; cbn; now rewrite app_nil_r].
    destruct (String.eqb _ _); [|exists []; cbn; now rewrite app_nil_r]. cbn [fst].
    destruct (apply _ _ _ _) as [w'|] eqn:A; [|exists []; cbn; now rewrite app_nil_r].
    apply apply_calls in A. exact A.
  - destruct (String.eqb _ _); [exists []; cbn; now rewrite app_nil_r|]. cbn [fst].
    destruct (invoke _ _) as [w'|] eqn:V; [|exists []; now rewrite app_nil_r]. apply invoke_calls in V. eauto.
Qed.

Lemma run_calls hs : forall w, exists l, w_calls (run w hs) = (w_calls w ++ l)%list.
Proof.
  induction hs as [|h hs IH]; intros w; cbn [Multisig2Account.run]; [exists []; now rewrite app_nil_r|].
  destruct (IH (happen w h)) as [l ->]. destruct (happen_calls w h) as [l' ->]. rewrite <- app_assoc. eauto.
Qed.

Lemma final_snoc s0 l ev s' o : exec (ctx_of self ev) (final self s0 l) (e_call ev) = Ok (s', o) ->
  final self s0 (l ++ [ev]) = s'.
Proof. intros E. rewrite final_app. cbn [final]. unfold step. now rewrite E. Qed.

Lemma invoke_inv s0 w ev w' dep : inv s0 w dep -> invoke w ev = Some w' -> guarded s0 (w_calls w') -> inv s0 w' dep.
Proof.
  intros H V G. pose proof (invoke_calls _ _ _ V) as C. unfold Multisig2Account.invoke in V.
  destruct (exec _ _ _) as [[s o]|] eqn:E; [|discriminate]. injection V as <-. cbn [w_calls] in G.
  rewrite (i_contract _ _ _ H) in E. pose proof (executions_one _ _ _ _ E) as X.
  destruct H as [HC HN HK HF HP]. split; cbn [w_contract w_keys w_flight w_calls]; auto.
  - symmetry. eapply final_snoc; eauto.
  - intros rc I R. apply in_app_or in I. destruct I as [I|I]; [auto|].
    apply in_map_iff in I. destruct I as (p & <- & I). cbn [rc_batch] in *. apply G; auto.
    rewrite executions_app, X. apply in_or_app. now right.
  - rewrite map_app, map_map, foreign_app, executions_app, X, foreign_app. cbn [rc_batch]. rewrite map_id, app_assoc.
    now apply Permutation_app_tail.
Qed.

Lemma keys_inv s0 w ks dep : inv s0 w dep -> NoDup (mkeys ks) ->
  (forall pk a, mget pk ks = Some a -> limited self a) -> inv s0 (with_keys w ks) dep.
Proof. intros [HC HN HK HF HP] N L. split; auto. Qed.

Lemma apply_inv s0 key t acts dep : forall w w', inv s0 w dep -> apply key t acts w = Some w' ->
  guarded s0 (w_calls w') -> keeps_guard self acts -> inv s0 w' dep.
Proof.
  induction acts as [|a acts IH]; cbn [Multisig2Account.apply]; intros w w' H E G K.
  - now injection E as <-.
  - assert (K' : keeps_guard self acts) by (intros x I; apply K; now right).
    pose proof (K a (or_introl eq_refl)) as KA.
    destruct a; try discriminate; try contradiction.
    + eapply IH; eauto.
    + destruct (mmem pk (w_keys w)) eqn:M; [discriminate|]. subst receiver.
      eapply IH; [|exact E|exact G|exact K'].
      apply keys_inv; auto; [apply NoDup_minsert, H|]. intros pk' a. rewrite mget_minsert.
      destruct (keqb _ _); [intros X; injection X as <-; now eexists|apply (i_keys _ _ _ H)].
    + destruct (mmem pk (w_keys w)) eqn:M; [|discriminate].
      eapply IH; [|exact E|exact G|exact K'].
      apply keys_inv; auto; [apply NoDup_mremove, H|]. intros pk' a. rewrite mget_mremove by apply H.
      destruct (keqb _ _); [discriminate|apply (i_keys _ _ _ H)].
    + destruct (decode _ _) as [c|]; [|discriminate]. destruct (invoke _ _) as [w1|] eqn:V; [|discriminate].
      eapply IH; [|exact E|exact G|exact K']. eapply invoke_inv; eauto.
      destruct (apply_calls _ _ _ _ _ E) as [l X]. rewrite X in G. now apply guarded_prefix in G.
Qed.

Lemma permits_limited a to acts : limited self a -> permits a to acts = true ->
  to = self /\ keeps_guard self acts.
Proof.
  intros [ms ->]. cbn [permits]. destruct acts as [|[] [|]]; try discriminate.
  intros P. apply andb_true_iff in P. destruct P as [P _]. apply andb_true_iff in P. destruct P as [P _].
  apply String.eqb_eq in P. split; auto. intros x [<-|[]]. exact I.
Qed.

Lemma split_nth {A} (l : list A) : forall i x, nth_error l i = Some x ->
  l = (firstn i l ++ x :: skipn (S i) l)%list.
Proof.
  induction l as [|y l IH]; intros [|i] x E; try discriminate.
  - now injection E as ->.
  - cbn in E. cbn [firstn app skipn]. f_equal. now apply IH.
Qed.

Lemma happen_inv s0 w h dep : inv s0 w dep -> guarded s0 (w_calls (happen w h)) ->
  inv s0 (happen w h) (dep ++ snd (happen_obs w h)).
Proof.
  unfold Multisig2Account.happen, Multisig2Account.happen_obs. intros H G.
  destruct h as [key to acts|i t|pred key att t m].
  - destruct (mget key (w_keys w)) as [a|] eqn:A; [|cbn; now rewrite app_nil_r].
    destruct (permits a to acts) eqn:P; [|cbn; now rewrite app_nil_r].
    destruct (permits_limited _ _ _ (i_keys _ _ _ H _ _ A) P) as [-> K].
    cbn [fst snd]. rewrite app_nil_r. destruct H as [HC HN HK HF HP].
    split; cbn [w_contract w_keys w_flight w_calls]; auto.
    + intros rc I R. apply in_app_or in I. destruct I as [I|[<-|[]]]; auto.
    + rewrite map_app, foreign_app. cbn [map rc_batch foreign filter p_receiver]. rewrite String.eqb_refl.
      cbn [negb]. now rewrite app_nil_r.
  - destruct (nth_error (w_flight w) i) as [rc|] eqn:NE; [|cbn; now rewrite app_nil_r].
    pose proof (split_nth _ _ _ NE) as SP.
    set (w1 := mkWorld (w_contract w) (w_keys w) (firstn i (w_flight w) ++ skipn (S i) (w_flight w)) (w_calls w)) in *.
    assert (IN : forall x, In x (w_flight w1) -> In x (w_flight w)).
    { intros x I. rewrite SP. cbn [w1 w_flight] in I. apply in_app_or in I. apply in_or_app. cbn. tauto. }
    assert (I0 : In rc (w_flight w)) by (eapply nth_error_In; eauto).
    destruct (String.eqb_spec (p_receiver (rc_batch rc)) self) as [R|R]; cbn [fst snd] in *.
    + rewrite app_nil_r.
      assert (H1 : inv s0 w1 dep).
      { destruct H as [HC HN HK HF HP]. split; auto.
        rewrite SP, map_app in HP. cbn [w1 w_flight w_calls map] in *. rewrite map_app.
        rewrite foreign_app in *. cbn [foreign filter] in HP. apply String.eqb_eq in R. rewrite R in HP.
        exact HP. }
      destruct (apply _ _ _ w1) as [w'|] eqn:A; [|exact H1].
      eapply apply_inv; eauto. now apply (i_flight _ _ _ H).
    + destruct H as [HC HN HK HF HP]. split; auto.
      rewrite SP, map_app in HP. cbn [w1 w_flight w_calls map] in *. rewrite map_app.
      rewrite foreign_app in *. cbn [foreign filter] in HP. apply String.eqb_neq in R. rewrite R in HP. cbn [negb] in HP.
      rewrite <- app_assoc. cbn [app]. eapply Permutation_trans; [|exact HP].
      apply Permutation_app_head. apply Permutation_middle.
  - destruct (String.eqb pred self); cbn [fst snd] in *; rewrite app_nil_r; auto.
    destruct (invoke _ _) as [w'|] eqn:V; [|auto]. eapply invoke_inv; eauto.
Qed.

Lemma run_inv s0 hs : forall w dep, inv s0 w dep -> guarded s0 (w_calls (run w hs)) ->
  inv s0 (run w hs) (dep ++ departures w hs).
Proof.
  induction hs as [|h hs IH]; intros w dep H G; cbn [Multisig2Account.run Multisig2Account.departures] in *.
  - now rewrite app_nil_r.
  - rewrite app_assoc. apply IH; auto. apply happen_inv; auto.
    destruct (run_calls hs (happen w h)) as [l X]. rewrite X in G. now apply guarded_prefix in G.
Qed.

Lemma new_keeps_guard ms k s0 p0 : new self false ms k = Ok (s0, p0) ->
  p_receiver p0 = self /\ keeps_guard self (p_actions p0).
Proof.
  intros E. pose proof (new_spec _ _ _ _ _ E) as S. unfold new in E. inv_all.
  set (c := mkCtx self self "" 0 0) in *.
  assert (F : forall ms s acts, keeps_guard self acts ->
    keeps_guard self (snd (fold_left (fun '(s, acts) m => let '(s, b) := add_member c s m in (s, acts ++ b)%list) ms (s, acts)))).
  { induction ms0 as [|m ms0 IH]; cbn [fold_left]; intros s acts K; [exact K|].
    unfold add_member at 2. apply IH. intros a I. apply in_app_or in I. destruct I as [I|I]; [now apply K|].
    destruct m; [|contradiction]. destruct I as [<-|[]]. reflexivity. }
  match goal with H : context [fold_left ?f ms ?x] |- _ =>
    specialize (F ms (fst x) (snd x)); cbn [fst snd] in F; destruct (fold_left f ms x) as [s acts] eqn:FE end.
  inv_all. split; [reflexivity|]. cbn [p_actions]. apply F. intros a [].
Qed.

Lemma start_inv ms k s0 p0 ks key : new self false ms k = Ok (s0, p0) -> NoDup (mkeys ks) ->
  (forall pk a, mget pk ks = Some a -> limited self a) -> inv s0 (start s0 p0 ks key) [].
Proof.
  intros E N K. destruct (new_keeps_guard _ _ _ _ E) as [R G]. split; cbn [start w_contract w_keys w_flight w_calls]; auto.
  - intros rc [<-|[]] _. exact G.
  - cbn. rewrite R, String.eqb_refl. cbn. constructor.
Qed.

(** What leaves the account is exactly what executed requests asked for. *)
Lemma departures_are_executions ms k s0 p0 ks key hs : new self false ms k = Ok (s0, p0) ->
  NoDup (mkeys ks) -> (forall pk a, mget pk ks = Some a -> limited self a) ->
  let w0 := start s0 p0 ks key in
  let w := run w0 hs in
  (forall p, In p (executions self s0 (w_calls w)) -> p_receiver p = self -> keeps_guard self (p_actions p)) ->
  w_contract w = final self s0 (w_calls w) /\
  (forall pk a, mget pk (w_keys w) = Some a -> limited self a) /\
  Permutation
    (departures w0 hs ++ filter (fun p => negb (String.eqb (p_receiver p) self)) (map rc_batch (w_flight w)))
    (filter (fun p => negb (String.eqb (p_receiver p) self)) (executions self s0 (w_calls w))).
Proof.
  intros E N K w0 w G. pose proof (run_inv s0 hs w0 [] (start_inv _ _ _ _ _ key E N K) G) as [HC HN HK HF HP].
  auto.
Qed.

Lemma in_executions s0 evs p : In p (executions self s0 evs) ->
  exists evs1 ev evs2 id, evs = (evs1 ++ ev :: evs2)%list /\
    confirmed (entry_of self (final self s0 evs1) ev) = Some (id, Some p).
Proof.
  revert s0. induction evs as [|ev evs IH]; intros s0 I; [destruct I|].
  unfold executions in I. cbn [log flat_map] in I. apply in_app_or in I. destruct I as [I|I].
  - destruct (confirmed _) as [[id [q|]]|] eqn:C; try contradiction. destruct I as [->|[]].
    exists [], ev, evs, id. auto.
  - apply IH in I. destruct I as (l1 & e & l2 & id & -> & C). exists (ev :: l1), e, l2, id. auto.
Qed.

Lemma acts_only_by_quorum ms k s0 p0 ks key hs : new self false ms k = Ok (s0, p0) ->
  NoDup (mkeys ks) -> (forall pk a, mget pk ks = Some a -> limited self a) ->
  let w0 := start s0 p0 ks key in
  let w := run w0 hs in
  (forall p, In p (executions self s0 (w_calls w)) -> p_receiver p = self -> keeps_guard self (p_actions p)) ->
  forall p, In p (departures w0 hs) ->
  exists evs1 ev evs2 id l1 e0 l2 r,
    w_calls w = (evs1 ++ ev :: evs2)%list /\
    confirmed (entry_of self (final self s0 evs1) ev) = Some (id, Some p) /\
    log self s0 (evs1 ++ [ev]) = (l1 ++ e0 :: l2)%list /\
    added e0 = Some (id, r) /\ p = asked self r /\
    NoDup (confirmers (e0 :: l2) id) /\
    get_num_confirmations (final self s0 evs1) <= N.of_nat (List.length (confirmers (e0 :: l2) id)) /\
    forall e, In e (e0 :: l2) -> confirmed e <> None -> In (l_caller e) (l_members e).
Proof.
  intros E N K w0 w G p I.
  destruct (departures_are_executions _ _ _ _ _ key hs E N K G) as (_ & _ & HP). fold w0 w in HP.
  assert (J : In p (executions self s0 (w_calls w))).
  { pose proof (Permutation_in p HP (in_or_app _ _ _ (or_introl I))) as J. apply filter_In in J. tauto. }
  apply in_executions in J. destruct J as (evs1 & ev & evs2 & id & X & C).
  destruct (execution_needs_quorum self _ _ _ _ evs1 ev id p E C) as (l1 & e0 & l2 & r & L & A & P & _ & ND & _ & Q & M).
  exists evs1, ev, evs2, id, l1, e0, l2, r. auto 12.
Qed.

(** * Members can act *)
Lemma invoke_contract s0 w ev w' : w_contract w = final self s0 (w_calls w) -> invoke w ev = Some w' ->
  w_contract w' = final self s0 (w_calls w').
Proof.
  intros H V. unfold Multisig2Account.invoke in V. destruct (exec _ _ _) as [[s o]|] eqn:E; [|discriminate].
  injection V as <-. cbn. rewrite H in E. symmetry. eapply final_snoc; eauto.
Qed.

Lemma apply_contract s0 key t acts : forall w w', w_contract w = final self s0 (w_calls w) ->
  apply key t acts w = Some w' -> w_contract w' = final self s0 (w_calls w').
Proof.
  induction acts as [|a acts IH]; cbn [Multisig2Account.apply]; intros w w' H E; [now injection E as <-|].
  destruct a; try discriminate; eauto;
    try (destruct (mmem _ _); [try discriminate|try discriminate]; eapply IH; [|exact E]; exact H).
  destruct (decode _ _) as [c|]; [|discriminate]. destruct (invoke _ _) as [w1|] eqn:V; [|discriminate].
  eapply IH; [|exact E]. eapply invoke_contract; eauto.
Qed.

Lemma run_contract s0 hs : forall w, w_contract w = final self s0 (w_calls w) ->
  w_contract (run w hs) = final self s0 (w_calls (run w hs)).
Proof.
  induction hs as [|h hs IH]; intros w H; cbn [Multisig2Account.run]; auto. apply IH.
  unfold Multisig2Account.happen, Multisig2Account.happen_obs. destruct h as [key to acts|i t|pred key att t m].
  - destruct (mget _ _) as [a|]; [destruct (permits _ _ _)|]; exact H.
  - destruct (nth_error _ _) as [rc|]; [|exact H]. destruct (String.eqb _ _); [|exact H]. cbn [fst].
    destruct (apply _ _ _ _) as [w'|] eqn:A; [|exact H]. eapply apply_contract; [|exact A]. exact H.
  - destruct (String.eqb _ _); [exact H|]. cbn [fst]. destruct (invoke _ _) as [w'|] eqn:V; [|exact H].
    eapply invoke_contract; eauto.
Qed.

Definition event_of (m : member) (t : N) (c : call) : event :=
  match m with AccessKey pk => mkEvent self pk 0 t c | Account a => mkEvent a "" 0 t c end.

Lemma caller_event_of w m t c : can_act self w m -> caller self (event_of m t c) = m.
Proof.
  destruct m as [pk|a]; unfold caller; cbn.
  - now rewrite String.eqb_refl.
  - intros NE. apply String.eqb_neq in NE. now rewrite NE.
Qed.

Definition sayable (c : call) : Prop :=
  ((exists r, c = CAddRequest r) \/ (exists id, c = CConfirm id)) /\ exists args, decode (method_name c) args = Some c.

Lemma nth_error_last {A} (l : list A) x : nth_error (l ++ [x]) (List.length l) = Some x.
Proof. rewrite nth_error_app2 by lia. now rewrite Nat.sub_diag. Qed.

Lemma remove_last {A} (l : list A) x :
  (firstn (List.length l) (l ++ [x]) ++ skipn (S (List.length l)) (l ++ [x]))%list = l.
Proof.
  rewrite firstn_app, Nat.sub_diag, firstn_all, firstn_O, app_nil_r, skipn_all2, app_nil_r; auto.
  rewrite app_length. cbn. lia.
Qed.

Lemma do_act w m t c s' o : can_act self w m ->
  sayable c ->
  exec (ctx_of self (event_of m t c)) (w_contract w) c = Ok (s', o) ->
  exists hs, Forall (by_members [m] t) hs /\ departures w hs = [] /\
    run w hs = mkWorld s' (w_keys w) (w_flight w ++ map (mkReceipt (e_key (event_of m t c))) (scheduled o))
                 (w_calls w ++ [event_of m t c]).
Proof.
  intros CA [KIND [args D]] E. destruct m as [pk|a].
  - destruct CA as (ac & G & P).
    exists [HTx pk self [BFunctionCall (method_name c) args 0 0]; HDeliver (List.length (w_flight w)) t].
    assert (PM : permits ac self [BFunctionCall (method_name c) args 0 0] = true).
    { destruct KIND as [[r ->]|[id ->]]; cbn [method_name]; apply P. }
    assert (H1 : happen_obs w (HTx pk self [BFunctionCall (method_name c) args 0 0]) =
      (mkWorld (w_contract w) (w_keys w)
         (w_flight w ++ [mkReceipt pk (mkPromise self [BFunctionCall (method_name c) args 0 0])]) (w_calls w), [])).
    { unfold Multisig2Account.happen_obs. now rewrite G, PM. }
    set (w1 := mkWorld (w_contract w) (w_keys w)
         (w_flight w ++ [mkReceipt pk (mkPromise self [BFunctionCall (method_name c) args 0 0])]) (w_calls w)) in *.
    set (w2 := mkWorld s' (w_keys w) (w_flight w ++ map (mkReceipt (e_key (event_of (AccessKey pk) t c))) (scheduled o))
                 (w_calls w ++ [event_of (AccessKey pk) t c])).
    assert (H2 : happen_obs w1 (HDeliver (List.length (w_flight w)) t) = (w2, [])).
    { unfold Multisig2Account.happen_obs. cbn [w1 w_flight w_contract w_keys w_calls].
      rewrite nth_error_last. cbn [rc_batch rc_key p_receiver p_actions]. rewrite String.eqb_refl, remove_last.
      cbn [Multisig2Account.apply]. rewrite D. unfold Multisig2Account.invoke.
      cbn [w_contract w_keys w_flight w_calls e_call]. cbn [event_of] in E. rewrite E. reflexivity. }
    split; [repeat constructor|].
    cbn [Multisig2Account.run Multisig2Account.departures]. unfold Multisig2Account.happen.
    rewrite H1. cbn [fst snd]. rewrite H2. cbn [fst snd app]. auto.
  - cbn [can_act] in CA. exists [HCall a "" 0 t c].
    split; [repeat constructor|].
    cbn [Multisig2Account.run Multisig2Account.departures]. unfold Multisig2Account.happen, Multisig2Account.happen_obs.
    apply String.eqb_neq in CA. rewrite CA. cbn [fst snd]. unfold Multisig2Account.invoke. cbn [event_of] in E.
    cbn [e_call]. rewrite E. auto.
Qed.

Lemma run_app hs1 : forall w hs2, run w (hs1 ++ hs2) = run (run w hs1) hs2.
Proof. induction hs1 as [|h hs1 IH]; intros w hs2; cbn [app Multisig2Account.run]; auto. Qed.
Lemma departures_app hs1 : forall w hs2,
  departures w (hs1 ++ hs2) = (departures w hs1 ++ departures (run w hs1) hs2)%list.
Proof.
  induction hs1 as [|h hs1 IH]; intros w hs2; cbn [app Multisig2Account.run Multisig2Account.departures]; auto.
  now rewrite IH, app_assoc.
Qed.
Lemma by_members_mono ms1 ms2 t h : incl ms1 ms2 -> by_members ms1 t h -> by_members ms2 t h.
Proof. intros I. destruct h; cbn; auto. intros [X Y]. auto. Qed.

Variable t : N.
Definition act := (member * call)%type.
Definition ev_of (a : act) : event := event_of (fst a) t (snd a).

Lemma do_acts l : forall w,
  (forall a, In a l -> can_act self w (fst a) /\ sayable (snd a)) ->
  (forall e, In e (log self (w_contract w) (map ev_of l)) -> l_output e <> None) ->
  exists hs, Forall (by_members (map fst l) t) hs /\ departures w hs = [] /\
    exists rcs, map rc_batch rcs = executions self (w_contract w) (map ev_of l) /\
      w_flight (run w hs) = (w_flight w ++ rcs)%list /\ w_keys (run w hs) = w_keys w.
Proof.
  induction l as [|[m c] l IH]; intros w CA OUT.
  - exists []. cbn. split; [constructor|]. split; [reflexivity|]. exists []. rewrite app_nil_r. auto.
  - destruct (CA _ (or_introl eq_refl)) as [C0 K0]. cbn [fst snd] in C0, K0.
    assert (E : exists s' o, exec (ctx_of self (event_of m t c)) (w_contract w) c = Ok (s', o)).
    { specialize (OUT (entry_of self (w_contract w) (ev_of (m, c))) (or_introl eq_refl)).
      unfold entry_of, outcome in OUT. cbn [l_output] in OUT. unfold ev_of in OUT. cbn [fst snd] in OUT.
      replace (e_call (event_of m t c)) with c in OUT by (destruct m; reflexivity).
      destruct (exec _ _ _) as [[s' o]|]; [eauto|congruence]. }
    destruct E as (s' & o & E). destruct (do_act w m t c s' o C0 K0 E) as (hs1 & B1 & D1 & R1).
    assert (ST : step self (w_contract w) (ev_of (m, c)) = s').
    { unfold step, ev_of. cbn [fst snd]. replace (e_call (event_of m t c)) with c by (destruct m; reflexivity). now rewrite E. }
    destruct (IH (run w hs1)) as (hs2 & B2 & D2 & rcs & X & F & KK).
    { intros a I. rewrite R1. destruct (CA a (or_intror I)) as [CX KX]. split; [|exact KX].
      destruct a as [m' c']. cbn [fst snd] in *. destruct m'; exact CX. }
    { rewrite R1. cbn [w_contract]. intros e I. apply OUT. cbn [map log]. right. rewrite ST. exact I. }
    exists (hs1 ++ hs2)%list. rewrite run_app, departures_app, D1, D2. split; [|split; [reflexivity|]].
    { apply Forall_app. split; (eapply Forall_impl; [|eassumption]); intros h; apply by_members_mono; cbn [map fst].
      - intros x [<-|[]]. now left.
      - intros x I. now right. }
    rewrite R1 in *. cbn [w_flight w_keys w_contract] in *.
    exists (map (mkReceipt (e_key (event_of m t c))) (scheduled o) ++ rcs)%list.
    rewrite map_app, map_map. cbn [rc_batch]. rewrite map_id, F, app_assoc. split; [|auto]. rewrite X.
    cbn [map]. change (ev_of (m, c) :: map ev_of l) with ([ev_of (m, c)] ++ map ev_of l)%list.
    rewrite executions_app. cbn [final]. rewrite ST. f_equal. symmetry. eapply executions_one.
    unfold ev_of. cbn [fst snd]. replace (e_call (event_of m t c)) with c by (destruct m; reflexivity). exact E.
Qed.

Lemma members_can_act ms k s0 p0 ks key hs r m0 cs : new self false ms k = Ok (s0, p0) ->
  let w := run (start s0 p0 ks key) hs in
  let s := w_contract w in
  executable self s r -> receiver_id r <> self ->
  (forall m, In m (m0 :: cs) -> In m (get_members s) /\ can_act self w m) ->
  NoDup (cs) ->
  N.of_nat (List.length cs) = N.max 1 (get_num_confirmations s) ->
  get_num_confirmations s < U32_BOUND ->
  get_num_requests_per_member s m0 + 1 <= active_requests_limit s ->
  get_num_requests_per_member s m0 + 1 < U32_BOUND -> get_request_nonce s + 1 < U32_BOUND ->
  (exists args, decode "add_request" args = Some (CAddRequest r)) ->
  (exists args, decode "confirm" args = Some (CConfirm (get_request_nonce s))) ->
  exists hs2, Forall (by_members (m0 :: cs) t) hs2 /\ departures w hs2 = [asked self r].
Proof.
  intros E w s X NR CA ND Q B A A32 NX RA RC.
  assert (HC : s = final self s0 (w_calls w)) by (apply run_contract; reflexivity).
  set (id := get_request_nonce s) in *.
  set (l := (m0, CAddRequest r) :: map (fun m => (m, CConfirm id)) cs : list act).
  assert (CL : forall m c, In m (m0 :: cs) -> caller self (event_of m t c) = m).
  { intros m c I. apply (caller_event_of w). now apply CA. }
  assert (EV : map ev_of l = event_of m0 t (CAddRequest r) ::
                             map (fun m => event_of m t (CConfirm id)) cs).
  { unfold l. cbn [map]. f_equal. rewrite map_map. reflexivity. }
  assert (IM : forall ev, In ev (map (fun m => event_of m t (CConfirm id)) cs) ->
     exists m, In m cs /\ ev = event_of m t (CConfirm id)).
  { intros ev I. apply in_map_iff in I. destruct I as (m & <- & I). eauto. }
  destruct (quorum_executes_added self ms k p0 s0 (w_calls w) r (event_of m0 t (CAddRequest r))
    (map (fun m => event_of m t (CConfirm id)) cs)) as (e0 & l0 & e & L & A0 & CE & CN);
    rewrite <- ?HC; auto.
  { destruct m0; reflexivity. }
  { intros ev I. apply IM in I. destruct I as (m & _ & ->). destruct m; reflexivity. }
  { intros ev [<-|I].
    - split; [destruct m0; reflexivity|]. rewrite CL by now left. apply CA. now left.
    - apply IM in I. destruct I as (m & I & ->). split; [destruct m; reflexivity|].
      rewrite CL by now right. apply CA. now right. }
  { rewrite map_map. rewrite (map_ext_in _ (fun m => m)); [rewrite map_id; exact ND|]. intros m I. apply CL. now right. }
  { now rewrite map_length. }
  { rewrite CL by now left. exact A. }
  { rewrite CL by now left. exact A32. }
  rewrite <- HC, <- EV in L.
  destruct (do_acts l w) as (hs2 & B2 & D2 & rcs & XX & F & _).
  { intros a [<-|I]; cbn [fst snd].
    - split; [apply CA; now left|split; [eauto|exact RA]].
    - apply in_map_iff in I. destruct I as (m & <- & I). cbn [fst snd]. split; [|split; [eauto|exact RC]]. apply CA. now right. }
  { change (w_contract w) with s. rewrite L. intros x I Z. assert (Y : added x <> None \/ confirmed x <> None).
    { destruct I as [<-|I]; [left; congruence|]. right. apply in_app_or in I. destruct I as [I|[<-|[]]]; [|congruence].
      rewrite (CN _ I). discriminate. }
    unfold added, confirmed in Y. rewrite Z in Y. destruct (e_call _), Y; congruence. }
  change (w_contract w) with s in XX. unfold executions in XX. rewrite L in XX. cbn [flat_map] in XX.
  assert (C0 : confirmed e0 = None).
  { assert (LE : l_event e0 = event_of m0 t (CAddRequest r)).
    { rewrite EV in L. cbn [log] in L. injection L as <- _. reflexivity. }
    unfold confirmed. rewrite LE. destruct m0; cbn [event_of e_call]; destruct (l_output e0) as [[]|]; reflexivity. }
  rewrite C0, flat_map_app in XX. cbn [flat_map app] in XX. rewrite CE in XX.
  assert (Z0 : flat_map (fun e => match confirmed e with Some (_, Some p) => [p] | _ => [] end) l0 = []).
  { clear L XX. induction l0 as [|x l0 IH]; auto. cbn [flat_map]. rewrite (CN x (or_introl eq_refl)). cbn [app].
    apply IH. intros e' I. apply CN. now right. }
  rewrite Z0 in XX. cbn [app] in XX. destruct rcs as [|rc [|]]; try discriminate. cbn [map] in XX. injection XX as XX.
  exists (hs2 ++ [HDeliver (List.length (w_flight w)) t])%list. split.
  { apply Forall_app. split; [|repeat constructor]. eapply Forall_impl; [|exact B2]. intros h.
    apply by_members_mono. unfold l. cbn [map fst]. rewrite map_map. cbn [fst]. rewrite map_id. apply incl_refl. }
  rewrite departures_app, D2. cbn [app Multisig2Account.departures]. rewrite app_nil_r.
  unfold Multisig2Account.happen_obs. rewrite F, nth_error_last, XX. unfold asked at 1. cbn [p_receiver].
  apply String.eqb_neq in NR. rewrite NR. reflexivity.
Qed.

(** The keys of the members of a new multisig on an account without keys. *)
Lemma new_batch c ms : forall s acts,
  snd (fold_left (fun '(s, acts) m => let '(s, b) := add_member c s m in (s, acts ++ b)%list) ms (s, acts)) =
  (acts ++ flat_map (fun m => match m with
     | AccessKey pk => [BAddAccessKey pk DEFAULT_ALLOWANCE (ctx_current c) MULTISIG_METHOD_NAMES]
     | Account _ => [] end) ms)%list.
Proof.
  induction ms as [|m ms IH]; intros s acts; cbn [fold_left flat_map]; [now rewrite app_nil_r|].
  unfold add_member at 2. rewrite IH, app_assoc. reflexivity.
Qed.

Lemma apply_new key ms : forall w, NoDup ms ->
  (forall pk, In (AccessKey pk) ms -> mmem pk (w_keys w) = false) ->
  exists ks, apply key t (flat_map (fun m => match m with
     | AccessKey pk => [BAddAccessKey pk DEFAULT_ALLOWANCE self MULTISIG_METHOD_NAMES]
     | Account _ => [] end) ms) w = Some (with_keys w ks) /\
    (forall pk, In (AccessKey pk) ms ->
       mget pk ks = Some (CallAccess self ["add_request"; "delete_request"; "confirm"; "add_and_confirm_request"]%string)) /\
    (forall pk, ~ In (AccessKey pk) ms -> mget pk ks = mget pk (w_keys w)).
Proof.
  induction ms as [|m ms IH]; intros w ND FR.
  - exists (w_keys w). cbn. split; [destruct w; reflexivity|]. split; [intros pk []|auto].
  - inversion ND as [|? ? NI ND']; subst. destruct m as [pk|a]; cbn [flat_map app].
    + cbn [Multisig2Account.apply]. rewrite (FR pk (or_introl eq_refl)).
      set (w1 := with_keys w (minsert pk (CallAccess self (methods_of MULTISIG_METHOD_NAMES)) (w_keys w))).
      destruct (IH w1 ND') as (ks & E & IN & OUT).
      { intros pk' I. cbn [w1 with_keys w_keys]. rewrite mmem_minsert.
        destruct (keqb_spec pk' pk) as [->|]; [contradiction|]. cbn. apply FR. now right. }
      exists ks. split; [exact E|]. split.
      * intros pk' I. destruct (keqb_spec pk' pk) as [->|NE].
        -- rewrite OUT by exact NI. cbn [w1 with_keys w_keys]. rewrite mget_minsert, keqb_refl. reflexivity.
        -- apply IN. destruct I as [I|I]; [congruence|exact I].
      * intros pk' NI'. rewrite OUT by (intros I; apply NI'; now right). cbn [w1 with_keys w_keys].
        rewrite mget_minsert. destruct (keqb_spec pk' pk) as [->|]; auto. exfalso. apply NI'. now left.
    + destruct (IH w ND') as (ks & E & IN & OUT). { intros pk I. apply FR. now right. }
      exists ks. split; [exact E|]. split.
      * intros pk [I|I]; [discriminate|auto].
      * intros pk NI'. apply OUT. intros I. apply NI'. now right.
Qed.

Lemma new_promise ms k s0 p0 : new self false ms k = Ok (s0, p0) ->
  p0 = mkPromise self (flat_map (fun m => match m with
     | AccessKey pk => [BAddAccessKey pk DEFAULT_ALLOWANCE self MULTISIG_METHOD_NAMES]
     | Account _ => [] end) ms).
Proof.
  intros E. unfold new in E. inv_all.
  match goal with H : context [fold_left ?f ms ?x] |- _ =>
    pose proof (new_batch (mkCtx self self "" 0 0) ms (fst x) (snd x)) as F; cbn [fst snd ctx_current app] in F;
    destruct (fold_left f ms x) as [s acts] eqn:FE end.
  inv_all. cbn [snd] in F. now rewrite F.
Qed.

Lemma members_get_keys ms k s0 p0 key m : new self false ms k = Ok (s0, p0) -> NoDup ms -> ~ In (Account self) ms ->
  In m ms -> can_act self (run (start s0 p0 [] key) [HDeliver 0 t]) m.
Proof.
  intros E ND NS I. apply new_promise in E. cbn [Multisig2Account.run]. unfold Multisig2Account.happen, Multisig2Account.happen_obs.
  cbn [start w_flight nth_error firstn skipn app rc_batch rc_key w_contract w_keys w_calls]. rewrite E. cbn [p_receiver p_actions].
  rewrite String.eqb_refl. cbn [fst].
  destruct (apply_new key ms (mkWorld s0 [] [] []) ND) as (ks & A & IN & _); [reflexivity|].
  rewrite A. destruct m as [pk|a].
  - cbn [can_act with_keys w_keys]. rewrite (IN pk I). eexists. split; [reflexivity|].
    intros args. cbn [permits]. rewrite String.eqb_refl. split; reflexivity.
  - cbn [can_act]. intros ->. contradiction.
Qed.

(** A key listed twice: the batch that installs the keys fails, and nobody can ever act. *)
Notation key_batch := (flat_map (fun m => match m with
     | AccessKey pk => [BAddAccessKey pk DEFAULT_ALLOWANCE self MULTISIG_METHOD_NAMES]
     | Account _ => [] end)).

Lemma apply_present key t' pk ms : forall w, In (AccessKey pk) ms -> mmem pk (w_keys w) = true ->
  apply key t' (key_batch ms) w = None.
Proof.
  induction ms as [|m ms IH]; intros w I M; [destruct I|]. destruct m as [pk'|a]; cbn [flat_map app].
  - cbn [Multisig2Account.apply]. destruct (mmem pk' (w_keys w)) eqn:M'; [reflexivity|]. apply IH.
    + destruct I as [I|I]; [congruence|exact I].
    + cbn [with_keys w_keys]. rewrite mmem_minsert, M. apply orb_true_r.
  - apply IH; auto. destruct I as [I|I]; [discriminate|exact I].
Qed.

Lemma apply_twice key t' ms1 ms2 ms3 pk : forall w,
  apply key t' (key_batch (ms1 ++ AccessKey pk :: ms2 ++ AccessKey pk :: ms3)) w = None.
Proof.
  induction ms1 as [|m ms1 IH]; intros w; cbn [app].
  - cbn [flat_map app Multisig2Account.apply]. destruct (mmem pk (w_keys w)) eqn:M; [reflexivity|].
    apply (apply_present _ _ pk). { apply in_or_app. right. now left. }
    cbn [with_keys w_keys]. now rewrite mmem_minsert, keqb_refl.
  - destruct m; cbn [flat_map app]; [|apply IH]. cbn [Multisig2Account.apply]. destruct (mmem _ _); [reflexivity|apply IH].
Qed.

Lemma repeated_key_locks_out ms k s0 p0 key pk ms1 ms2 ms3 : new self false ms k = Ok (s0, p0) ->
  ms = (ms1 ++ AccessKey pk :: ms2 ++ AccessKey pk :: ms3)%list -> (forall a, ~ In (Account a) ms) ->
  forall hs, departures (start s0 p0 [] key) hs = [] /\ w_contract (run (start s0 p0 [] key) hs) = s0.
Proof.
  intros E D NA hs.
  assert (P : p0 = mkPromise self (key_batch ms)) by (eapply new_promise; eauto).
  assert (MM : forall a, ~ In (Account a) (get_members s0)).
  { intros a I. apply (NA a).
    exact (proj1 (proj1 (new_members _ _ _ _ _ E) _) I). }
  assert (G : forall hs w, w_contract w = s0 -> w_keys w = [] ->
    (forall rc, In rc (w_flight w) -> rc_batch rc = p0) ->
    departures w hs = [] /\ w_contract (run w hs) = s0).
  { clear hs. induction hs as [|h hs IH]; intros w HC HK HF; [auto|].
    cbn [Multisig2Account.run Multisig2Account.departures]. unfold Multisig2Account.happen.
    destruct h as [ky to acts|i t'|pred ky att t' m]; cbn [Multisig2Account.happen_obs].
    - rewrite HK. cbn [mget fst snd app]. apply IH; auto.
    - destruct (nth_error (w_flight w) i) as [rc|] eqn:NE; [|cbn; apply IH; auto].
      assert (RC : rc_batch rc = p0) by (apply HF; eapply nth_error_In; eauto).
      rewrite RC, P. cbn [p_receiver p_actions]. rewrite String.eqb_refl. cbn [fst snd app].
      set (w1 := mkWorld _ _ _ _). rewrite D, apply_twice. apply IH; auto.
      intros x I. apply HF. cbn [w1 w_flight] in I. rewrite (split_nth _ _ _ NE). apply in_app_or in I.
      apply in_or_app. cbn. tauto.
    - destruct (String.eqb_spec pred self) as [Y|Y]; [cbn; apply IH; auto|].
      set (ev := mkEvent pred ky att t' m).
      destruct (strangers_rejected self (w_contract w) ev) as [O S].
      { unfold caller. cbn [ev e_pred]. apply String.eqb_neq in Y. rewrite Y, HC. apply MM. }
      unfold Multisig2Account.invoke. unfold outcome in O. destruct (exec _ _ _) as [[? ?]|]; [discriminate|].
      cbn [fst snd app]. apply IH; auto. }
  apply G; auto. intros rc [<-|[]]. reflexivity.
Qed.
End Account.
