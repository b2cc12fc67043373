(** Proofs about the account guarded by the multisig. *)
From Coq Require Import NArith List Bool String Lia Permutation.
From Verif Require Import Prelude PreludeFacts MapFacts MultisigModel MultisigSpec MultisigProofs MultisigFacts
  MultisigLive MultisigAccount.
Import ListNotations.
Open Scope N_scope.

Section Account.
Variable self : account_id.
Variable decode : string -> string -> option call.
Notation invoke := (invoke self).
Notation apply := (apply self decode).
Notation happen := (happen self decode).
Notation happen_obs := (happen_obs self decode).
Notation run := (run self decode).
Notation departures := (departures self decode).

Definition foreign (l : list promise) : list promise := filter (fun p => negb (String.eqb (p_receiver p) self)) l.

Lemma foreign_app l1 l2 : foreign (l1 ++ l2) = (foreign l1 ++ foreign l2)%list.
Proof. unfold foreign. apply filter_app. Qed.

Lemma executions_app s0 l1 l2 :
  executions self s0 (l1 ++ l2) = (executions self s0 l1 ++ executions self (final self s0 l1) l2)%list.
Proof. unfold executions. now rewrite log_app, flat_map_app. Qed.

Lemma executions_one s ev s' o : exec (ctx_of self ev) s (e_call ev) = Ok (s', o) ->
  executions self s [ev] = scheduled o.
Proof.
  intros E. unfold executions. cbn [log flat_map]. rewrite app_nil_r.
  unfold confirmed, outcome. cbn [fst snd]. rewrite E.
  unfold exec in E. destruct (require _ _); cbn [bind] in E; [|discriminate].
  destruct (e_call ev).
  - destruct (add_request _ _ _) as [[? ?]|]; cbn [bind] in E; [|discriminate]. injection E as _ <-. reflexivity.
  - destruct (add_request_and_confirm _ _ _) as [[? [? q]]|]; cbn [bind] in E; [|discriminate]. injection E as _ <-.
    destruct q; reflexivity.
  - destruct (delete_request _ _ _) as [[? ?]|]; cbn [bind] in E; [|discriminate]. injection E as _ <-. reflexivity.
  - destruct (confirm _ _ _) as [[? q]|]; cbn [bind] in E; [|discriminate]. injection E as _ <-. destruct q; reflexivity.
Qed.

Record inv (s0 : contract) (w : world) (dep : list promise) : Prop := {
  i_contract : w_contract w = final self s0 (w_calls w);
  i_nodup : NoDup (mkeys (w_keys w));
  i_keys : forall pk a, mget pk (w_keys w) = Some a -> limited self a;
  i_flight : forall rc, In rc (w_flight w) -> p_receiver (rc_batch rc) = self -> keeps_guard self (p_actions (rc_batch rc));
  i_perm : Permutation (dep ++ foreign (map rc_batch (w_flight w))) (foreign (executions self s0 (w_calls w)))
}.

Definition guarded (s0 : contract) (evs : list event) : Prop :=
  forall p, In p (executions self s0 evs) -> p_receiver p = self -> keeps_guard self (p_actions p).

Lemma guarded_prefix s0 l1 l2 : guarded s0 (l1 ++ l2) -> guarded s0 l1.
Proof. intros G p I. apply G. rewrite executions_app. apply in_or_app. now left. Qed.

Lemma invoke_calls w ev w' : invoke w ev = Some w' -> w_calls w' = (w_calls w ++ [ev])%list.
Proof. unfold MultisigAccount.invoke. destruct (exec _ _ _) as [[s o]|]; [|discriminate]. intros E. now injection E as <-. Qed.

Lemma apply_calls key t acts : forall w w', apply key t acts w = Some w' -> exists l, w_calls w' = (w_calls w ++ l)%list.
Proof.
  induction acts as [|a acts IH]; cbn [MultisigAccount.apply]; intros w w' E.
  - injection E as <-. exists []. now rewrite app_nil_r.
  - destruct a; try discriminate; eauto; try (destruct (mmem _ _); [try discriminate|try discriminate];
      apply IH in E; exact E).
    destruct (decode _ _) as [c|]; [|discriminate]. destruct (invoke _ _) as [w1|] eqn:V; [|discriminate].
    apply IH in E. destruct E as [l ->]. apply invoke_calls in V. rewrite V, <- app_assoc. eauto.
Qed.

Lemma happen_calls w h : exists l, w_calls (happen w h) = (w_calls w ++ l)%list.
Proof.
  unfold MultisigAccount.happen, MultisigAccount.happen_obs. destruct h as [key to acts|i t|pred key att t m].
  - destruct (mget _ _) as [a|]; [destruct (permits _ _ _)|]; exists []; cbn; now rewrite app_nil_r.
  - destruct (nth_error _ _) as [rc|]; [|exists []; cbn; now rewrite app_nil_r].
    destruct (String.eqb _ _); [|exists []; cbn; now rewrite app_nil_r]. cbn [fst].
    destruct (apply _ _ _ _) as [w'|] eqn:A; [|exists []; cbn; now rewrite app_nil_r].
    apply apply_calls in A. exact A.
  - destruct (String.eqb _ _); [exists []; cbn; now rewrite app_nil_r|]. cbn [fst].
    destruct (invoke _ _) as [w'|] eqn:V; [|exists []; now rewrite app_nil_r]. apply invoke_calls in V. eauto.
Qed.

Lemma run_calls hs : forall w, exists l, w_calls (run w hs) = (w_calls w ++ l)%list.
Proof.
  induction hs as [|h hs IH]; intros w; cbn [MultisigAccount.run]; [exists []; now rewrite app_nil_r|].
  destruct (IH (happen w h)) as [l ->]. destruct (happen_calls w h) as [l' ->]. rewrite <- app_assoc. eauto.
Qed.

Lemma final_snoc s0 l ev s' o : exec (ctx_of self ev) (final self s0 l) (e_call ev) = Ok (s', o) ->
  final self s0 (l ++ [ev]) = s'.
Proof. intros E. rewrite final_app. cbn [final]. unfold step. now rewrite E. Qed.

Lemma invoke_inv s0 w ev w' dep : inv s0 w dep -> invoke w ev = Some w' -> guarded s0 (w_calls w') -> inv s0 w' dep.
Proof.
  intros H V G. pose proof (invoke_calls _ _ _ V) as C. unfold MultisigAccount.invoke in V.
  destruct (exec _ _ _) as [[s o]|] eqn:E; [|discriminate]. injection V as <-. cbn [w_calls] in G.
  rewrite (i_contract _ _ _ H) in E. pose proof (executions_one _ _ _ _ E) as X.
  destruct H as [HC HN HK HF HP]. split; cbn [w_contract w_keys w_flight w_calls]; auto.
  - symmetry. eapply final_snoc; eauto.
  - intros rc I R. apply in_app_or in I. destruct I as [I|I]; [auto|].
    apply in_map_iff in I. destruct I as (p & <- & I). cbn [rc_batch] in *. apply G; auto.
    rewrite executions_app, X. apply in_or_app. now right.
  - rewrite map_app, map_map, foreign_app, executions_app, X, foreign_app. cbn [rc_batch]. rewrite map_id, app_assoc.
    now apply Permutation_app_tail.
Qed.

Lemma keys_inv s0 w ks dep : inv s0 w dep -> NoDup (mkeys ks) ->
  (forall pk a, mget pk ks = Some a -> limited self a) -> inv s0 (with_keys w ks) dep.
Proof. intros [HC HN HK HF HP] N L. split; auto. Qed.

Lemma apply_inv s0 key t acts dep : forall w w', inv s0 w dep -> apply key t acts w = Some w' ->
  guarded s0 (w_calls w') -> keeps_guard self acts -> inv s0 w' dep.
Proof.
  induction acts as [|a acts IH]; cbn [MultisigAccount.apply]; intros w w' H E G K.
  - now injection E as <-.
  - assert (K' : keeps_guard self acts) by (intros x I; apply K; now right).
    pose proof (K a (or_introl eq_refl)) as KA.
    destruct a; try discriminate; try contradiction.
    + eapply IH; eauto.
    + destruct (mmem pk (w_keys w)) eqn:M; [discriminate|]. subst receiver.
      eapply IH; [|exact E|exact G|exact K'].
      apply keys_inv; auto; [apply NoDup_minsert, H|]. intros pk' a. rewrite mget_minsert.
      destruct (keqb _ _); [intros X; injection X as <-; now eexists|apply (i_keys _ _ _ H)].
    + destruct (mmem pk (w_keys w)) eqn:M; [|discriminate].
      eapply IH; [|exact E|exact G|exact K'].
      apply keys_inv; auto; [apply NoDup_mremove, H|]. intros pk' a. rewrite mget_mremove by apply H.
      destruct (keqb _ _); [discriminate|apply (i_keys _ _ _ H)].
    + destruct (decode _ _) as [c|]; [|discriminate]. destruct (invoke _ _) as [w1|] eqn:V; [|discriminate].
      eapply IH; [|exact E|exact G|exact K']. eapply invoke_inv; eauto.
      destruct (apply_calls _ _ _ _ _ E) as [l X]. rewrite X in G. now apply guarded_prefix in G.
Qed.

Lemma permits_limited a to acts : limited self a -> permits a to acts = true ->
  to = self /\ keeps_guard self acts.
Proof.
  intros [ms ->]. cbn [permits]. destruct acts as [|[] [|]]; try discriminate.
  intros P. apply andb_true_iff in P. destruct P as [P _]. apply andb_true_iff in P. destruct P as [P _].
  apply String.eqb_eq in P. split; auto. intros x [<-|[]]. exact I.
Qed.

Lemma split_nth {A} (l : list A) : forall i x, nth_error l i = Some x ->
  l = (firstn i l ++ x :: skipn (S i) l)%list.
Proof.
  induction l as [|y l IH]; intros [|i] x E; try discriminate.
  - now injection E as ->.
  - cbn in E. cbn [firstn app skipn]. f_equal. now apply IH.
Qed.

Lemma happen_inv s0 w h dep : inv s0 w dep -> guarded s0 (w_calls (happen w h)) ->
  inv s0 (happen w h) (dep ++ snd (happen_obs w h)).
Proof.
  unfold MultisigAccount.happen, MultisigAccount.happen_obs. intros H G.
  destruct h as [key to acts|i t|pred key att t m].
  - destruct (mget key (w_keys w)) as [a|] eqn:A; [|cbn; now rewrite app_nil_r].
    destruct (permits a to acts) eqn:P; [|cbn; now rewrite app_nil_r].
    destruct (permits_limited _ _ _ (i_keys _ _ _ H _ _ A) P) as [-> K].
    cbn [fst snd]. rewrite app_nil_r. destruct H as [HC HN HK HF HP].
    split; cbn [w_contract w_keys w_flight w_calls]; auto.
    + intros rc I R. apply in_app_or in I. destruct I as [I|[<-|[]]]; auto.
    + rewrite map_app, foreign_app. cbn [map rc_batch foreign filter p_receiver]. rewrite String.eqb_refl.
      cbn [negb]. now rewrite app_nil_r.
  - destruct (nth_error (w_flight w) i) as [rc|] eqn:NE; [|cbn; now rewrite app_nil_r].
    pose proof (split_nth _ _ _ NE) as SP.
    set (w1 := mkWorld (w_contract w) (w_keys w) (firstn i (w_flight w) ++ skipn (S i) (w_flight w)) (w_calls w)) in *.
    assert (IN : forall x, In x (w_flight w1) -> In x (w_flight w)).
    { intros x I. rewrite SP. cbn [w1 w_flight] in I. apply in_app_or in I. apply in_or_app. cbn. tauto. }
    assert (I0 : In rc (w_flight w)) by (eapply nth_error_In; eauto).
    destruct (String.eqb_spec (p_receiver (rc_batch rc)) self) as [R|R]; cbn [fst snd] in *.
    + rewrite app_nil_r.
      assert (H1 : inv s0 w1 dep).
      { destruct H as [HC HN HK HF HP]. split; auto.
        rewrite SP, map_app in HP. cbn [w1 w_flight w_calls map] in *. rewrite map_app.
        rewrite foreign_app in *. cbn [foreign filter] in HP. apply String.eqb_eq in R. rewrite R in HP.
        exact HP. }
      destruct (apply _ _ _ w1) as [w'|] eqn:A; [|exact H1].
      eapply apply_inv; eauto. now apply (i_flight _ _ _ H).
    + destruct H as [HC HN HK HF HP]. split; auto.
      rewrite SP, map_app in HP. cbn [w1 w_flight w_calls map] in *. rewrite map_app.
      rewrite foreign_app in *. cbn [foreign filter] in HP. apply String.eqb_neq in R. rewrite R in HP. cbn [negb] in HP.
      rewrite <- app_assoc. cbn [app]. eapply Permutation_trans; [|exact HP].
      apply Permutation_app_head. apply Permutation_middle.
  - destruct (String.eqb pred self); cbn [fst snd] in *; rewrite app_nil_r; auto.
    destruct (invoke _ _) as [w'|] eqn:V; [|auto]. eapply invoke_inv; eauto.
Qed.

Lemma run_inv s0 hs : forall w dep, inv s0 w dep -> guarded s0 (w_calls (run w hs)) ->
  inv s0 (run w hs) (dep ++ departures w hs).
Proof.
  induction hs as [|h hs IH]; intros w dep H G; cbn [MultisigAccount.run MultisigAccount.departures] in *.
  - now rewrite app_nil_r.
  - rewrite app_assoc. apply IH; auto. apply happen_inv; auto.
    destruct (run_calls hs (happen w h)) as [l X]. rewrite X in G. now apply guarded_prefix in G.
Qed.

Lemma start_inv s0 ks : NoDup (mkeys ks) ->
  (forall pk a, mget pk ks = Some a -> limited self a) -> inv s0 (start s0 ks) [].
Proof. intros N K. split; cbn [start w_contract w_keys w_flight w_calls]; auto. intros rc []. Qed.

(** What leaves the account is exactly what executed requests asked for. *)
Lemma departures_are_executions k s0 ks hs : new false k = Ok s0 ->
  NoDup (mkeys ks) -> (forall pk a, mget pk ks = Some a -> limited self a) ->
  let w0 := start s0 ks in
  let w := run w0 hs in
  (forall p, In p (executions self s0 (w_calls w)) -> p_receiver p = self -> keeps_guard self (p_actions p)) ->
  w_contract w = final self s0 (w_calls w) /\
  (forall pk a, mget pk (w_keys w) = Some a -> limited self a) /\
  Permutation
    (departures w0 hs ++ filter (fun p => negb (String.eqb (p_receiver p) self)) (map rc_batch (w_flight w)))
    (filter (fun p => negb (String.eqb (p_receiver p) self)) (executions self s0 (w_calls w))).
Proof.
  intros _ N K w0 w G. pose proof (run_inv s0 hs w0 [] (start_inv _ _ N K) G) as [HC HN HK HF HP].
  auto.
Qed.

Lemma in_executions s0 evs p : In p (executions self s0 evs) ->
  exists evs1 ev evs2 id, evs = (evs1 ++ ev :: evs2)%list /\
    confirmed ((ev, outcome self (final self s0 evs1) ev)) = Some (id, Some p).
Proof.
  revert s0. induction evs as [|ev evs IH]; intros s0 I; [destruct I|].
  unfold executions in I. cbn [log flat_map] in I. apply in_app_or in I. destruct I as [I|I].
  - destruct (confirmed _) as [[id [q|]]|] eqn:C; try contradiction. destruct I as [->|[]].
    exists [], ev, evs, id. auto.
  - apply IH in I. destruct I as (l1 & e & l2 & id & -> & C). exists (ev :: l1), e, l2, id. auto.
Qed.

(** Who signs: every successful call is signed with a key that was on the account, by then. *)
Definition authorised (s0 : contract) (ks : umap public_key access) (evs : list event) : list public_key :=
  (mkeys ks ++ added_keys self (executions self s0 evs))%list.

Definition adds (acts : list batch_action) : list public_key :=
  flat_map (fun b => match b with BAddAccessKey pk _ _ _ | BAddFullAccessKey pk => [pk] | _ => [] end) acts.

Record auth (s0 : contract) (ks : umap public_key access) (w : world) : Prop := {
  a_contract : w_contract w = final self s0 (w_calls w);
  a_keys : forall pk, mmem pk (w_keys w) = true -> In pk (authorised s0 ks (w_calls w));
  a_flight : forall rc, In rc (w_flight w) -> In (rc_key rc) (authorised s0 ks (w_calls w)) /\
     (p_receiver (rc_batch rc) = self ->
      incl (adds (p_actions (rc_batch rc))) (authorised s0 ks (w_calls w)));
  a_calls : forall evs1 ev evs2, w_calls w = (evs1 ++ ev :: evs2)%list ->
     e_pred ev = self /\ In (e_key ev) (authorised s0 ks evs1)
}.

Lemma authorised_mono s0 ks l1 l2 : incl (authorised s0 ks l1) (authorised s0 ks (l1 ++ l2)).
Proof.
  intros pk I. unfold authorised in *. rewrite executions_app. unfold added_keys in *. rewrite flat_map_app, app_assoc.
  apply in_or_app. now left.
Qed.

Lemma invoke_auth s0 ks w ev w' : auth s0 ks w -> invoke w ev = Some w' ->
  In (e_key ev) (authorised s0 ks (w_calls w)) -> auth s0 ks w'.
Proof.
  intros H V I. pose proof (invoke_calls _ _ _ V) as C.
  assert (PR : e_pred ev = self).
  { destruct (String.eqb_spec (e_pred ev) self) as [Y|Y]; auto.
    destruct (strangers_rejected self (w_contract w) ev Y) as [O _]. unfold MultisigAccount.invoke in V.
    unfold outcome in O. destruct (exec _ _ _) as [[? ?]|]; discriminate. }
  unfold MultisigAccount.invoke in V. destruct (exec _ _ _) as [[s o]|] eqn:E; [|discriminate]. injection V as <-.
  rewrite (a_contract _ _ _ H) in E. pose proof (executions_one _ _ _ _ E) as X.
  destruct H as [HC HK HF HL]. split; cbn [w_contract w_keys w_flight w_calls] in *.
  - symmetry. eapply final_snoc; eauto.
  - intros pk M. apply authorised_mono. auto.
  - intros rc J. apply in_app_or in J. destruct J as [J|J].
    + destruct (HF _ J) as [P Q]. split; [now apply authorised_mono|]. intros R pk IA. apply authorised_mono. now apply Q.
    + apply in_map_iff in J. destruct J as (p & <- & J). cbn [rc_key rc_batch]. split; [now apply authorised_mono|].
      intros R pk IA. unfold authorised. rewrite executions_app, X. unfold added_keys. rewrite flat_map_app.
      apply in_or_app. right. apply in_or_app. right. apply in_flat_map. exists p. split; auto.
      rewrite (proj2 (String.eqb_eq _ _) R). exact IA.
  - intros evs1 ev' evs2 D. destruct evs2 as [|x evs2] using rev_ind.
    + apply app_inj_tail in D. destruct D as [<- <-]. auto.
    + change (evs1 ++ ev' :: evs2 ++ [x])%list with (evs1 ++ (ev' :: evs2) ++ [x])%list in D.
      rewrite app_assoc in D. apply app_inj_tail in D. destruct D as [D _]. eapply HL; eauto.
Qed.

Lemma apply_auth s0 ks key t acts : forall w w', auth s0 ks w -> apply key t acts w = Some w' ->
  In key (authorised s0 ks (w_calls w)) -> incl (adds acts) (authorised s0 ks (w_calls w)) ->
  NoDup (mkeys (w_keys w)) -> auth s0 ks w'.
Proof.
  induction acts as [|a acts IH]; cbn [MultisigAccount.apply]; intros w w' H E I A ND.
  - now injection E as <-.
  - assert (A' : incl (adds acts) (authorised s0 ks (w_calls w))).
    { intros x J. apply A. cbn [adds flat_map]. apply in_or_app. now right. }
    destruct a; try discriminate.
    + eapply IH; eauto.
    + destruct (mmem pk (w_keys w)) eqn:M; [discriminate|].
      eapply IH; [|exact E|exact I|exact A'|cbn [with_keys w_keys]; now apply NoDup_minsert].
      destruct H as [HC HK HF HL]. split; cbn [with_keys w_contract w_keys w_flight w_calls]; auto.
      intros pk'. rewrite mmem_minsert. destruct (keqb_spec pk' pk) as [->|]; cbn [orb]; [|apply HK].
      intros _. apply A. now left.
    + destruct (mmem pk (w_keys w)) eqn:M; [discriminate|].
      eapply IH; [|exact E|exact I|exact A'|cbn [with_keys w_keys]; now apply NoDup_minsert].
      destruct H as [HC HK HF HL]. split; cbn [with_keys w_contract w_keys w_flight w_calls]; auto.
      intros pk'. rewrite mmem_minsert. destruct (keqb_spec pk' pk) as [->|]; cbn [orb]; [|apply HK].
      intros _. apply A. now left.
    + destruct (mmem pk (w_keys w)) eqn:M; [|discriminate].
      eapply IH; [|exact E|exact I|exact A'|cbn [with_keys w_keys]; now apply NoDup_mremove].
      destruct H as [HC HK HF HL]. split; cbn [with_keys w_contract w_keys w_flight w_calls]; auto.
      intros pk' M'. apply HK. unfold mmem in *. rewrite mget_mremove in M' by exact ND.
      destruct (keqb _ _); [discriminate|exact M'].
    + destruct (decode _ _) as [c|]; [|discriminate]. destruct (invoke _ _) as [w1|] eqn:V; [|discriminate].
      pose proof (invoke_calls _ _ _ V) as C.
      eapply IH; [|exact E| | |]; rewrite ?C.
      * eapply invoke_auth; eauto.
      * now apply authorised_mono.
      * intros x J. now apply authorised_mono, A'.
      * unfold MultisigAccount.invoke in V. destruct (exec _ _ _) as [[s o]|]; [|discriminate]. now injection V as <-.
Qed.

Lemma happen_auth s0 ks w h dep : inv s0 w dep -> auth s0 ks w -> auth s0 ks (happen w h).
Proof.
  unfold MultisigAccount.happen, MultisigAccount.happen_obs. intros V H.
  destruct h as [key to acts|i t|pred key att t m].
  - destruct (mget key (w_keys w)) as [a|] eqn:A; [|exact H].
    destruct (permits a to acts) eqn:P; [|exact H].
    destruct (i_keys _ _ _ V _ _ A) as [ms ->].
    destruct H as [HC HK HF HL]. split; cbn [fst w_contract w_keys w_flight w_calls]; auto.
    intros rc J. apply in_app_or in J. destruct J as [J|[<-|[]]]; auto. cbn [rc_key rc_batch p_actions]. split.
    + apply HK. unfold mmem. now rewrite A.
    + intros _. cbn [permits] in P. destruct acts as [|[] [|]]; try discriminate. intros x [].
  - destruct (nth_error (w_flight w) i) as [rc|] eqn:NE; [|exact H].
    pose proof (split_nth _ _ _ NE) as SP.
    set (w1 := mkWorld (w_contract w) (w_keys w) (firstn i (w_flight w) ++ skipn (S i) (w_flight w)) (w_calls w)) in *.
    assert (IN : forall x, In x (w_flight w1) -> In x (w_flight w)).
    { intros x I. rewrite SP. cbn [w1 w_flight] in I. apply in_app_or in I. apply in_or_app. cbn. tauto. }
    assert (I0 : In rc (w_flight w)) by (eapply nth_error_In; eauto).
    destruct (a_flight _ _ _ H _ I0) as [K0 K1].
    assert (H1 : auth s0 ks w1). { destruct H as [HC HK HF HL]. split; auto. }
    destruct (String.eqb_spec (p_receiver (rc_batch rc)) self) as [R|R]; cbn [fst]; [|exact H1].
    destruct (apply _ _ _ w1) as [w'|] eqn:A; [|exact H1].
    eapply apply_auth; eauto. exact (i_nodup _ _ _ V).
  - destruct (String.eqb_spec pred self) as [Y|Y]; cbn [fst]; auto.
    destruct (strangers_rejected self (w_contract w) (mkEvent pred key att t m) Y) as [O _].
    unfold MultisigAccount.invoke. unfold outcome in O. destruct (exec _ _ _) as [[? ?]|]; [discriminate|exact H].
Qed.

Lemma run_auth s0 ks hs : forall w dep, inv s0 w dep -> auth s0 ks w -> guarded s0 (w_calls (run w hs)) ->
  auth s0 ks (run w hs).
Proof.
  induction hs as [|h hs IH]; intros w dep V H G; cbn [MultisigAccount.run] in *; auto.
  assert (G' : guarded s0 (w_calls (happen w h))).
  { destruct (run_calls hs (happen w h)) as [l X]. rewrite X in G. now apply guarded_prefix in G. }
  eapply IH; [exact (happen_inv _ _ _ _ V G')| |exact G]. eapply happen_auth; eauto.
Qed.

Lemma mmem_in (ks : umap public_key access) pk : mmem pk ks = true -> In pk (mkeys ks).
Proof. intros M. now apply in_mkeys_mmem. Qed.

Lemma start_auth s0 ks : auth s0 ks (start s0 ks).
Proof.
  split; cbn [start w_contract w_keys w_flight w_calls]; auto.
  - intros pk M. unfold authorised. apply in_or_app. left. now apply mmem_in.
  - intros rc [].
  - intros [|? ?]; discriminate.
Qed.

(** What leaves was confirmed by enough different keys, all of them keys of the account. *)
Lemma acts_only_by_quorum k s0 ks hs : new false k = Ok s0 ->
  NoDup (mkeys ks) -> (forall pk a, mget pk ks = Some a -> limited self a) ->
  let w0 := start s0 ks in
  let w := run w0 hs in
  (forall p, In p (executions self s0 (w_calls w)) -> p_receiver p = self -> keeps_guard self (p_actions p)) ->
  forall p, In p (departures w0 hs) ->
  exists evs1 ev evs2 id l1 e0 l2 r,
    w_calls w = (evs1 ++ ev :: evs2)%list /\
    confirmed (ev, outcome self (final self s0 evs1) ev) = Some (id, Some p) /\
    log self s0 (evs1 ++ [ev]) = (l1 ++ e0 :: l2)%list /\
    added e0 = Some (id, r) /\ p = asked r /\
    NoDup (confirmers (e0 :: l2) id) /\
    get_num_confirmations (final self s0 evs1) <= N.of_nat (List.length (confirmers (e0 :: l2) id)) /\
    forall pk, In pk (confirmers (e0 :: l2) id) ->
      In pk (mkeys ks) \/ In pk (added_keys self (executions self s0 evs1)).
Proof.
  intros E N K w0 w G p I.
  destruct (departures_are_executions _ _ _ hs E N K G) as (_ & _ & HP). fold w0 w in HP.
  assert (J : In p (executions self s0 (w_calls w))).
  { pose proof (Permutation_in p HP (in_or_app _ _ _ (or_introl I))) as J. apply filter_In in J. tauto. }
  apply in_executions in J. destruct J as (evs1 & ev & evs2 & id & X & C).
  destruct (execution_needs_quorum self _ _ evs1 ev id p E C) as (l1 & e0 & l2 & r & L & A & P & _ & ND & _ & Q).
  exists evs1, ev, evs2, id, l1, e0, l2, r. do 7 (split; [assumption|]).
  intros pk IC. unfold confirmers in IC. apply in_flat_map in IC. destruct IC as (e & IE & IK).
  destruct (confirmed e) as [[id' q]|]; [|contradiction]. destruct (id' =? id); [|contradiction]. destruct IK as [<-|[]].
  assert (IL : In e (log self s0 (evs1 ++ [ev]))) by (rewrite L; apply in_or_app; now right).
  assert (IV : In (fst e) (evs1 ++ [ev])).
  { clear -IL. revert s0 IL. induction (evs1 ++ [ev])%list as [|x l IH]; cbn [log In]; intros s0 I; [exact I|].
    destruct I as [<-|I]; [now left|right; eauto]. }
  pose proof (run_auth s0 ks hs w0 [] (start_inv _ _ N K) (start_auth s0 ks) G) as AU. fold w in AU.
  apply in_app_iff. change (In (e_key (fst e)) (authorised s0 ks evs1)). apply in_app_or in IV. destruct IV as [IV|[<-|[]]].
  - apply in_split in IV. destruct IV as (u & v & D). 
    destruct (a_calls _ _ _ AU u (fst e) (v ++ ev :: evs2)) as [_ Y]; [rewrite X, D, <- app_assoc; reflexivity|].
    rewrite D. now apply authorised_mono.
  - destruct (a_calls _ _ _ AU _ _ _ X) as [_ Y]. exact Y.
Qed.

(** * The keys can act *)
Lemma invoke_contract s0 w ev w' : w_contract w = final self s0 (w_calls w) -> invoke w ev = Some w' ->
  w_contract w' = final self s0 (w_calls w').
Proof.
  intros H V. unfold MultisigAccount.invoke in V. destruct (exec _ _ _) as [[s o]|] eqn:E; [|discriminate].
  injection V as <-. cbn. rewrite H in E. symmetry. eapply final_snoc; eauto.
Qed.

Lemma apply_contract s0 key t acts : forall w w', w_contract w = final self s0 (w_calls w) ->
  apply key t acts w = Some w' -> w_contract w' = final self s0 (w_calls w').
Proof.
  induction acts as [|a acts IH]; cbn [MultisigAccount.apply]; intros w w' H E; [now injection E as <-|].
  destruct a; try discriminate; eauto;
    try (destruct (mmem _ _); [try discriminate|try discriminate]; eapply IH; [|exact E]; exact H).
  destruct (decode _ _) as [c|]; [|discriminate]. destruct (invoke _ _) as [w1|] eqn:V; [|discriminate].
  eapply IH; [|exact E]. eapply invoke_contract; eauto.
Qed.

Lemma run_contract s0 hs : forall w, w_contract w = final self s0 (w_calls w) ->
  w_contract (run w hs) = final self s0 (w_calls (run w hs)).
Proof.
  induction hs as [|h hs IH]; intros w H; cbn [MultisigAccount.run]; auto. apply IH.
  unfold MultisigAccount.happen, MultisigAccount.happen_obs. destruct h as [key to acts|i t|pred key att t m].
  - destruct (mget _ _) as [a|]; [destruct (permits _ _ _)|]; exact H.
  - destruct (nth_error _ _) as [rc|]; [|exact H]. destruct (String.eqb _ _); [|exact H]. cbn [fst].
    destruct (apply _ _ _ _) as [w'|] eqn:A; [|exact H]. eapply apply_contract; [|exact A]. exact H.
  - destruct (String.eqb _ _); [exact H|]. cbn [fst]. destruct (invoke _ _) as [w'|] eqn:V; [|exact H].
    eapply invoke_contract; eauto.
Qed.

Definition method_name (m : call) : string :=
  match m with
  | CAddRequest _ => "add_request"
  | CAddRequestAndConfirm _ => "add_request_and_confirm"
  | CDeleteRequest _ => "delete_request"
  | CConfirm _ => "confirm"
  end.
Definition event_of (pk : public_key) (t : N) (c : call) : event := mkEvent self pk 0 t c.

Definition sayable (c : call) : Prop :=
  ((exists r, c = CAddRequest r) \/ (exists id, c = CConfirm id)) /\ exists args, decode (method_name c) args = Some c.

Lemma nth_error_last {A} (l : list A) x : nth_error (l ++ [x]) (List.length l) = Some x.
Proof. rewrite nth_error_app2 by lia. now rewrite Nat.sub_diag. Qed.

Lemma remove_last {A} (l : list A) x :
  (firstn (List.length l) (l ++ [x]) ++ skipn (S (List.length l)) (l ++ [x]))%list = l.
Proof.
  rewrite firstn_app, Nat.sub_diag, firstn_all, firstn_O, app_nil_r, skipn_all2, app_nil_r; auto.
  rewrite app_length. cbn. lia.
Qed.

Lemma do_act w pk t c s' o : can_act self w pk ->
  sayable c ->
  exec (ctx_of self (event_of pk t c)) (w_contract w) c = Ok (s', o) ->
  exists hs, Forall (by_keys [pk] t) hs /\ departures w hs = [] /\
    run w hs = mkWorld s' (w_keys w) (w_flight w ++ map (mkReceipt (e_key (event_of pk t c))) (scheduled o))
                 (w_calls w ++ [event_of pk t c]).
Proof.
  intros CA [KIND [args D]] E.
  - destruct CA as (ac & G & P).
    exists [HTx pk self [BFunctionCall (method_name c) args 0 0]; HDeliver (List.length (w_flight w)) t].
    assert (PM : permits ac self [BFunctionCall (method_name c) args 0 0] = true).
    { destruct KIND as [[r ->]|[id ->]]; cbn [method_name]; apply P. }
    assert (H1 : happen_obs w (HTx pk self [BFunctionCall (method_name c) args 0 0]) =
      (mkWorld (w_contract w) (w_keys w)
         (w_flight w ++ [mkReceipt pk (mkPromise self [BFunctionCall (method_name c) args 0 0])]) (w_calls w), [])).
    { unfold MultisigAccount.happen_obs. now rewrite G, PM. }
    set (w1 := mkWorld (w_contract w) (w_keys w)
         (w_flight w ++ [mkReceipt pk (mkPromise self [BFunctionCall (method_name c) args 0 0])]) (w_calls w)) in *.
    set (w2 := mkWorld s' (w_keys w) (w_flight w ++ map (mkReceipt (e_key (event_of pk t c))) (scheduled o))
                 (w_calls w ++ [event_of pk t c])).
    assert (H2 : happen_obs w1 (HDeliver (List.length (w_flight w)) t) = (w2, [])).
    { unfold MultisigAccount.happen_obs. cbn [w1 w_flight w_contract w_keys w_calls].
      rewrite nth_error_last. cbn [rc_batch rc_key p_receiver p_actions]. rewrite String.eqb_refl, remove_last.
      cbn [MultisigAccount.apply]. rewrite D. unfold MultisigAccount.invoke.
      cbn [w_contract w_keys w_flight w_calls e_call]. unfold event_of in E. rewrite E. reflexivity. }
    split; [repeat constructor|].
    cbn [MultisigAccount.run MultisigAccount.departures]. unfold MultisigAccount.happen.
    rewrite H1. cbn [fst snd]. rewrite H2. cbn [fst snd app]. auto.
Qed.

Lemma run_app hs1 : forall w hs2, run w (hs1 ++ hs2) = run (run w hs1) hs2.
Proof. induction hs1 as [|h hs1 IH]; intros w hs2; cbn [app MultisigAccount.run]; auto. Qed.
Lemma departures_app hs1 : forall w hs2,
  departures w (hs1 ++ hs2) = (departures w hs1 ++ departures (run w hs1) hs2)%list.
Proof.
  induction hs1 as [|h hs1 IH]; intros w hs2; cbn [app MultisigAccount.run MultisigAccount.departures]; auto.
  now rewrite IH, app_assoc.
Qed.
Lemma by_keys_mono ms1 ms2 t h : incl ms1 ms2 -> by_keys ms1 t h -> by_keys ms2 t h.
Proof. intros I. destruct h; cbn; auto. Qed.

Variable t : N.
Definition act := (public_key * call)%type.
Definition ev_of (a : act) : event := event_of (fst a) t (snd a).

Lemma do_acts l : forall w,
  (forall a, In a l -> can_act self w (fst a) /\ sayable (snd a)) ->
  (forall e, In e (log self (w_contract w) (map ev_of l)) -> snd e <> None) ->
  exists hs, Forall (by_keys (map fst l) t) hs /\ departures w hs = [] /\
    exists rcs, map rc_batch rcs = executions self (w_contract w) (map ev_of l) /\
      w_flight (run w hs) = (w_flight w ++ rcs)%list /\ w_keys (run w hs) = w_keys w.
Proof.
  induction l as [|[m c] l IH]; intros w CA OUT.
  - exists []. cbn. split; [constructor|]. split; [reflexivity|]. exists []. rewrite app_nil_r. auto.
  - destruct (CA _ (or_introl eq_refl)) as [C0 K0]. cbn [fst snd] in C0, K0.
    assert (E : exists s' o, exec (ctx_of self (event_of m t c)) (w_contract w) c = Ok (s', o)).
    { specialize (OUT (ev_of (m, c), outcome self (w_contract w) (ev_of (m, c))) (or_introl eq_refl)).
      unfold outcome in OUT. cbn [snd] in OUT. unfold ev_of in OUT. cbn [fst snd] in OUT.
      change (e_call (event_of m t c)) with c in OUT.
      destruct (exec _ _ _) as [[s' o]|]; [eauto|congruence]. }
    destruct E as (s' & o & E). destruct (do_act w m t c s' o C0 K0 E) as (hs1 & B1 & D1 & R1).
    assert (ST : step self (w_contract w) (ev_of (m, c)) = s').
    { unfold step, ev_of. cbn [fst snd]. change (e_call (event_of m t c)) with c. now rewrite E. }
    destruct (IH (run w hs1)) as (hs2 & B2 & D2 & rcs & X & F & KK).
    { intros a I. rewrite R1. destruct (CA a (or_intror I)) as [CX KX]. split; [|exact KX].
      destruct a as [m' c']. exact CX. }
    { rewrite R1. cbn [w_contract]. intros e I. apply OUT. cbn [map log]. right. rewrite ST. exact I. }
    exists (hs1 ++ hs2)%list. rewrite run_app, departures_app, D1, D2. split; [|split; [reflexivity|]].
    { apply Forall_app. split; (eapply Forall_impl; [|eassumption]); intros h; apply by_keys_mono; cbn [map fst].
      - intros x [<-|[]]. now left.
      - intros x I. now right. }
    rewrite R1 in *. cbn [w_flight w_keys w_contract] in *.
    exists (map (mkReceipt (e_key (event_of m t c))) (scheduled o) ++ rcs)%list.
    rewrite map_app, map_map. cbn [rc_batch]. rewrite map_id, F, app_assoc. split; [|auto]. rewrite X.
    cbn [map]. change (ev_of (m, c) :: map ev_of l) with ([ev_of (m, c)] ++ map ev_of l)%list.
    rewrite executions_app. cbn [final]. rewrite ST. f_equal. symmetry. eapply executions_one.
    unfold ev_of. cbn [fst snd]. change (e_call (event_of m t c)) with c. exact E.
Qed.

Lemma keys_can_act k s0 ks hs r m0 cs : new false k = Ok s0 ->
  let w := run (start s0 ks) hs in
  let s := w_contract w in
  executable self r -> receiver_id r <> self ->
  (forall pk, In pk (m0 :: cs) -> can_act self w pk) ->
  NoDup cs ->
  N.of_nat (List.length cs) = N.max 1 (get_num_confirmations s) ->
  get_num_confirmations s < U32_BOUND ->
  get_num_requests_pk s m0 + 1 <= active_requests_limit s ->
  get_num_requests_pk s m0 + 1 < U32_BOUND -> get_request_nonce s + 1 < U32_BOUND ->
  (exists args, decode "add_request" args = Some (CAddRequest r)) ->
  (exists args, decode "confirm" args = Some (CConfirm (get_request_nonce s))) ->
  exists hs2, Forall (by_keys (m0 :: cs) t) hs2 /\ departures w hs2 = [asked r].
Proof.
  intros E w s X NR CA ND Q B A A32 NX RA RC.
  assert (HC : s = final self s0 (w_calls w)) by (apply run_contract; reflexivity).
  set (id := get_request_nonce s) in *.
  set (l := (m0, CAddRequest r) :: map (fun m => (m, CConfirm id)) cs : list act).
  destruct (quorum_executes_added self k s0 (w_calls w) r m0 t (map (fun m => (m, t)) cs))
    as (e0 & l0 & e & L & A0 & CE & CN); rewrite <- ?HC; auto.
  { now rewrite map_map, map_id. }
  { now rewrite map_length. }
  assert (EV : map ev_of l = mkEvent self m0 0 t (CAddRequest r) ::
      map (fun kt => mkEvent self (fst kt) 0 (snd kt) (CConfirm id)) (map (fun m => (m, t)) cs)).
  { unfold l. cbn [map]. f_equal. rewrite !map_map. reflexivity. }
  rewrite <- HC in L. fold id in L. rewrite <- EV in L.
  destruct (do_acts l w) as (hs2 & B2 & D2 & rcs & XX & F & _).
  { intros a [<-|I]; cbn [fst snd].
    - split; [apply CA; now left|split; [eauto|exact RA]].
    - apply in_map_iff in I. destruct I as (m & <- & I). cbn [fst snd]. split; [|split; [eauto|exact RC]]. apply CA. now right. }
  { change (w_contract w) with s. rewrite L. intros x I Z. assert (Y : added x <> None \/ confirmed x <> None).
    { destruct I as [<-|I]; [left; congruence|]. right. apply in_app_or in I. destruct I as [I|[<-|[]]]; [|congruence].
      rewrite (CN _ I). discriminate. }
    unfold added, confirmed in Y. rewrite Z in Y. destruct (e_call _), Y; congruence. }
  change (w_contract w) with s in XX. unfold executions in XX. rewrite L in XX. cbn [flat_map] in XX.
  assert (C0 : confirmed e0 = None).
  { assert (LE : fst e0 = mkEvent self m0 0 t (CAddRequest r)).
    { rewrite EV in L. cbn [log] in L. injection L as <- _. reflexivity. }
    unfold confirmed. rewrite LE. cbn [e_call]. destruct (snd e0) as [[]|]; reflexivity. }
  rewrite C0, flat_map_app in XX. cbn [flat_map app] in XX. rewrite CE in XX.
  assert (Z0 : flat_map (fun e => match confirmed e with Some (_, Some p) => [p] | _ => [] end) l0 = []).
  { clear L XX. induction l0 as [|x l0 IH]; auto. cbn [flat_map]. rewrite (CN x (or_introl eq_refl)). cbn [app].
    apply IH. intros e' I. apply CN. now right. }
  rewrite Z0 in XX. cbn [app] in XX. destruct rcs as [|rc [|]]; try discriminate. cbn [map] in XX. injection XX as XX.
  exists (hs2 ++ [HDeliver (List.length (w_flight w)) t])%list. split.
  { apply Forall_app. split; [|repeat constructor]. eapply Forall_impl; [|exact B2]. intros h.
    apply by_keys_mono. unfold l. cbn [map fst]. rewrite map_map. cbn [fst]. rewrite map_id. apply incl_refl. }
  rewrite departures_app, D2. cbn [app MultisigAccount.departures]. rewrite app_nil_r.
  unfold MultisigAccount.happen_obs. rewrite F, nth_error_last, XX. unfold asked at 1. cbn [p_receiver].
  apply String.eqb_neq in NR. rewrite NR. reflexivity.
Qed.
End Account.
