(** Members who refuse (C119). *)
From Coq Require Import NArith List Bool String Lia.
From Verif Require Import Prelude PreludeFacts MapFacts Multisig2Model Multisig2Spec Multisig2Proofs Multisig2Facts.
Import ListNotations.
Open Scope N_scope.

(** The calls that confirm a request. *)
Definition confirms (m : call) : bool :=
  match m with CConfirm _ | CAddRequestAndConfirm _ => true | _ => false end.

Lemma disjoint_app {X} (l r : list X) : NoDup l -> NoDup r -> (forall x, In x l -> ~ In x r) -> NoDup (l ++ r)%list.
Proof.
  intros NL NR D. induction NL as [|x l NI ND IH]; [exact NR|]. cbn. constructor.
  - rewrite in_app_iff. intros [I|I]; [auto|]. apply (D x); [now left|exact I].
  - apply IH. intros y I. apply D. now right.
Qed.

Section Veto.
Variables (self : account_id) (A : list member) (k : N).
Hypothesis HA : N.of_nat (List.length A) < k.

Record vetoed (s : contract) : Prop := {
  v_ok : ok s;
  v_num : num_confirmations s = k;
  v_nodup : forall id, NoDup (old_confs s id);
  v_confs : forall id, incl (old_confs s id) (map text A)
}.

Lemma confirmed_confirms e id p : confirmed e = Some (id, p) -> confirms (e_call (l_event e)) = true.
Proof. unfold confirmed, confirms. destruct (e_call (l_event e)), (l_output e) as [[]|]; auto; discriminate. Qed.

Lemma veto_step s ev : vetoed s ->
  (confirms (e_call ev) = true -> In (caller self ev) (get_members s) -> In (caller self ev) A) ->
  vetoed (step self s ev) /\ (forall id p, confirmed (entry_of self s ev) <> Some (id, Some p)) /\
  get_members (step self s ev) = get_members s /\
  get_num_confirmations (step self s ev) = get_num_confirmations s /\
  active_requests_limit (step self s ev) = active_requests_limit s.
Proof.
  intros V HB. destruct (step_cases self s ev (v_ok _ V)) as [(NO & ->)|(_ & F)].
  - split; [exact V|]. destruct (failed_entry self s ev NO) as (_ & C & _). rewrite C. repeat split; auto; discriminate.
  - set (e := entry_of self s ev) in *. set (s' := step self s ev) in *.
    assert (CA : forall id p, confirmed e = Some (id, p) ->
      In (caller self ev) A /\ NoDup (text (caller self ev) :: old_confs s id)).
    { intros id p C. split.
      - apply HB; [exact (confirmed_confirms _ _ _ C)|]. apply (f_caller _ _ _ _ _ F).
      - constructor; [|apply V]. now apply (f_confirmed _ _ _ _ _ F _ _ C). }
    assert (NX : forall id p, confirmed e <> Some (id, Some p)).
    { intros id p C. destruct (CA _ _ C) as (IA & ND).
      destruct (f_confirmed _ _ _ _ _ F _ _ C) as (_ & _ & r & _ & L & _).
      assert (I : incl (text (caller self ev) :: old_confs s id) (map text A)).
      { intros x [<-|X]; [now apply in_map|]. now apply (v_confs _ V id). }
      pose proof (NoDup_incl_length ND I) as Q. rewrite map_length in Q. cbn [List.length] in Q.
      rewrite (v_num _ V) in L. unfold slength in L. lia. }
    destruct (f_settings _ _ _ _ _ F NX) as (E1 & E2 & E3).
    split; [|repeat split; auto].
    constructor.
    + apply F.
    + rewrite E1. apply V.
    + intros id. unfold old_confs at 1. destruct (mget id (confirmations s')) as [cs|] eqn:G; [|constructor].
      rewrite (f_confs _ _ _ _ _ F _ _ G). unfold confs_of.
      destruct (confirmed e) as [[i p]|] eqn:C; [|cbn; rewrite app_nil_r; apply V].
      destruct (N.eqb_spec i id) as [->|]; [|cbn; rewrite app_nil_r; apply V].
      destruct (CA _ _ eq_refl) as (_ & ND). cbn [map]. rewrite (proj1 (f_caller _ _ _ _ _ F)).
      inversion ND; subst. now apply NoDup_snoc.
    + intros id. unfold old_confs at 1. destruct (mget id (confirmations s')) as [cs|] eqn:G; [|intros x []].
      rewrite (f_confs _ _ _ _ _ F _ _ G). unfold confs_of.
      destruct (confirmed e) as [[i p]|] eqn:C; [|cbn; rewrite app_nil_r; apply V].
      destruct (N.eqb_spec i id) as [->|]; [|cbn; rewrite app_nil_r; apply V].
      destruct (CA _ _ eq_refl) as (IA & _). apply incl_app; [apply V|]. cbn [map].
      rewrite (proj1 (f_caller _ _ _ _ _ F)). intros x [<-|[]]. now apply in_map.
Qed.

Lemma veto_log s evs : vetoed s ->
  (forall ev, In ev evs -> confirms (e_call ev) = true -> In (caller self ev) (get_members s) -> In (caller self ev) A) ->
  (forall e id p, In e (log self s evs) -> confirmed e <> Some (id, Some p)) /\
  get_members (final self s evs) = get_members s /\
  get_num_confirmations (final self s evs) = get_num_confirmations s /\
  active_requests_limit (final self s evs) = active_requests_limit s.
Proof.
  revert s. induction evs as [|ev evs IH]; intros s V HB.
  - cbn. repeat split; auto.
  - cbn [log final]. destruct (veto_step s ev V) as (V1 & NX & E1 & E2 & E3); [now apply HB; left|].
    destruct (IH _ V1) as (B & M1 & M2 & M3).
    { intros ev1 I. rewrite E1. apply HB. now right. }
    split; [|repeat split; congruence]. intros e id p [<-|I]; [apply NX|now apply B].
Qed.
End Veto.

Lemma veto self ms k p0 s0 evs evs' B : new self false ms k = Ok (s0, p0) ->
  let s := final self s0 evs in
  NoDup B -> incl B (get_members s) ->
  N.of_nat (List.length (get_members s)) < get_num_confirmations s + N.of_nat (List.length B) ->
  (forall id m, In id (list_request_ids s) -> In m (confirmers (log self s0 evs) id) ->
     In m (get_members s) /\ ~ In m B) ->
  (forall ev, In ev evs' -> In (caller self ev) B -> confirms (e_call ev) = false) ->
  (forall e id p, In e (log self s evs') -> confirmed e <> Some (id, Some p)) /\
  get_members (final self s evs') = get_members s /\
  get_num_confirmations (final self s evs') = get_num_confirmations s /\
  active_requests_limit (final self s evs') = active_requests_limit s.
Proof.
  intros E s NB IB HN HC HE. pose proof (log_inv self _ _ _ _ evs E) as H. fold s in H.
  set (A := filter (fun m => negb (if in_dec (fun a b => reflect_dec _ _ (member_eqb_spec a b)) m B then true else false)) (get_members s)).
  assert (AI : forall m, In m A <-> In m (get_members s) /\ ~ In m B).
  { intros m. unfold A. rewrite filter_In. destruct (in_dec _ m B); cbn; intuition. }
  assert (LA : N.of_nat (List.length A) < get_num_confirmations s).
  { enough (List.length (A ++ B) <= List.length (get_members s))%nat by (rewrite app_length in *; lia).
    apply NoDup_incl_length.
    - assert (NA : NoDup A) by (apply NoDup_filter, (ok_mem _ (h_ok _ _ H))).
      apply disjoint_app; auto. intros m I. now apply AI.
    - apply incl_app; [|exact IB]. intros m I. now apply AI in I. }
  apply (veto_log self A (num_confirmations s) LA).
  - constructor; [apply H|reflexivity| |].
    + intros id. unfold old_confs. destruct (mget id (confirmations s)) as [cs|] eqn:G; [|constructor].
      now apply (h_confs _ _ H) in G.
    + intros id. unfold old_confs. destruct (mget id (confirmations s)) as [cs|] eqn:G; [|intros x []].
      destruct (h_confs _ _ H _ _ G) as (-> & _). intros x X. apply in_map_iff in X. destruct X as (m & <- & I).
      apply in_map. apply AI. apply (HC id); auto.
      assert (M : mmem id (requests s) = true) by (rewrite (ok_same _ (h_ok _ _ H)); apply mmem_mget; eauto).
      now apply in_mkeys_mmem.
  - intros ev I C M. apply AI. split; auto. intros X. rewrite (HE ev I X) in C. discriminate.
Qed.
