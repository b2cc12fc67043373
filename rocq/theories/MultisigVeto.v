(** Keys that refuse (C119). *)
From Coq Require Import NArith List Bool String Lia.
From Verif Require Import Prelude PreludeFacts MapFacts MultisigModel MultisigSpec MultisigProofs MultisigFacts.
Import ListNotations.
Open Scope N_scope.

(** The calls that confirm a request. *)
Definition confirms (m : call) : bool :=
  match m with CConfirm _ | CAddRequestAndConfirm _ => true | _ => false end.

Section Veto.
Variables (self : account_id) (A : list public_key) (k : N).
Hypothesis HA : N.of_nat (List.length A) < k.

Record vetoed (s : contract) : Prop := {
  v_ok : ok s;
  v_num : num_confirmations s = k;
  v_nodup : forall id, NoDup (old_confs s id);
  v_confs : forall id, incl (old_confs s id) A
}.

Lemma confirmed_confirms e id p : confirmed e = Some (id, p) -> confirms (e_call (fst e)) = true.
Proof. unfold confirmed, confirms. destruct (e_call (fst e)), (snd e) as [[]|]; auto; discriminate. Qed.

Lemma veto_step s ev : vetoed s -> (confirms (e_call ev) = true -> In (e_key ev) A) ->
  vetoed (step self s ev) /\ (forall id p, confirmed (ev, outcome self s ev) <> Some (id, Some p)) /\
  get_num_confirmations (step self s ev) = get_num_confirmations s /\
  active_requests_limit (step self s ev) = active_requests_limit s.
Proof.
  intros V HB. destruct (step_cases self s ev (v_ok _ V)) as [(NO & ->)|(_ & F)].
  - split; [exact V|]. rewrite NO. destruct (failed_entry ev) as (_ & C & _). rewrite C. repeat split; auto; discriminate.
  - set (e := (ev, outcome self s ev)) in *. set (s' := step self s ev) in *.
    assert (CA : forall id p, confirmed e = Some (id, p) -> In (e_key ev) A /\ NoDup (e_key ev :: old_confs s id)).
    { intros id p C. split.
      - apply HB. exact (confirmed_confirms _ _ _ C).
      - constructor; [|apply V]. now apply (f_confirmed _ _ _ _ _ F _ _ C). }
    assert (NX : forall id p, confirmed e <> Some (id, Some p)).
    { intros id p C. destruct (CA _ _ C) as (IA & ND).
      destruct (f_confirmed _ _ _ _ _ F _ _ C) as (_ & _ & r & _ & L & _).
      assert (I : incl (e_key ev :: old_confs s id) A).
      { intros x [<-|X]; [exact IA|]. now apply (v_confs _ V id). }
      pose proof (NoDup_incl_length ND I) as Q. cbn [List.length] in Q.
      rewrite (v_num _ V) in L. unfold slength in L. lia. }
    destruct (f_settings _ _ _ _ _ F NX) as (E1 & E2).
    split; [|repeat split; auto].
    constructor.
    + apply F.
    + rewrite E1. apply V.
    + intros id. unfold old_confs at 1. destruct (mget id (confirmations s')) as [cs|] eqn:G; [|constructor].
      rewrite (f_confs _ _ _ _ _ F _ _ G). unfold confs_of.
      destruct (confirmed e) as [[i p]|] eqn:C; [|rewrite app_nil_r; apply V].
      destruct (N.eqb_spec i id) as [->|]; [|rewrite app_nil_r; apply V].
      destruct (CA _ _ eq_refl) as (_ & ND). inversion ND; subst. now apply NoDup_snoc.
    + intros id. unfold old_confs at 1. destruct (mget id (confirmations s')) as [cs|] eqn:G; [|intros x []].
      rewrite (f_confs _ _ _ _ _ F _ _ G). unfold confs_of.
      destruct (confirmed e) as [[i p]|] eqn:C; [|rewrite app_nil_r; apply V].
      destruct (N.eqb_spec i id) as [->|]; [|rewrite app_nil_r; apply V].
      destruct (CA _ _ eq_refl) as (IA & _). apply incl_app; [apply V|]. intros x [<-|[]]. exact IA.
Qed.

Lemma veto_log s evs : vetoed s -> (forall ev, In ev evs -> confirms (e_call ev) = true -> In (e_key ev) A) ->
  (forall e id p, In e (log self s evs) -> confirmed e <> Some (id, Some p)) /\
  get_num_confirmations (final self s evs) = get_num_confirmations s /\
  active_requests_limit (final self s evs) = active_requests_limit s.
Proof.
  revert s. induction evs as [|ev evs IH]; intros s V HB.
  - cbn. repeat split; auto.
  - cbn [log final]. destruct (veto_step s ev V) as (V1 & NX & E1 & E2); [now apply HB; left|].
    destruct (IH _ V1) as (B & M1 & M2).
    { intros ev1 I. apply HB. now right. }
    split; [|split; congruence]. intros e id p [<-|I]; [apply NX|now apply B].
Qed.
End Veto.

Lemma veto self k s0 evs evs' A : new false k = Ok s0 ->
  let s := final self s0 evs in
  N.of_nat (List.length A) < get_num_confirmations s ->
  (forall id pk, In id (list_request_ids s) -> In pk (confirmers (log self s0 evs) id) -> In pk A) ->
  (forall ev, In ev evs' -> confirms (e_call ev) = true -> In (e_key ev) A) ->
  (forall e id p, In e (log self s evs') -> confirmed e <> Some (id, Some p)) /\
  get_num_confirmations (final self s evs') = get_num_confirmations s /\
  active_requests_limit (final self s evs') = active_requests_limit s.
Proof.
  intros E s HN HC HE. pose proof (log_inv self _ _ evs E) as H. fold s in H.
  apply (veto_log self A (num_confirmations s) HN); [|exact HE].
  constructor; [apply H|reflexivity| |].
  - intros id. unfold old_confs. destruct (mget id (confirmations s)) as [cs|] eqn:G; [|constructor].
    now apply (h_confs _ _ _ H) in G.
  - intros id. unfold old_confs. destruct (mget id (confirmations s)) as [cs|] eqn:G; [|intros x []].
    destruct (h_confs _ _ _ H _ _ G) as (-> & _). intros x X. apply (HC id); auto.
    assert (M : mmem id (requests s) = true) by (rewrite (ok_same _ (h_ok _ _ _ H)); apply mmem_mget; eauto).
    now apply in_mkeys_mmem.
Qed.
