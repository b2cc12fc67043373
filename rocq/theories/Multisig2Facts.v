(** The properties of the second multisig contract over whole histories. *)
From Coq Require Import NArith List Bool String Lia Permutation.
From Verif Require Import Prelude PreludeFacts MapFacts Json Multisig2Model Multisig2Spec Multisig2Proofs.
Import ListNotations.
Open Scope N_scope.

Section Self.
Context (self : account_id).

Lemma final_app evs1 evs2 : forall s, final self s (evs1 ++ evs2) = final self (final self s evs1) evs2.
Proof. induction evs1 as [|e l IH]; cbn [app final]; auto. Qed.
Lemma log_app evs1 evs2 : forall s,
  log self s (evs1 ++ evs2) = (log self s evs1 ++ log self (final self s evs1) evs2)%list.
Proof. induction evs1 as [|e l IH]; cbn [app final log]; intros s; auto. now rewrite IH. Qed.

Lemma step_cases s ev : ok s ->
  (outcome self s ev = None /\ step self s ev = s) \/
  (outcome self s ev <> None /\ effect self s ev (step self s ev) (entry_of self s ev)).
Proof.
  intros O. unfold outcome, step. destruct (exec (ctx_of self ev) s (e_call ev)) as [[s' o]|] eqn:E; auto.
  right. split; [discriminate|]. unfold entry_of, get_members, outcome. rewrite E. now apply exec_effect.
Qed.

Record linv (s : contract) (l : list entry) : Prop := {
  h_ok : ok s;
  h_granted : granted l = map N.of_nat (seq 0 (N.to_nat (request_nonce s)));
  h_added : forall id rs, mget id (requests s) = Some rs ->
    exists l1 e0 l2, l = (l1 ++ e0 :: l2)%list /\ added e0 = Some (id, the_request rs) /\
      l_caller e0 = the_member rs /\ e_time (l_event e0) = added_timestamp rs /\ confirmers l1 id = [];
  h_confs : forall id cs, mget id (confirmations s) = Some cs -> cs = map text (confirmers l id) /\ NoDup cs;
  h_conf_lt : forall id, request_nonce s <= id -> confirmers l id = [];
  h_fin : forall id, In id (finished l) -> id < request_nonce s /\ mget id (requests s) = None;
  h_fin_nodup : NoDup (finished l);
  h_pred : forall e, In e l -> l_output e <> None -> In (l_caller e) (l_members e)
}.

Lemma confirmers_app l1 l2 id : confirmers (l1 ++ l2) id = (confirmers l1 id ++ confirmers l2 id)%list.
Proof. apply flat_map_app. Qed.
Lemma confirmers_one e id : confirmers [e] id = confs_of e id.
Proof. unfold confirmers, confs_of. cbn [flat_map]. apply app_nil_r. Qed.
Lemma granted_app l1 l2 : granted (l1 ++ l2) = (granted l1 ++ granted l2)%list.
Proof. apply flat_map_app. Qed.
Lemma finished_app l1 l2 : finished (l1 ++ l2) = (finished l1 ++ finished l2)%list.
Proof. apply flat_map_app. Qed.

Lemma failed_entry s ev : outcome self s ev = None -> let e := entry_of self s ev in
  added e = None /\ confirmed e = None /\ deleted e = None.
Proof. unfold added, confirmed, deleted. cbn. intros ->. now destruct (e_call ev). Qed.

Lemma NoDup_map_text l : NoDup (map text l) -> NoDup l.
Proof. apply NoDup_map_inv. Qed.
Lemma in_map_text m l : In (text m) (map text l) -> In m l.
Proof. intros I. apply in_map_iff in I. destruct I as (x & E & I). apply text_inj in E. now subst. Qed.

Lemma NoDup_snoc {A} (l : list A) x : NoDup l -> ~ In x l -> NoDup (l ++ [x])%list.
Proof.
  intros ND NI. apply (Permutation_NoDup (l := x :: l)); [|now constructor].
  apply Permutation_cons_append.
Qed.

(** The confirmations seen by the call are those of the log. *)
Lemma old_confs_log s l ev e id p : linv s l -> effect self s ev (step self s ev) e ->
  confirmed e = Some (id, p) -> old_confs s id = map text (confirmers l id) /\ NoDup (confirmers l id).
Proof.
  intros H F C. pose proof (f_confirmed _ _ _ _ _ F _ _ C) as (_ & _ & r & R & _).
  destruct R as [(rs & G & _)|A].
  - pose proof (ok_same _ (h_ok _ _ H) id) as SM. unfold mmem in SM. rewrite G in SM.
    destruct (mget id (confirmations s)) as [cs|] eqn:GC; [|discriminate].
    destruct (h_confs _ _ H _ _ GC) as [-> ND]. unfold old_confs. rewrite GC. split; auto. now apply NoDup_map_text.
  - pose proof (f_nonce _ _ _ _ _ F) as FN. rewrite A in FN. destruct FN as [-> _].
    destruct (old_confs_fresh s (h_ok _ _ H)) as [-> _].
    rewrite (h_conf_lt _ _ H) by lia. split; [auto|constructor].
Qed.

Lemma log_step s l ev : linv s l -> linv (step self s ev) (l ++ [(entry_of self s ev)]).
Proof.
  intros H. destruct (step_cases s ev (h_ok _ _ H)) as [[FE ->]|[OK F]].
  - destruct (failed_entry s ev FE) as (FA & FC & FD). set (e := entry_of self s ev) in *.
    destruct H as [O GR AD CO LT FI FN PR]. split; auto.
    + rewrite granted_app. cbn [granted flat_map]. rewrite FA. cbn. now rewrite app_nil_r.
    + intros id rs G. destruct (AD _ _ G) as (l1 & e0 & l2 & -> & X).
      exists l1, e0, (l2 ++ [e])%list. rewrite <- app_assoc. auto.
    + intros id cs G. destruct (CO _ _ G) as [-> ND]. split; auto.
      rewrite confirmers_app, confirmers_one. unfold confs_of. rewrite FC. now rewrite app_nil_r.
    + intros id L. rewrite confirmers_app, confirmers_one. unfold confs_of. rewrite FC, LT; auto.
    + intros id. rewrite finished_app. cbn [finished flat_map]. rewrite FC, FD. cbn. rewrite app_nil_r. apply FI.
    + rewrite finished_app. cbn [finished flat_map]. rewrite FC, FD. cbn. now rewrite app_nil_r.
    + intros x I. apply in_app_or in I. destruct I as [I|[<-|[]]]; auto. unfold e. cbn. congruence.
  - set (e := entry_of self s ev) in *. set (s' := step self s ev) in *.
    assert (NN : request_nonce s <= request_nonce s').
    { pose proof (f_nonce _ _ _ _ _ F) as X. destruct (added e) as [[]|]; lia. }
    assert (LTC : forall id, request_nonce s' <= id -> confs_of e id = []).
    { intros id L. unfold confs_of. destruct (confirmed e) as [[i p]|] eqn:C; auto.
      apply (f_confirmed _ _ _ _ _ F) in C. destruct C as [C _].
      destruct (N.eqb_spec i id); auto. lia. }
    pose proof (fun id p => old_confs_log s l ev e id p H F) as OCL.
    assert (FE : finished [e] = match confirmed e with
                     | Some (id, Some _) => [id]
                     | _ => match deleted e with Some id => [id] | None => [] end
                     end).
    { unfold finished. cbn [flat_map]. apply app_nil_r. }
    assert (FIN : forall id, In id (finished [e]) ->
      id < request_nonce s' /\ mget id (requests s') = None /\ ~ In id (finished l)).
    { intros id. rewrite FE. intros I.
      assert (D : deleted e = Some id -> id < request_nonce s' /\ mget id (requests s') = None /\ ~ In id (finished l)).
      { intros D. apply (f_deleted _ _ _ _ _ F) in D. destruct D as (G & rs & G0 & _).
        split; [|split; auto].
        - assert (id < request_nonce s); [|lia]. apply (ok_nonce _ (h_ok _ _ H)). apply mmem_mget. eauto.
        - intros J. apply (h_fin _ _ H) in J. destruct J. congruence. }
      destruct (confirmed e) as [[i [pr|]]|] eqn:C.
      - destruct I as [<-|[]]. apply (f_confirmed _ _ _ _ _ F) in C.
        destruct C as (L & _ & r & R & _ & G & _). split; auto. split; auto.
        intros J. apply (h_fin _ _ H) in J. destruct J as [J1 J2]. destruct R as [(rs & R & _)|A]; [congruence|].
        pose proof (f_nonce _ _ _ _ _ F) as X. rewrite A in X. lia.
      - destruct (deleted e); [|contradiction]. destruct I as [<-|[]]. auto.
      - destruct (deleted e); [|contradiction]. destruct I as [<-|[]]. auto. }
    split.
    + apply F.
    + rewrite granted_app, (h_granted _ _ H). unfold granted at 1. cbn [flat_map].
      pose proof (f_nonce _ _ _ _ _ F) as X. destruct (added e) as [[i r]|]; cbn [app].
      * destruct X as [-> ->]. replace (N.to_nat (request_nonce s + 1)) with (S (N.to_nat (request_nonce s))) by lia.
        rewrite seq_S, map_app. cbn [map plus]. now rewrite N2Nat.id.
      * rewrite X. now rewrite app_nil_r.
    + intros id rs G. apply (f_requests _ _ _ _ _ F) in G. destruct G as [G|(A & K & T)].
      * destruct (h_added _ _ H _ _ G) as (l1 & e0 & l2 & -> & X).
        exists l1, e0, (l2 ++ [e])%list. rewrite <- app_assoc. auto.
      * exists l, e, []. repeat split; auto. apply (h_conf_lt _ _ H).
        pose proof (f_nonce _ _ _ _ _ F) as X. rewrite A in X. lia.
    + intros id cs G. pose proof (f_confs _ _ _ _ _ F _ _ G) as ->.
      rewrite confirmers_app, confirmers_one.
      assert (OC : old_confs s id = map text (confirmers l id) /\ NoDup (confirmers l id)).
      { destruct (mget id (confirmations s)) as [cs|] eqn:GC.
        - destruct (h_confs _ _ H _ _ GC) as [-> ND]. unfold old_confs. rewrite GC. split; auto. now apply NoDup_map_text.
        - unfold old_confs. rewrite GC. rewrite (h_conf_lt _ _ H); [split; [auto|constructor]|].
          destruct (N.le_gt_cases (request_nonce s) id) as [|L]; auto. exfalso.
          assert (M : mmem id (requests s') = true).
          { rewrite (ok_same _ (f_ok _ _ _ _ _ F)). apply mmem_mget. eauto. }
          apply mmem_mget in M. destruct M as [rs M]. apply (f_requests _ _ _ _ _ F) in M.
          destruct M as [M|[A _]].
          + pose proof (ok_same _ (h_ok _ _ H) id) as SM. unfold mmem in SM. now rewrite M, GC in SM.
          + pose proof (f_nonce _ _ _ _ _ F) as X. rewrite A in X. lia. }
      destruct OC as [-> ND]. rewrite <- map_app. split; [auto|].
      apply FinFun.Injective_map_NoDup; [intros ? ?; apply text_inj|]. unfold confs_of.
      destruct (confirmed e) as [[i p]|] eqn:C; [|now rewrite app_nil_r].
      destruct (N.eqb_spec i id) as [->|]; [|now rewrite app_nil_r].
      apply NoDup_snoc; auto. destruct (OCL _ _ eq_refl) as [OC _].
      apply (f_confirmed _ _ _ _ _ F) in C. destruct C as (_ & NI & _). rewrite OC in NI.
      intros J. apply NI. now apply in_map.
    + intros id L. rewrite confirmers_app, confirmers_one, LTC by auto. rewrite (h_conf_lt _ _ H); auto. lia.
    + intros id. rewrite finished_app. intros I. apply in_app_or in I. destruct I as [I|I].
      * apply (h_fin _ _ H) in I. destruct I as [L G]. split; [lia|].
        destruct (mget id (requests s')) eqn:G'; auto. apply (f_requests _ _ _ _ _ F) in G'.
        destruct G' as [G'|[A _]]; [congruence|].
        pose proof (f_nonce _ _ _ _ _ F) as X. rewrite A in X. lia.
      * apply FIN in I. tauto.
    + rewrite finished_app. assert (S : finished [e] = [] \/ exists i, finished [e] = [i]).
      { rewrite FE. destruct (confirmed e) as [[i [pr|]]|]; eauto; destruct (deleted e); eauto. }
      destruct S as [S|[i S]]; rewrite S; [rewrite app_nil_r; apply H|].
      apply NoDup_snoc; [apply H|]. apply FIN. rewrite S. now left.
    + intros x I. apply in_app_or in I. destruct I as [I|[<-|[]]]; [now apply (h_pred _ _ H)|].
      intros _. apply (f_caller _ _ _ _ _ F).
Qed.

Lemma log_inv ms k p0 s0 evs : new self false ms k = Ok (s0, p0) -> linv (final self s0 evs) (log self s0 evs).
Proof.
  intros E. induction evs as [|ev evs IH] using rev_ind.
  - cbn. pose proof (new_ok _ _ _ _ _ E) as O. apply new_spec in E. destruct E as (-> & _ & _). split; cbn; auto; try discriminate; try contradiction.
    constructor.
  - rewrite final_app, log_app. cbn [final log]. now apply log_step.
Qed.

(** * C29 *)
Lemma execution_needs_quorum ms k p0 s0 evs ev id p :
  new self false ms k = Ok (s0, p0) ->
  let s := final self s0 evs in
  confirmed (entry_of self s ev) = Some (id, Some p) ->
  exists l1 e0 l2 r,
    log self s0 (evs ++ [ev]) = (l1 ++ e0 :: l2)%list /\
    added e0 = Some (id, r) /\ p = asked self r /\
    confirmers l1 id = [] /\
    NoDup (confirmers (e0 :: l2) id) /\
    In (caller self ev) (confirmers (e0 :: l2) id) /\
    get_num_confirmations s <= N.of_nat (List.length (confirmers (e0 :: l2) id)) /\
    forall e, In e (e0 :: l2) -> confirmed e <> None -> In (l_caller e) (l_members e).
Proof.
  intros E s C. pose proof (log_inv _ _ _ _ evs E) as H. fold s in H. set (l := log self s0 evs) in *.
  destruct (step_cases s ev (h_ok _ _ H)) as [[X _]|[_ F]].
  { destruct (failed_entry s ev X) as (_ & Y & _). congruence. }
  destruct (old_confs_log _ _ _ _ _ _ H F C) as [OC ND].
  pose proof (f_confirmed _ _ _ _ _ F _ _ C) as (_ & NI & r & R & L & _ & s1 & X & _).
  rewrite OC in *.
  assert (LOG : log self s0 (evs ++ [ev]) = (l ++ [(entry_of self s ev)])%list).
  { rewrite log_app. reflexivity. }
  assert (CF : confirmers (l ++ [(entry_of self s ev)]) id = (confirmers l id ++ [caller self ev])%list).
  { rewrite confirmers_app, confirmers_one. unfold confs_of. rewrite C, N.eqb_refl. reflexivity. }
  assert (SPLIT : exists l1 e0 l2, (l ++ [(entry_of self s ev)])%list = (l1 ++ e0 :: l2)%list /\
    added e0 = Some (id, r) /\ confirmers l1 id = []).
  { destruct R as [(rs & G & ->)|A].
    - destruct (h_added _ _ H _ _ G) as (l1 & e0 & l2 & LL & A & _ & _ & Z).
      exists l1, e0, (l2 ++ [(entry_of self s ev)])%list. rewrite LL, <- app_assoc. auto.
    - exists l, (entry_of self s ev), []%list. repeat split; auto. apply (h_conf_lt _ _ H).
      pose proof (f_nonce _ _ _ _ _ F) as Y. rewrite A in Y. lia. }
  destruct SPLIT as (l1 & e0 & l2 & S & A & Z). exists l1, e0, l2, r.
  assert (CC : confirmers (e0 :: l2) id = (confirmers l id ++ [caller self ev])%list).
  { rewrite S, confirmers_app, Z in CF. exact CF. }
  rewrite CC. split; [congruence|]. split; [auto|]. split; [apply X|]. split; [auto|].
  assert (NI' : ~ In (caller self ev) (confirmers l id)) by (intros J; apply NI; now apply in_map).
  split; [now apply NoDup_snoc|]. split; [apply in_or_app; right; now left|].
  split.
  - unfold get_num_confirmations. rewrite app_length. cbn [List.length]. unfold slength in L.
    rewrite map_length in L. lia.
  - intros e I CE. assert (I' : In e (l ++ [entry_of self s ev])%list).
    { rewrite S. apply in_or_app. now right. }
    pose proof (h_pred _ _ (log_step s l ev H)) as HP. apply HP; auto.
    intros O. apply CE. unfold confirmed. rewrite O. now destruct (e_call (l_event e)).
Qed.

Lemma recorded_below_quorum ms k p0 s0 evs ev id :
  new self false ms k = Ok (s0, p0) ->
  let s := final self s0 evs in
  confirmed (entry_of self s ev) = Some (id, None) ->
  N.of_nat (List.length (confirmers (log self s0 evs) id)) < U32_BOUND ->
  N.of_nat (List.length (confirmers (log self s0 (evs ++ [ev])) id)) < get_num_confirmations s.
Proof.
  intros E s C B. pose proof (log_inv _ _ _ _ evs E) as H. fold s in H.
  destruct (step_cases s ev (h_ok _ _ H)) as [[X _]|[_ F]].
  { destruct (failed_entry s ev X) as (_ & Y & _). congruence. }
  destruct (old_confs_log _ _ _ _ _ _ H F C) as [OC ND].
  pose proof (f_confirmed _ _ _ _ _ F _ _ C) as (_ & _ & r & _ & L & _).
  rewrite OC in L. unfold slength in L. rewrite map_length, N.mod_small in L by auto.
  rewrite log_app, confirmers_app. cbn [log]. fold s. rewrite confirmers_one. unfold confs_of. rewrite C, N.eqb_refl.
  rewrite app_length. cbn [List.length]. unfold get_num_confirmations. lia.
Qed.

(** * C30 *)
Lemma ids_in_order ms k p0 s0 evs : new self false ms k = Ok (s0, p0) ->
  granted (log self s0 evs) =
  map N.of_nat (seq 0 (N.to_nat (get_request_nonce (final self s0 evs)))).
Proof. intros E. apply (h_granted _ _ (log_inv _ _ _ _ evs E)). Qed.

Lemma finished_once ms k p0 s0 evs : new self false ms k = Ok (s0, p0) ->
  NoDup (finished (log self s0 evs)) /\
  forall id, In id (finished (log self s0 evs)) ->
    ~ In id (list_request_ids (final self s0 evs)) /\
    is_ok (get_request (final self s0 evs) id) = false /\
    forall ev, e_call ev = CConfirm id \/ e_call ev = CDeleteRequest id ->
      outcome self (final self s0 evs) ev = None.
Proof.
  intros E. pose proof (log_inv _ _ _ _ evs E) as H. split; [apply H|].
  intros id I. apply (h_fin _ _ H) in I. destruct I as [L G].
  split. { intros J. apply in_mkeys in J. destruct J. congruence. }
  unfold get_request. rewrite G. split; [reflexivity|].
  intros ev C. unfold outcome, exec, confirm, delete_request, assert_valid_request, mmem.
  destruct C as [C|C]; rewrite C, G; destruct (_ =? _); cbn [require bind]; auto; destruct (current_member _ _); auto.
Qed.

(** * C31 *)
Lemma NoDup_granted ms k p0 s0 evs : new self false ms k = Ok (s0, p0) -> NoDup (granted (log self s0 evs)).
Proof.
  intros E. rewrite (ids_in_order _ _ _ _ _ E). apply FinFun.Injective_map_NoDup.
  - intros a b. apply Nat2N.inj.
  - apply seq_NoDup.
Qed.

Lemma granted_unique l e1 e2 id r1 r2 : NoDup (granted l) -> In e1 l -> In e2 l ->
  added e1 = Some (id, r1) -> added e2 = Some (id, r2) -> e1 = e2.
Proof.
  intros ND I1 I2 A1 A2. induction l as [|e l IH]; [contradiction|].
  assert (IG : forall e r, In e l -> added e = Some (id, r) -> In id (granted l)).
  { intros x q J AX. unfold granted. apply in_flat_map. exists x. split; auto. rewrite AX. now left. }
  change (granted (e :: l)) with
    ((match added e with Some (i, _) => [i] | None => [] end) ++ granted l)%list in ND.
  destruct I1 as [->|I1], I2 as [->|I2]; auto.
  - exfalso. rewrite A1 in ND. cbn [app] in ND. inversion ND; subst. eauto.
  - exfalso. rewrite A2 in ND. cbn [app] in ND. inversion ND; subst. eauto.
  - apply IH; auto. destruct (added e) as [[]|]; cbn [app] in ND; [now inversion ND|auto].
Qed.

Lemma creator_split l1 e0 l2 id r : added e0 = Some (id, r) -> NoDup (granted (l1 ++ e0 :: l2)) ->
  creator (l1 ++ e0 :: l2) id = Some (l_caller e0).
Proof.
  intros A. induction l1 as [|e l1 IH]; cbn [app creator]; intros ND.
  - rewrite A. now rewrite N.eqb_refl.
  - change (granted (e :: l1 ++ e0 :: l2)) with
      ((match added e with Some (i, _) => [i] | None => [] end) ++ granted (l1 ++ e0 :: l2))%list in ND.
    destruct (added e) as [[i q]|]; cbn [app] in ND; auto.
    inversion ND as [|? ? NI ND']; subst. destruct (N.eqb_spec i id) as [->|]; auto.
    exfalso. apply NI. rewrite granted_app. apply in_or_app. right.
    unfold granted. cbn [flat_map]. rewrite A. now left.
Qed.

Lemma creator_of_active ms k p0 s0 evs id rs : new self false ms k = Ok (s0, p0) ->
  mget id (requests (final self s0 evs)) = Some rs ->
  creator (log self s0 evs) id = Some (the_member rs).
Proof.
  intros E G. pose proof (NoDup_granted _ _ _ _ evs E) as ND.
  destruct (h_added _ _ (log_inv _ _ _ _ evs E) _ _ G) as (l1 & e0 & l2 & L & A & K & _).
  rewrite L in *. rewrite (creator_split _ _ _ _ _ A ND). congruence.
Qed.

Lemma counters_exact ms k p0 s0 evs m : new self false ms k = Ok (s0, p0) ->
  get_num_requests_per_member (final self s0 evs) m =
  N.of_nat (List.length (filter (fun id => match creator (log self s0 evs) id with
                                      | Some m' => member_eqb m' m
                                      | None => false end)
                           (list_request_ids (final self s0 evs)))).
Proof.
  intros E. pose proof (log_inv _ _ _ _ evs E) as H. unfold get_num_requests_per_member, list_request_ids.
  rewrite (ok_cnt _ (h_ok _ _ H)).
  pose proof (fun id rs => creator_of_active ms k p0 s0 evs id rs E) as CR.
  pose proof (ok_req _ (h_ok _ _ H)) as ND.
  set (q := requests (final self s0 evs)) in *. clearbody q. set (l := log self s0 evs) in *. clearbody l.
  clear H E. unfold cnt. induction q as [|[i rs] q IH]; [reflexivity|].
  cbn [mkeys map fst] in *. inversion ND as [|? ? NI ND']; subst.
  assert (CI : creator l i = Some (the_member rs)).
  { apply CR. cbn [mget]. now rewrite keqb_refl. }
  unfold mkeys. cbn [map fst filter]. rewrite CI. unfold msum in *. cbn [fold_right snd].
  rewrite IH; auto.
  - unfold mkeys. destruct (member_eqb (the_member rs) m); cbn [List.length]; lia.
  - intros id r G. apply CR. cbn [mget]. rewrite keqb_neq; auto.
    intros ->. apply NI. apply in_mkeys. eauto.
Qed.

Lemma current_member_caller s ev :
  current_member (ctx_of self ev) s = if smem (caller self ev) (members s) then Some (caller self ev) else None.
Proof.
  unfold current_member, caller. cbn [ctx_of ctx_current ctx_predecessor ctx_signer_pk].
  now rewrite (String.eqb_sym self).
Qed.

Lemma add_accepted_iff s ev r : e_call ev = CAddRequest r ->
  (outcome self s ev <> None <->
   In (caller self ev) (get_members s) /\ e_attached ev = 0 /\
   get_num_requests_per_member s (caller self ev) + 1 <= active_requests_limit s /\
   get_num_requests_per_member s (caller self ev) + 1 < U32_BOUND /\ get_request_nonce s + 1 < U32_BOUND).
Proof.
  intros C. unfold outcome, exec, add_request, get_num_requests_per_member, get_request_nonce, get_members.
  rewrite C, current_member_caller, <- smem_in.
  cbn [ctx_of ctx_attached ctx_current ctx_predecessor ctx_signer_pk ctx_timestamp].
  unfold require, add32, add_chk, fits.
  destruct (N.eqb_spec (e_attached ev) 0) as [ATT|ATT]; cbn [bind]; [|split; [congruence|tauto]].
  destruct (smem (caller self ev) (members s)); cbn [expect bind]; [|split; [congruence|intros (? & _); congruence]].
  set (m := caller self ev).
  destruct (N.ltb_spec (num_requests_of s m + 1) U32_BOUND); cbn [bind]; [|split; [congruence|lia]].
  destruct (N.leb_spec (num_requests_of s m + 1) (active_requests_limit s)); cbn [bind]; [|split; [congruence|lia]].
  destruct (N.ltb_spec (request_nonce s + 1) U32_BOUND); cbn [bind]; [|split; [congruence|lia]].
  split; [auto|discriminate].
Qed.

(** * C32 *)
Lemma requests_and_confirmations ms k p0 s0 evs id : new self false ms k = Ok (s0, p0) ->
  (In id (list_request_ids (final self s0 evs)) <->
   get_confirmations (final self s0 evs) id = Ok (map text (confirmers (log self s0 evs) id))).
Proof.
  intros E. pose proof (log_inv _ _ _ _ evs E) as H. unfold list_request_ids, get_confirmations.
  rewrite in_mkeys_mmem, (ok_same _ (h_ok _ _ H)). unfold mmem.
  destruct (mget id (confirmations (final self s0 evs))) eqn:G; cbn [expect]; [|split; discriminate].
  apply (h_confs _ _ H) in G. destruct G as [-> _]. tauto.
Qed.

Ltac not_internal := let I := fresh in intros I; cbn in I; intuition discriminate.

Lemma execute_actions_panic c rcv n l : forall s acc m, execute_actions c rcv n l s acc = Panic m -> ~ internal_error m.
Proof.
  induction l as [|a l IH]; cbn [execute_actions]; intros s acc m E; [discriminate|].
  destruct a; try solve [eapply IH; eauto]; unfold assert_one_action_only, assert_self_request, require in E;
    (destruct (String.eqb rcv (ctx_current c)); cbn [bind] in E; [|injection E as <-; not_internal]).
  - unfold add_member in E. eapply IH; eauto.
  - unfold delete_member, sub_chk, require in E. destruct (1 <=? _); cbn [bind] in E; [|injection E as <-; not_internal].
    destruct (_ <=? _); cbn [bind] in E; [eapply IH; eauto|injection E as <-; not_internal].
  - destruct perm; eapply IH; eauto.
  - destruct (Nat.eqb n 1); cbn [bind] in E; [discriminate|injection E as <-; not_internal].
  - destruct (Nat.eqb n 1); cbn [bind] in E; [discriminate|injection E as <-; not_internal].
Qed.

Lemma execute_panic_not_internal c s r m : execute_request c s r = Panic m -> ~ internal_error m.
Proof.
  unfold execute_request. intros E.
  destruct (execute_actions c (receiver_id r) (List.length (actions r)) (actions r) s []) as [[]|m'] eqn:X;
    cbn [bind] in E; [discriminate|]. injection E as ->. eapply execute_actions_panic; eauto.
Qed.

Lemma confirm_not_internal c s id m : ok s -> confirm c s id = Panic m -> ~ internal_error m.
Proof.
  intros O E. unfold confirm, assert_valid_request in E.
  destruct (current_member c s) as [k0|] eqn:CM; cbn [require bind] in E; [|injection E as <-; not_internal].
  destruct (mmem id (requests s)) eqn:M1; cbn [require bind] in E; [|injection E as <-; not_internal].
  assert (M2 : mmem id (confirmations s) = true) by (rewrite <- (ok_same _ O); auto).
  rewrite M2 in E. cbn [require expect bind] in E.
  apply mmem_mget in M2. destruct M2 as [cs G]. rewrite G in E. cbn [expect bind] in E.
  destruct (smem _ _); cbn [negb require bind] in E; [injection E as <-; not_internal|].
  unfold add32, add_chk in E. destruct (fits _ _); cbn [bind] in E; [|injection E as <-; not_internal].
  destruct (_ <=? _); [|discriminate]. destruct (remove_request_intro s id M1) as [[s1 r] R].
  rewrite R in E. cbn [bind] in E.
  destruct (execute_request c s1 r) as [[]|] eqn:X; cbn [bind] in E; [discriminate|].
  injection E as ->. eapply execute_panic_not_internal; eauto.
Qed.

Lemma no_internal_error ms k p0 s0 evs ev m : new self false ms k = Ok (s0, p0) ->
  exec (ctx_of self ev) (final self s0 evs) (e_call ev) = Panic m -> ~ internal_error m.
Proof.
  intros NEW. pose proof (h_ok _ _ (log_inv _ _ _ _ evs NEW)) as O. set (s := final self s0 evs) in *. clearbody s.
  unfold exec. intros E. unfold require in E.
  assert (ADD : forall r m, add_request (ctx_of self ev) s r = Panic m -> ~ internal_error m).
  { unfold add_request, require, add32, add_chk. intros r m' A.
    destruct (current_member _ _); cbn [expect bind] in A; [|injection A as <-; not_internal].
    destruct (fits _ _); cbn [bind] in A; [|injection A as <-; not_internal].
    destruct (_ <=? _); cbn [bind] in A; [|injection A as <-; not_internal].
    destruct (fits _ _); cbn [bind] in A; [discriminate|injection A as <-; not_internal]. }
  destruct (_ =? _); cbn [bind] in E; [|injection E as <-; not_internal].
  destruct (e_call ev) as [r|r|id|id].
  - destruct (add_request _ _ _) as [[]|] eqn:A; cbn [bind] in E; [discriminate|]. injection E as ->. eauto.
  - unfold add_request_and_confirm in E.
    destruct (add_request _ _ _) as [[s1 i]|] eqn:A; cbn [bind] in E; [|injection E as ->; eauto].
    apply add_request_ok in A; auto. destruct A as (_ & _ & _ & _ & _ & _ & O1).
    destruct (confirm _ _ _) as [[]|] eqn:C; cbn [bind] in E; [discriminate|]. injection E as ->.
    eapply confirm_not_internal; eauto.
  - unfold delete_request, assert_valid_request, require in E.
    destruct (current_member _ _); cbn [bind] in E; [|injection E as <-; not_internal].
    pose proof (ok_same _ O id) as SM.
    destruct (mmem id (requests s)) eqn:M; cbn [bind] in E; [|injection E as <-; not_internal].
    rewrite <- SM in E. cbn [bind] in E. pose proof M as M'. apply mmem_mget in M'. destruct M' as [rs G]. rewrite G in E.
    cbn [expect bind] in E. unfold add64, add_chk in E.
    destruct (fits _ _); cbn [bind] in E; [|injection E as <-; not_internal].
    destruct (_ <? _); cbn [bind] in E; [|injection E as <-; not_internal].
    destruct (remove_request_intro s id M) as [[s1 r] R]. rewrite R in E. discriminate.
  - destruct (confirm _ _ _) as [[]|] eqn:C; cbn [bind] in E; [discriminate|]. injection E as ->.
    eapply confirm_not_internal; eauto.
Qed.

(** A first confirmation by a member is accepted, and recorded when the quorum is not reached. *)
Lemma confirmation_recorded ms k p0 s0 evs ev id : new self false ms k = Ok (s0, p0) ->
  let s := final self s0 evs in
  let n := N.of_nat (List.length (confirmers (log self s0 evs) id)) in
  e_call ev = CConfirm id -> In (caller self ev) (get_members s) -> e_attached ev = 0 ->
  In id (list_request_ids s) -> ~ In (caller self ev) (confirmers (log self s0 evs) id) ->
  n + 1 < get_num_confirmations s -> n + 1 < U32_BOUND ->
  confirmed (entry_of self s ev) = Some (id, None).
Proof.
  intros E s n C P A I NI Q B. pose proof (log_inv _ _ _ _ evs E) as H. fold s in H.
  unfold confirmed, entry_of, outcome. cbn [l_event l_output]. rewrite C. unfold exec, confirm, assert_valid_request.
  rewrite current_member_caller. apply smem_in in P. unfold get_members in P. rewrite P.
  cbn [ctx_of ctx_attached ctx_current ctx_predecessor ctx_signer_pk]. rewrite A.
  cbn [N.eqb require bind]. unfold list_request_ids in I. apply in_mkeys_mmem in I. pose proof (ok_same _ (h_ok _ _ H) id) as SM.
  rewrite <- SM, I. cbn [require bind]. rewrite I in SM. symmetry in SM. apply mmem_mget in SM. destruct SM as [cs G].
  rewrite G. cbn [expect bind]. apply (h_confs _ _ H) in G. destruct G as [-> _].
  assert (NI' : smem (text (caller self ev)) (map text (confirmers (log self s0 evs) id)) = false).
  { apply smem_false. intros J. apply NI. now apply in_map_text. }
  rewrite NI'. cbn [negb require bind].
  unfold slength. rewrite map_length. fold n. rewrite N.mod_small by lia.
  unfold add32, add_chk, fits. apply N.ltb_lt in B. rewrite B. cbn [bind].
  unfold get_num_confirmations in Q. apply N.leb_gt in Q. rewrite Q. reflexivity.
Qed.

(** * C39 *)
Lemma strangers_rejected s ev : ~ In (caller self ev) (get_members s) ->
  outcome self s ev = None /\ step self s ev = s.
Proof.
  intros NE. apply smem_false in NE. unfold get_members in NE.
  unfold outcome, step, exec, require, add_request_and_confirm, delete_request, confirm, assert_valid_request, add_request, require.
  rewrite current_member_caller, NE. cbn [ctx_of ctx_attached ctx_current ctx_predecessor ctx_signer_pk ctx_timestamp].
  destruct (_ =? _); cbn [bind]; auto. destruct (e_call ev); auto.
Qed.

(** * C34 *)
Lemma delete_accepted_iff ms k p0 s0 evs ev id : new self false ms k = Ok (s0, p0) -> e_call ev = CDeleteRequest id ->
  let s := final self s0 evs in
  (deleted (entry_of self s ev) = Some id <->
   In (caller self ev) (get_members s) /\ e_attached ev = 0 /\ In id (list_request_ids s) /\
   exists e0 r, In e0 (log self s0 evs) /\ added e0 = Some (id, r) /\
     e_time (l_event e0) + 900000000000 < U64_BOUND /\ e_time (l_event e0) + 900000000000 < e_time ev).
Proof.
  intros E C s. pose proof (log_inv _ _ _ _ evs E) as H. fold s in H.
  assert (X : deleted (entry_of self s ev) = Some id <-> is_ok (exec (ctx_of self ev) s (e_call ev)) = true).
  { unfold deleted, entry_of, outcome. cbn [l_event l_output]. rewrite C. unfold exec.
    destruct (require _ _); cbn [bind is_ok]; [|split; discriminate].
    destruct (delete_request _ _ _) as [[]|]; cbn; split; congruence. }
  rewrite X. rewrite C. unfold get_members. rewrite <- smem_in. unfold exec, require, delete_request, assert_valid_request, require.
  cbn [ctx_of ctx_attached ctx_current ctx_predecessor ctx_signer_pk ctx_timestamp].
  rewrite current_member_caller.
  destruct (N.eqb_spec (e_attached ev) 0) as [ATT|ATT]; cbn [bind is_ok]; [|split; [discriminate|tauto]].
  destruct (smem (caller self ev) (members s)) eqn:PRED; cbn [bind is_ok]; [|split; [discriminate|intros (? & _); congruence]].
  unfold list_request_ids. rewrite in_mkeys_mmem.
  rewrite <- (ok_same _ (h_ok _ _ H)).
  destruct (mmem id (requests s)) eqn:M; cbn [bind is_ok]; [|split; [discriminate|intros (_ & _ & ? & _); discriminate]].
  apply mmem_mget in M. destruct M as [rs G]. rewrite G. cbn [expect bind].
  pose proof (h_added _ _ H _ _ G) as (l1 & ent & l2 & L & A & K & T & _).
  assert (U : forall e r, In e (log self s0 evs) -> added e = Some (id, r) -> e_time (l_event e) = added_timestamp rs).
  { intros e r I AE. rewrite <- T. f_equal. f_equal. eapply granted_unique; eauto using NoDup_granted.
    rewrite L. apply in_or_app. right. now left. }
  assert (I0 : In ent (log self s0 evs)) by (rewrite L; apply in_or_app; right; now left).
  unfold add64, add_chk, fits, REQUEST_COOLDOWN.
  destruct (N.ltb_spec (added_timestamp rs + 900000000000) U64_BOUND) as [B|B]; cbn [bind is_ok].
  2:{ split; [discriminate|]. intros (_ & _ & _ & e & r & I & AE & Y & _). rewrite (U _ _ I AE) in Y. lia. }
  destruct (N.ltb_spec (added_timestamp rs + 900000000000) (e_time ev)) as [B2|B2]; cbn [bind is_ok].
  2:{ split; [discriminate|]. intros (_ & _ & _ & e & r & I & AE & _ & Y). rewrite (U _ _ I AE) in Y. lia. }
  unfold remove_request. rewrite G. cbn [expect bind is_ok]. split; auto.
  intros _. do 3 (split; [solve [auto]|]). exists ent, (the_request rs). rewrite (U _ _ I0 A). auto.
Qed.

(** * Members and settings *)
Lemma members_after_in l m : forall ms, In m (members_after l ms) -> In m ms \/ In (AddMember m) l.
Proof.
  unfold members_after. induction l as [|a l IH]; cbn [fold_left]; intros ms I; auto.
  apply IH in I. destruct I as [I|I]; [|right; now right].
  destruct a; cbn [member_effect] in I; auto.
  - apply sinsert_in in I. destruct I as [->|I]; auto. right. now left.
  - apply sremove_in in I. tauto.
Qed.
Lemma members_after_keep l m : forall ms, In m ms -> In m (members_after l ms) \/ In (DeleteMember m) l.
Proof.
  unfold members_after. induction l as [|a l IH]; cbn [fold_left]; intros ms I; auto.
  assert (Y : In m (member_effect a ms) \/ a = DeleteMember m).
  { destruct a; cbn [member_effect]; auto.
    - left. apply sinsert_in. auto.
    - destruct (member_eqb_spec m m0) as [->|NE]; auto. left. apply sremove_in. auto. }
  destruct Y as [Y| ->]; [|right; now left]. destruct (IH _ Y); auto. right. now right.
Qed.
Lemma members_after_none l ms : existsb member_action l = false -> members_after l ms = ms.
Proof.
  unfold members_after. induction l as [|a l IH]; cbn [fold_left existsb]; auto.
  intros E. apply orb_false_iff in E. destruct E as [E1 E2].
  destruct a; cbn [member_effect]; auto; discriminate.
Qed.

Lemma settings_only_by_execution ms k p0 s0 evs ev : new self false ms k = Ok (s0, p0) ->
  let s := final self s0 evs in
  let s' := step self s ev in
  get_num_confirmations s' <> get_num_confirmations s \/
  active_requests_limit s' <> active_requests_limit s \/ get_members s' <> get_members s ->
  exists id p e0 r, confirmed (entry_of self s ev) = Some (id, Some p) /\
    In e0 (log self s0 (evs ++ [ev])) /\ added e0 = Some (id, r) /\ receiver_id r = self /\
    ((exists n, actions r = [SetNumConfirmations n] /\ get_num_confirmations s' = n /\
                active_requests_limit s' = active_requests_limit s) \/
     (exists n, actions r = [SetActiveRequestsLimit n] /\ active_requests_limit s' = n /\
                get_num_confirmations s' = get_num_confirmations s) \/
     (existsb member_action (actions r) = true /\
      (forall m, In m (get_members s') -> In m (get_members s) \/ In (AddMember m) (actions r)) /\
      (forall m, In m (get_members s) -> In m (get_members s') \/ In (DeleteMember m) (actions r)))).
Proof.
  intros E s s' CH. pose proof (log_inv _ _ _ _ evs E) as H. fold s in H. unfold get_num_confirmations, get_members in *.
  destruct (step_cases s ev (h_ok _ _ H)) as [[_ X]|[_ F]].
  { exfalso. unfold s' in CH. rewrite X in CH. tauto. }
  fold s' in F.
  destruct (confirmed (entry_of self s ev)) as [[id [p|]]|] eqn:C.
  2,3: exfalso; destruct (f_settings _ _ _ _ _ F) as (? & ? & ?); [intros; congruence|tauto].
  pose proof (f_confirmed _ _ _ _ _ F _ _ C) as (_ & _ & r & R & _ & _ & s1 & X & K1 & L1 & M1).
  assert (A : exists e0, In e0 (log self s0 (evs ++ [ev])) /\ added e0 = Some (id, r)).
  { rewrite log_app. cbn [log]. fold s. destruct R as [(rs & G & ->)|A].
    - destruct (h_added _ _ H _ _ G) as (l1 & e0 & l2 & L & A & _). exists e0. split; auto.
      rewrite L. apply in_or_app. left. apply in_or_app. right. now left.
    - eexists. split; [|exact A]. apply in_or_app. right. now left. }
  destruct A as (e0 & I & A). exists id, p, e0, r. do 3 (split; [solve [auto]|]).
  pose proof (x_num _ _ _ _ _ X) as XN. pose proof (x_limit _ _ _ _ _ X) as XL.
  pose proof (x_settings _ _ _ _ _ X) as XS. pose proof (x_members _ _ _ _ _ X) as XM.
  pose proof (x_keys _ _ _ _ _ X) as XK. rewrite K1 in XN. rewrite L1 in XL. rewrite M1 in XM.
  destruct (existsb member_action (actions r)) eqn:MA.
  - assert (KA : existsb key_action (actions r) = true).
    { apply existsb_exists in MA. destruct MA as (a & IA & MA). apply existsb_exists. exists a. split; auto.
      destruct a; auto; discriminate. }
    split; auto. right. right. split; auto. rewrite XM. split; intros m IM.
    + now apply members_after_in in IM.
    + now apply members_after_keep.
  - pose proof (members_after_none _ (members s) MA) as MN. rewrite MN in XM. clear MN.
    destruct (actions r) as [|a [|b l]]; [|destruct a|]; try tauto.
    + destruct XS as [XS _]; [reflexivity|]. split; auto. left. eauto.
    + destruct XS as [XS _]; [reflexivity|]. split; auto. right. left. eauto.
    + exfalso. destruct a; tauto.
Qed.

Lemma executed_key_requests ms k p0 s0 evs ev id p : new self false ms k = Ok (s0, p0) ->
  let s := final self s0 evs in
  confirmed (entry_of self s ev) = Some (id, Some p) ->
  forall e0 r, In e0 (log self s0 (evs ++ [ev])) -> added e0 = Some (id, r) ->
  (existsb key_action (actions r) = true -> receiver_id r = self) /\
  (existsb setting_action (actions r) = true -> receiver_id r = self /\ List.length (actions r) = 1%nat) /\
  (forall m i, removes m r -> In i (list_request_ids (step self s ev)) ->
     creator (log self s0 (evs ++ [ev])) i <> Some m) /\
  p = asked self r.
Proof.
  intros E s C e0 r I A. pose proof (log_inv _ _ _ _ evs E) as H. fold s in H.
  destruct (step_cases s ev (h_ok _ _ H)) as [[X _]|[_ F]].
  { destruct (failed_entry s ev X) as (_ & Y & _). congruence. }
  pose proof (f_confirmed _ _ _ _ _ F _ _ C) as (_ & _ & r' & R & _ & _ & s1 & X & _).
  assert (ST : step self s ev = final self s0 (evs ++ [ev])) by (rewrite final_app; reflexivity).
  assert (U : r' = r).
  { assert (A' : exists e1, In e1 (log self s0 (evs ++ [ev])) /\ added e1 = Some (id, r')).
    { rewrite log_app. cbn [log]. fold s. destruct R as [(rs & G & ->)|A'].
      - destruct (h_added _ _ H _ _ G) as (l1 & e1 & l2 & L & A' & _). exists e1. split; auto.
        rewrite L. apply in_or_app. left. apply in_or_app. right. now left.
      - eexists. split; [|exact A']. apply in_or_app. right. now left. }
    destruct A' as (e1 & I1 & A1). pose proof (NoDup_granted _ _ _ _ (evs ++ [ev]) E) as ND.
    rewrite (granted_unique _ _ _ _ _ _ ND I I1 A A1) in A. congruence. }
  subst r'. destruct X as [XO XS XP XK XSE XN XL XM XQ XD]. split; [auto|]. split.
  { intros Y. destruct (XSE Y) as [RC [a ->]]. auto. }
  split; [|auto]. intros pk i D J CR. unfold list_request_ids in J. apply in_mkeys in J. destruct J as [rs J].
  pose proof (XD pk i rs D J) as NE. rewrite ST in J.
  pose proof (creator_of_active _ _ _ _ _ _ _ E J) as CR'. congruence.
Qed.

Lemma removed_member_requests_dropped ms k p0 s0 evs ev id p m e0 r : new self false ms k = Ok (s0, p0) ->
  let s := final self s0 evs in
  confirmed (entry_of self s ev) = Some (id, Some p) ->
  In e0 (log self s0 (evs ++ [ev])) -> added e0 = Some (id, r) -> removes m r ->
  forall i, In i (list_request_ids (step self s ev)) -> creator (log self s0 (evs ++ [ev])) i <> Some m.
Proof.
  intros E s C I A D i J. destruct (executed_key_requests _ _ _ _ _ _ _ _ E C _ _ I A) as (_ & _ & X & _). eauto.
Qed.

(** * C37 *)
Lemma no_lingering ms k p0 s0 evs : new self false ms k = Ok (s0, p0) -> 1 <= k ->
  (forall evs1 evs2, evs = (evs1 ++ evs2)%list -> get_num_confirmations (final self s0 evs1) <= get_num_confirmations (final self s0 evs)) ->
  forall id, In id (list_request_ids (final self s0 evs)) ->
  N.of_nat (List.length (confirmers (log self s0 evs) id)) < U32_BOUND ->
  N.of_nat (List.length (confirmers (log self s0 evs) id)) < get_num_confirmations (final self s0 evs).
Proof.
  intros E K1 MON id I B.
  assert (K0 : get_num_confirmations s0 = k) by (apply new_spec in E; destruct E as (-> & _ & _); reflexivity).
  destruct (confirmers (log self s0 evs) id) as [|x l] eqn:CF.
  { pose proof (MON [] evs eq_refl) as M. cbn [final] in M. cbn [List.length]. lia. }
  (* the last confirmation was only recorded *)
  assert (LAST : exists evs1 ev evs2 p, evs = (evs1 ++ ev :: evs2)%list /\
    confirmed (entry_of self (final self s0 evs1) ev) = Some (id, p) /\
    confirmers (log self s0 evs) id = confirmers (log self s0 (evs1 ++ [ev])) id).
  { clear MON B I. assert (NE : confirmers (log self s0 evs) id <> []) by (rewrite CF; discriminate). clear CF.
    induction evs as [|ev evs IH] using rev_ind; [now contradiction NE|].
    rewrite log_app, confirmers_app in *. cbn [log] in *. rewrite confirmers_one in *. unfold confs_of in *.
    destruct (confirmed (entry_of self (final self s0 evs) ev)) as [[i p]|] eqn:C.
    - destruct (N.eqb_spec i id) as [->|].
      + exists evs, ev, [], p. split; auto. split; auto. rewrite log_app, confirmers_app. cbn [log].
        rewrite confirmers_one. unfold confs_of. rewrite C, N.eqb_refl. reflexivity.
      + rewrite app_nil_r in *. destruct (IH NE) as (e1 & e & e2 & q & EQ & X & Y).
        exists e1, e, (e2 ++ [ev])%list, q. rewrite EQ at 1. rewrite <- app_assoc. auto.
    - rewrite app_nil_r in *. destruct (IH NE) as (e1 & e & e2 & q & EQ & X & Y).
      exists e1, e, (e2 ++ [ev])%list, q. rewrite EQ at 1. rewrite <- app_assoc. auto. }
  destruct LAST as (evs1 & ev & evs2 & p & EQ & C & CL). rewrite <- CF in *. clear CF x l.
  destruct p as [p|].
  - exfalso. destruct (finished_once _ _ _ _ evs E) as [_ FO]. destruct (FO id) as [N1 _]; [|contradiction].
    rewrite EQ, log_app, finished_app. apply in_or_app. right. cbn [log]. unfold finished. cbn [flat_map].
    rewrite C. now left.
  - rewrite CL in *. eapply N.lt_le_trans; [eapply recorded_below_quorum; eauto|].
    + rewrite log_app, confirmers_app, app_length in B. lia.
    + apply (MON evs1 (ev :: evs2)). auto.
Qed.

(** * C75 *)
Lemma members_after_fold l m : forall ms P, (In m ms <-> P) ->
  (In m (members_after l ms) <->
   fold_left (fun is_member a => match a with
                                 | AddMember m' => m' = m \/ is_member
                                 | DeleteMember m' => m' <> m /\ is_member
                                 | _ => is_member
                                 end) l P).
Proof.
  unfold members_after. induction l as [|a l IH]; cbn [fold_left]; intros ms P E; auto.
  apply IH. destruct a; cbn [member_effect]; auto.
  - rewrite sinsert_in. intuition congruence.
  - rewrite sremove_in. intuition congruence.
Qed.
Lemma members_exact ms k p0 s0 evs ev id p e0 r : new self false ms k = Ok (s0, p0) ->
  let s := final self s0 evs in
  confirmed (entry_of self s ev) = Some (id, Some p) ->
  In e0 (log self s0 (evs ++ [ev])) -> added e0 = Some (id, r) ->
  NoDup (get_members (step self s ev)) /\
  forall m, In m (get_members (step self s ev)) <->
            fold_left (fun is_member a => match a with
                                          | AddMember m' => m' = m \/ is_member
                                          | DeleteMember m' => m' <> m /\ is_member
                                          | _ => is_member
                                          end) (actions r) (In m (get_members s)).
Proof.
  intros E s C I A. pose proof (log_inv _ _ _ _ evs E) as H. fold s in H.
  destruct (step_cases s ev (h_ok _ _ H)) as [[X _]|[_ F]].
  { destruct (failed_entry s ev X) as (_ & Y & _). congruence. }
  pose proof (f_confirmed _ _ _ _ _ F _ _ C) as (_ & _ & r' & R & _ & _ & s1 & X & _ & _ & M1).
  assert (U : r' = r).
  { assert (A' : exists e1, In e1 (log self s0 (evs ++ [ev])) /\ added e1 = Some (id, r')).
    { rewrite log_app. cbn [log]. fold s. destruct R as [(rs & G & ->)|A'].
      - destruct (h_added _ _ H _ _ G) as (l1 & e1 & l2 & L & A' & _). exists e1. split; auto.
        rewrite L. apply in_or_app. left. apply in_or_app. right. now left.
      - eexists. split; [|exact A']. apply in_or_app. right. now left. }
    destruct A' as (e1 & I1 & A1). pose proof (NoDup_granted _ _ _ _ (evs ++ [ev]) E) as ND.
    rewrite (granted_unique _ _ _ _ _ _ ND I I1 A A1) in A. congruence. }
  subst r'. pose proof (x_members _ _ _ _ _ X) as XM. rewrite M1 in XM. unfold get_members.
  split; [apply (ok_mem _ (f_ok _ _ _ _ _ F))|].
  intros m. rewrite XM. apply members_after_fold. tauto.
Qed.

(** * C43 *)
Lemma keys_installed ms k s0 p0 : new self false ms k = Ok (s0, p0) ->
  p_receiver p0 = self /\
  (forall pk, In (AccessKey pk) ms -> exists methods, In (BAddAccessKey pk 0 self methods) (p_actions p0) /\
     forall c, match c with CAddRequestAndConfirm _ => False | _ => True end ->
       In (method_name c) (split_names methods)) /\
  (forall b, In b (p_actions p0) -> exists pk methods, b = BAddAccessKey pk 0 self methods /\ In (AccessKey pk) ms).
Proof.
  intros E. apply new_spec in E. destruct E as (_ & -> & _). split; [reflexivity|].
  unfold asked. cbn [p_actions actions]. split.
  - intros pk I. exists MULTISIG_METHOD_NAMES. split.
    + apply in_flat_map. exists (AddMember (AccessKey pk)). split; [now apply in_map|]. now left.
    + intros [] X; try contradiction; vm_compute; tauto.
  - intros b I. apply in_flat_map in I. destruct I as (a & I & B). apply in_map_iff in I.
    destruct I as ([pk|x] & <- & I); cbn in B; [|contradiction]. destruct B as [<-|[]]. eauto.
Qed.

(** * C41 *)
Lemma quorum_reachable ms k p0 s0 evs : new self false ms k = Ok (s0, p0) -> NoDup ms ->
  (forall evs1 ev evs2, evs = (evs1 ++ ev :: evs2)%list ->
     let s := final self s0 evs1 in
     get_num_confirmations (step self s ev) <= get_num_confirmations s \/
     get_num_confirmations (step self s ev) <= N.of_nat (List.length (get_members s))) ->
  get_num_confirmations (final self s0 evs) <= N.of_nat (List.length (get_members (final self s0 evs))).
Proof.
  intros E ND. induction evs as [|ev evs IH] using rev_ind; intros SET.
  - cbn [final]. apply new_spec in E. destruct E as (-> & _ & L). unfold get_num_confirmations, get_members. cbn [num_confirmations members].
    assert (LEN : forall l x : list member, NoDup (x ++ l) -> fold_left (fun x m => sinsert m x) l x = (x ++ l)%list).
    { induction l as [|a l IH]; cbn [fold_left]; intros x NDx; [now rewrite app_nil_r|].
      assert (NI : ~ In a x).
      { intros J. apply NoDup_remove_2 in NDx. apply NDx. apply in_or_app. now left. }
      unfold sinsert at 2. apply smem_false in NI. rewrite NI.
      rewrite IH; rewrite <- app_assoc; auto. }
    rewrite LEN by auto. exact L.
  - rewrite final_app. cbn [final]. pose proof (log_inv _ _ _ _ evs E) as H. set (s := final self s0 evs) in *.
    assert (Q : get_num_confirmations s <= N.of_nat (List.length (get_members s))).
    { apply IH. intros e1 e e2 X. apply (SET e1 e (e2 ++ [ev])%list). rewrite X, <- app_assoc. reflexivity. }
    pose proof (SET evs ev []%list eq_refl) as ST. cbn zeta in ST. fold s in ST.
    destruct (step_cases s ev (h_ok _ _ H)) as [[_ X]|[_ F]]; [now rewrite X|].
    set (s' := step self s ev) in *. unfold get_num_confirmations, get_members in *.
    destruct (confirmed (entry_of self s ev)) as [[id [p|]]|] eqn:C.
    2,3: destruct (f_settings _ _ _ _ _ F) as (N1 & _ & N2); [intros; congruence|rewrite N1, N2; exact Q].
    pose proof (f_confirmed _ _ _ _ _ F _ _ C) as (_ & _ & r & _ & _ & _ & s1 & X & K1 & L1 & M1).
    destruct (existsb setting_action (actions r)) eqn:SA.
    + destruct (x_settings _ _ _ _ _ X SA) as (_ & a & AA). pose proof (x_members _ _ _ _ _ X) as XM.
      rewrite AA in SA, XM. assert (MM : members s' = members s).
      { rewrite XM, M1. cbn in SA. destruct a; try discriminate; reflexivity. }
      rewrite MM. destruct ST; [lia|auto].
    + pose proof (x_quorum _ _ _ _ _ X) as XQ. rewrite K1, M1 in XQ. apply XQ; auto.
Qed.

(** Who is a member: those given at the creation. *)
Lemma new_members ms k p0 s0 : new self false ms k = Ok (s0, p0) ->
  (forall m, In m (get_members s0) <-> In m ms) /\ NoDup (get_members s0) /\
  get_num_confirmations s0 = k /\ list_request_ids s0 = [] /\ get_request_nonce s0 = 0 /\
  active_requests_limit s0 = 12 /\
  p0 = asked self (mkRequest self (map AddMember ms)).
Proof.
  intros E. apply new_spec in E. destruct E as (-> & -> & _). unfold get_members. cbn.
  split. { intros m. rewrite in_fold_sinsert. cbn. tauto. }
  split. { apply NoDup_fold_sinsert. constructor. } auto.
Qed.
Lemma new_accepted_iff current ex ms k :
  is_ok (new current ex ms k) = true <-> ex = false /\ k <= N.of_nat (List.length ms).
Proof.
  unfold new, require. destruct ex; cbn [negb bind is_ok].
  - split; [discriminate|]. intros [? _]. discriminate.
  - destruct (N.leb_spec k (N.of_nat (List.length ms))); cbn [bind is_ok].
    + destruct (fold_left _ _ _). cbn. tauto.
    + split; [discriminate|]. lia.
Qed.
End Self.
