(** Enough members get a request of the second multisig executed. *)
From Coq Require Import NArith List Bool String Lia.
From Verif Require Import Prelude PreludeFacts MapFacts Multisig2Model Multisig2Spec Multisig2Proofs Multisig2Facts.
Import ListNotations.
Open Scope N_scope.

Definition removals_ok (k : N) (ms : list member) (l : list action) : Prop :=
  forall l1 m l2, l = (l1 ++ DeleteMember m :: l2)%list -> k < slength (members_after l1 ms).

Lemma removals_cons k ms a l : removals_ok k ms (a :: l) -> removals_ok k (member_effect a ms) l.
Proof. intros R l1 m l2 E. specialize (R (a :: l1) m l2). cbn [app] in R. rewrite <- E in R. exact (R eq_refl). Qed.

Lemma execute_plain c rcv n l : forall s acc,
  existsb setting_action l = false -> (existsb key_action l = true -> rcv = ctx_current c) ->
  removals_ok (num_confirmations s) (members s) l ->
  exists s', execute_actions c rcv n l s acc = Ok (s', (acc ++ flat_map (batch_of (ctx_current c)) l)%list).
Proof.
  induction l as [|a l IH]; intros s acc ST KA RM.
  - exists s. cbn. now rewrite app_nil_r.
  - cbn [existsb] in ST, KA. apply orb_false_iff in ST. destruct ST as [SA ST].
    assert (KA' : existsb key_action l = true -> rcv = ctx_current c).
    { intros X. apply KA. rewrite X. apply orb_true_r. }
    pose proof (removals_cons _ _ _ _ RM) as RM'.
    assert (C : forall s1 b, batch_of (ctx_current c) a = b ->
      num_confirmations s1 = num_confirmations s -> members s1 = member_effect a (members s) ->
      exists s', execute_actions c rcv n l s1 (acc ++ b)%list
                 = Ok (s', (acc ++ flat_map (batch_of (ctx_current c)) (a :: l))%list)).
    { intros s1 b B NC MM. rewrite <- NC, <- MM in RM'.
      destruct (IH s1 (acc ++ b)%list ST KA' RM') as [s' E]. exists s'. rewrite E.
      cbn [flat_map]. rewrite B, <- app_assoc. reflexivity. }
    destruct a; cbn [execute_actions key_action setting_action orb] in *; try discriminate;
      try (unfold assert_self_request; rewrite (proj2 (String.eqb_eq rcv (ctx_current c)) (KA eq_refl)); cbn [require bind]).
    1-3: apply C; reflexivity.
    + unfold add_member. apply C; [|reflexivity|reflexivity]. destruct m; reflexivity.
    + unfold delete_member. pose proof (RM [] m l eq_refl) as Q. cbn [members_after fold_left] in Q.
      unfold sub_chk. destruct (N.leb_spec 1 (slength (members s))) as [L|L]; [|lia].
      cbn [bind].
      assert (X : (num_confirmations s <=? slength (members s) - 1) = true) by (apply N.leb_le; lia).
      rewrite X. cbn [require bind]. apply C; [|reflexivity|reflexivity]. destruct m; reflexivity.
    + destruct perm; apply C; reflexivity.
    + apply C; reflexivity.
Qed.

Lemma execute_intro c s r : executable (ctx_current c) s r ->
  exists s', execute_request c s r = Ok (s', asked (ctx_current c) r).
Proof.
  intros (K & S & RM). unfold execute_request. destruct (existsb setting_action (actions r)) eqn:ST.
  - destruct (S eq_refl) as [R L]. unfold asked. destruct (actions r) as [|a [|b l]]; try discriminate.
    cbn in ST. rewrite orb_false_r in ST.
    destruct a; try discriminate; cbn [execute_actions]; unfold assert_one_action_only, assert_self_request;
      rewrite R, String.eqb_refl; cbn; eauto.
  - destruct (execute_plain c (receiver_id r) (List.length (actions r)) (actions r) s [] ST K RM) as [s' E].
    rewrite E. cbn [bind]. eauto.
Qed.

(** The other way: what is executed was executable. *)
Lemma removals_of_ok c rcv n l : forall s acc s' acc', existsb setting_action l = false ->
  execute_actions c rcv n l s acc = Ok (s', acc') -> removals_ok (num_confirmations s) (members s) l.
Proof.
  induction l as [|a l IH]; intros s acc s' acc' ST E l1 m l2 EQ; [destruct l1; discriminate|].
  cbn [existsb] in ST. apply orb_false_iff in ST. destruct ST as [SA ST].
  destruct l1 as [|b l1].
  - injection EQ as -> ->. cbn [members_after fold_left]. cbn [execute_actions] in E.
    unfold assert_self_request, delete_member, sub_chk in E. inv_all. norm_bool. inv_all.
    match goal with H : (if ?b then _ else _) = Ok _ |- _ => destruct b eqn:B end; inv_all. norm_bool. lia.
  - injection EQ as <- EQ.
    assert (C : forall s1 b, execute_actions c rcv n l s1 b = Ok (s', acc') ->
      num_confirmations s1 = num_confirmations s -> members s1 = member_effect a (members s) ->
      num_confirmations s < slength (members_after (a :: l1) (members s))).
    { intros s1 b E1 NC MM. specialize (IH _ _ _ _ ST E1 l1 m l2 EQ). rewrite NC, MM in IH. exact IH. }
    destruct a; cbn [execute_actions setting_action] in *; try discriminate;
      unfold assert_self_request, add_member, delete_member in E; inv_all; try destruct perm; eapply C; eauto.
Qed.

Lemma confirm_cases c s id rs cs m :
  mget id (requests s) = Some rs -> mget id (confirmations s) = Some cs ->
  current_member c s = Some m -> ~ In (text m) cs -> slength cs + 1 < U32_BOUND ->
  (slength cs + 1 < num_confirmations s ->
   exists s', confirm c s id = Ok (s', None) /\ mget id (requests s') = Some rs /\
     mget id (confirmations s') = Some (cs ++ [text m])%list /\
     num_confirmations s' = num_confirmations s /\ members s' = members s) /\
  (num_confirmations s <= slength cs + 1 -> executable (ctx_current c) s (the_request rs) ->
   exists s', confirm c s id = Ok (s', Some (asked (ctx_current c) (the_request rs)))).
Proof.
  intros G GC P NI B. unfold confirm, assert_valid_request. rewrite P.
  unfold mmem. rewrite G, GC. cbn [require bind expect].
  pose proof NI as NI'. apply smem_false in NI'. rewrite NI'. cbn [negb require bind].
  rewrite N.mod_small by lia. unfold add32, add_chk, fits. apply N.ltb_lt in B. rewrite B. cbn [bind].
  split.
  - intros Q. apply N.leb_gt in Q. rewrite Q. eexists. split; [reflexivity|].
    cbn [requests confirmations num_confirmations members]. rewrite mget_minsert, keqb_refl.
    unfold sinsert. rewrite NI'. auto.
  - intros Q X. apply N.leb_le in Q. rewrite Q. unfold remove_request. rewrite G. cbn [expect bind].
    match goal with |- context [execute_request c ?s1 ?r] => destruct (execute_intro c s1 r X) as [s' ->] end.
    cbn [bind]. eauto.
Qed.

Section Live.
Variable self : account_id.

Lemma rest_confirm id evs : forall s rs cs,
  mget id (requests s) = Some rs -> mget id (confirmations s) = Some cs ->
  executable self s (the_request rs) -> NoDup (cs ++ map (fun ev => text (caller self ev)) evs) -> evs <> [] ->
  (forall ev, In ev evs -> e_call ev = CConfirm id /\ e_attached ev = 0 /\ In (caller self ev) (members s)) ->
  slength cs + N.of_nat (List.length evs) = num_confirmations s -> num_confirmations s < U32_BOUND ->
  exists l e, log self s evs = (l ++ [e])%list /\
    confirmed e = Some (id, Some (asked self (the_request rs))) /\
    forall e', In e' l -> confirmed e' = Some (id, None).
Proof.
  induction evs as [|ev evs IH]; intros s rs cs G GC X ND NE A Q B; [congruence|]. clear NE.
  cbn [map] in ND.
  assert (NI : ~ In (text (caller self ev)) cs).
  { apply NoDup_remove_2 in ND. intros I. apply ND. apply in_or_app. now left. }
  destruct (A ev (or_introl eq_refl)) as (EC & EA & EM). apply smem_in in EM.
  cbn [List.length] in Q. rewrite Nat2N.inj_succ in Q.
  assert (CM : current_member (ctx_of self ev) s = Some (caller self ev)).
  { rewrite current_member_caller, EM. reflexivity. }
  destruct (confirm_cases (ctx_of self ev) s id rs cs _ G GC CM NI ltac:(lia)) as [C1 C2].
  assert (OUT : forall s' p, confirm (ctx_of self ev) s id = Ok (s', p) ->
    step self s ev = s' /\ confirmed (entry_of self s ev) = Some (id, p)).
  { intros s' p E. unfold step, confirmed, entry_of, outcome, exec. cbn [l_event l_output].
    rewrite EC. cbn [ctx_of ctx_attached]. rewrite EA. cbn [N.eqb require bind]. unfold ctx_of in *. rewrite EA in *.
    rewrite E. auto. }
  cbn [log]. destruct evs as [|x evs].
  - cbn [List.length] in Q. destruct (C2 ltac:(lia) X) as [s' E]. destruct (OUT _ _ E) as [_ CE].
    exists [], (entry_of self s ev). cbn [app log]. split; [reflexivity|]. split; [exact CE|intros ? []].
  - destruct C1 as (s' & E & G' & GC' & NC & MM). { cbn [List.length] in Q. rewrite Nat2N.inj_succ in Q. lia. }
    destruct (OUT _ _ E) as [ST CE].
    rewrite ST. destruct (IH s' rs (cs ++ [text (caller self ev)])%list) as (l & e & L & CE' & CL); auto; try discriminate.
    { destruct X as (X1 & X2 & X3). split; [auto|]. split; [auto|].
      unfold get_num_confirmations, get_members. rewrite NC, MM. exact X3. }
    { rewrite <- app_assoc. exact ND. }
    { intros y I. rewrite MM. apply A. now right. }
    { rewrite NC. unfold slength in *. rewrite app_length. cbn [List.length] in *. lia. }
    { now rewrite NC. }
    exists (entry_of self s ev :: l), e. cbn [app]. split; [now rewrite <- L|]. split; [auto|].
    intros e' [<-|I]; auto.
Qed.

Lemma NoDup_texts l : NoDup l -> NoDup (map text l).
Proof.
  induction 1 as [|m l NI ND IH]; cbn; constructor; auto. intros I. apply NI. now apply in_map_text.
Qed.

Lemma quorum_executes ms k p0 s0 evs r ev0 others : new self false ms k = Ok (s0, p0) ->
  let s := final self s0 evs in
  let id := get_request_nonce s in
  executable self s r ->
  e_call ev0 = CAddRequestAndConfirm r -> (forall ev, In ev others -> e_call ev = CConfirm id) ->
  (forall ev, In ev (ev0 :: others) -> e_attached ev = 0 /\ In (caller self ev) (get_members s)) ->
  NoDup (map (caller self) (ev0 :: others)) ->
  N.of_nat (List.length (ev0 :: others)) = N.max 1 (get_num_confirmations s) ->
  get_num_confirmations s < U32_BOUND ->
  get_num_requests_per_member s (caller self ev0) + 1 <= active_requests_limit s ->
  get_num_requests_per_member s (caller self ev0) + 1 < U32_BOUND -> id + 1 < U32_BOUND ->
  exists l e,
    log self s (ev0 :: others) = (l ++ [e])%list /\
    confirmed e = Some (id, Some (asked self r)) /\ forall e', In e' l -> confirmed e' = Some (id, None).
Proof.
  intros _ s id X EC CC AA ND Q B A A32 NX.
  unfold get_num_requests_per_member in *. unfold get_num_confirmations in *. unfold get_members in AA.
  set (m := caller self ev0) in *.
  destruct (AA ev0 (or_introl eq_refl)) as (EA & EM). fold m in EM. apply smem_in in EM.
  set (s1 := mkContract (members s) (num_confirmations s) (id + 1)
        (minsert id (mkSigned r m (e_time ev0)) (requests s)) (minsert id [] (confirmations s))
        (minsert (text m) (num_requests_of s m + 1) (num_requests_pk s)) (active_requests_limit s)).
  assert (AD : add_request (ctx_of self ev0) s r = Ok (s1, id)).
  { unfold add_request. rewrite current_member_caller. fold m. rewrite EM. cbn [expect bind].
    unfold add32, add_chk, fits.
    apply N.ltb_lt in A32. rewrite A32. cbn [bind]. apply N.leb_le in A. rewrite A. cbn [require bind].
    apply N.ltb_lt in NX. unfold id, get_request_nonce in *. rewrite NX. reflexivity. }
  assert (G : mget id (requests s1) = Some (mkSigned r m (e_time ev0))).
  { cbn [s1 requests]. now rewrite mget_minsert, keqb_refl. }
  assert (GC : mget id (confirmations s1) = Some []).
  { cbn [s1 confirmations]. now rewrite mget_minsert, keqb_refl. }
  assert (CM : current_member (ctx_of self ev0) s1 = Some m).
  { rewrite current_member_caller. fold m. cbn [s1 members]. now rewrite EM. }
  cbn [List.length] in Q. rewrite Nat2N.inj_succ in Q.
  destruct (confirm_cases (ctx_of self ev0) s1 id _ [] m G GC CM ltac:(auto) ltac:(cbn; reflexivity)) as [C1 C2].
  cbn [the_request] in C2. change (num_confirmations s1) with (num_confirmations s) in *.
  cbn [slength List.length] in C1, C2. change (0 + 1) with 1 in *.
  assert (OUT : forall s' p, confirm (ctx_of self ev0) s1 id = Ok (s', p) ->
    step self s ev0 = s' /\ confirmed (entry_of self s ev0) = Some (id, p)).
  { intros s' p E. unfold step, confirmed, entry_of, outcome, exec, add_request_and_confirm.
    cbn [l_event l_output]. rewrite EC. rewrite AD. cbn [ctx_of ctx_attached]. rewrite EA.
    cbn [N.eqb require bind]. unfold ctx_of in E |- *. rewrite EA in E. rewrite EA. rewrite E. cbn [bind]. auto. }
  cbn [log]. destruct others as [|x others].
  - cbn [List.length] in Q. destruct (C2 ltac:(lia) X) as [s' E]. destruct (OUT _ _ E) as [_ CE].
    exists [], (entry_of self s ev0). cbn. split; [reflexivity|]. split; [exact CE|intros ? []].
  - assert (Q1 : 1 < num_confirmations s) by (cbn [List.length] in Q; rewrite Nat2N.inj_succ in Q; lia).
    destruct (C1 Q1) as (s' & E & G' & GC' & NC & MM). destruct (OUT _ _ E) as [ST CE]. rewrite ST.
    change (num_confirmations s1) with (num_confirmations s) in NC.
    change (members s1) with (members s) in MM.
    destruct (rest_confirm id (x :: others) s' _ _ G' GC') as (l & e & L & CE' & CL); auto; try discriminate.
    { destruct X as (X1 & X2 & X3). split; [auto|]. split; [auto|].
      unfold get_num_confirmations, get_members. rewrite NC, MM. exact X3. }
    { apply NoDup_texts in ND. cbn [map app] in ND |- *. rewrite map_map in ND. exact ND. }
    { intros ev I. rewrite MM. split; [auto|]. apply AA. now right. }
    { rewrite NC. unfold slength. cbn [List.length app] in *. lia. }
    { now rewrite NC. }
    exists (entry_of self s ev0 :: l), e. cbn [app]. rewrite L.
    split; [reflexivity|]. split; [exact CE'|]. intros e' [<-|I]; auto.
Qed.

(** The same with [add_request] and [confirm] only. *)
Lemma quorum_executes_added ms k p0 s0 evs r ev0 others : new self false ms k = Ok (s0, p0) ->
  let s := final self s0 evs in
  let id := get_request_nonce s in
  executable self s r ->
  e_call ev0 = CAddRequest r -> (forall ev, In ev others -> e_call ev = CConfirm id) ->
  (forall ev, In ev (ev0 :: others) -> e_attached ev = 0 /\ In (caller self ev) (get_members s)) ->
  NoDup (map (caller self) others) ->
  N.of_nat (List.length others) = N.max 1 (get_num_confirmations s) ->
  get_num_confirmations s < U32_BOUND ->
  get_num_requests_per_member s (caller self ev0) + 1 <= active_requests_limit s ->
  get_num_requests_per_member s (caller self ev0) + 1 < U32_BOUND -> id + 1 < U32_BOUND ->
  exists e0 l e,
    log self s (ev0 :: others) = (e0 :: l ++ [e])%list /\ added e0 = Some (id, r) /\
    confirmed e = Some (id, Some (asked self r)) /\ forall e', In e' l -> confirmed e' = Some (id, None).
Proof.
  intros _ s id X EC CC AA ND Q B A A32 NX.
  unfold get_num_requests_per_member in *. unfold get_num_confirmations in *. unfold get_members in AA.
  set (m := caller self ev0) in *.
  destruct (AA ev0 (or_introl eq_refl)) as (EA & EM). fold m in EM. apply smem_in in EM.
  set (s1 := mkContract (members s) (num_confirmations s) (id + 1)
        (minsert id (mkSigned r m (e_time ev0)) (requests s)) (minsert id [] (confirmations s))
        (minsert (text m) (num_requests_of s m + 1) (num_requests_pk s)) (active_requests_limit s)).
  assert (AD : exec (ctx_of self ev0) s (CAddRequest r) = Ok (s1, OAdded id)).
  { unfold exec, add_request. rewrite current_member_caller. fold m. rewrite EM. cbn [ctx_of ctx_attached]. rewrite EA.
    cbn [N.eqb require expect bind].
    unfold add32, add_chk, fits.
    apply N.ltb_lt in A32. rewrite A32. cbn [bind]. apply N.leb_le in A. rewrite A. cbn [require bind].
    apply N.ltb_lt in NX. unfold id, get_request_nonce in *. rewrite NX. reflexivity. }
  assert (ST : step self s ev0 = s1) by (unfold step; now rewrite EC, AD).
  assert (OU : outcome self s ev0 = Some (OAdded id)) by (unfold outcome; now rewrite EC, AD).
  assert (G : mget id (requests s1) = Some (mkSigned r m (e_time ev0))).
  { cbn [s1 requests]. now rewrite mget_minsert, keqb_refl. }
  assert (GC : mget id (confirmations s1) = Some []).
  { cbn [s1 confirmations]. now rewrite mget_minsert, keqb_refl. }
  cbn [log]. rewrite ST. change (num_confirmations s) with (num_confirmations s1) in Q, B.
  assert (AD0 : added (entry_of self s ev0) = Some (id, r)).
  { unfold added, entry_of. cbn [l_event l_output]. now rewrite EC, OU. }
  destruct others as [|x others]; [cbn in Q; lia|].
  destruct (N.eq_dec (num_confirmations s1) 0) as [Z|NZ].
  - destruct others as [|y others]. 2:{ cbn [List.length] in Q. lia. }
    destruct (AA x (or_intror (or_introl eq_refl))) as (EA' & EM'). apply smem_in in EM'.
    assert (CM : current_member (ctx_of self x) s1 = Some (caller self x)).
    { rewrite current_member_caller. cbn [s1 members]. now rewrite EM'. }
    destruct (confirm_cases (ctx_of self x) s1 id _ [] _ G GC CM ltac:(auto) ltac:(cbn; reflexivity)) as [_ C2].
    destruct C2 as [s' E]. { rewrite Z. cbn. lia. } { exact X. }
    exists (entry_of self s ev0), [], (entry_of self s1 x).
    split; [reflexivity|]. split; [exact AD0|]. split; [|intros ? []].
    unfold confirmed, entry_of, outcome, exec. cbn [l_event l_output]. rewrite (CC x (or_introl eq_refl)).
    cbn [ctx_of ctx_attached]. rewrite EA'. cbn [N.eqb require bind]. unfold ctx_of in E |- *. rewrite EA' in E.
    rewrite EA', E. reflexivity.
  - destruct (rest_confirm id (x :: others) s1 _ [] G GC) as (l & e & L & CE & CL); auto; try discriminate.
    { apply NoDup_texts in ND. rewrite map_map in ND. exact ND. }
    { intros ev I. split; [auto|]. apply AA. now right. }
    { unfold slength. cbn [List.length] in *. lia. }
    exists (entry_of self s ev0), l, e. rewrite L. auto.
Qed.

(** When a confirmation executes the request. *)
Lemma executes_iff ms k p0 s0 evs ev id p : new self false ms k = Ok (s0, p0) -> e_call ev = CConfirm id ->
  let s := final self s0 evs in
  let n := N.of_nat (List.length (confirmers (log self s0 evs) id)) in
  n + 1 < U32_BOUND ->
  (confirmed (entry_of self s ev) = Some (id, Some p) <->
   In (caller self ev) (get_members s) /\ e_attached ev = 0 /\ In id (list_request_ids s) /\
   ~ In (caller self ev) (confirmers (log self s0 evs) id) /\ get_num_confirmations s <= n + 1 /\
   exists e0 r, In e0 (log self s0 evs) /\ added e0 = Some (id, r) /\ executable self s r /\ p = asked self r).
Proof.
  intros E C s n B. pose proof (log_inv self _ _ _ _ evs E) as H. fold s in H.
  assert (R : exists rs cs, In id (list_request_ids s) -> mget id (requests s) = Some rs /\
     mget id (confirmations s) = Some cs /\ cs = map text (confirmers (log self s0 evs) id) /\
     exists e0, In e0 (log self s0 evs) /\ added e0 = Some (id, the_request rs)).
  { destruct (mget id (requests s)) as [rs|] eqn:G.
    - pose proof (ok_same _ (h_ok _ _ H) id) as SM. unfold mmem in SM. rewrite G in SM.
      destruct (mget id (confirmations s)) as [cs|] eqn:GC; [|discriminate].
      exists rs, cs. intros _. do 2 (split; [reflexivity|]). split; [now apply (h_confs _ _ H) in GC|].
      pose proof (h_added _ _ H _ _ G) as (l1 & ent & l2 & L & A & _). exists ent. split; auto.
      rewrite L. apply in_or_app. right. now left.
    - exists (mkSigned (mkRequest "" []) (Account "") 0), []. intros I. unfold list_request_ids in I.
      apply in_mkeys_mmem in I. unfold mmem in I. rewrite G in I. discriminate. }
  destruct R as (rs & cs & R).
  assert (LEN : slength (map text (confirmers (log self s0 evs) id)) = n).
  { unfold slength. now rewrite map_length. }
  split.
  - intros CE. assert (OK : exists s', exec (ctx_of self ev) s (CConfirm id) = Ok (s', OConfirmed (Some p))).
    { unfold confirmed, entry_of, outcome in CE. cbn [l_event l_output] in CE. rewrite C in CE.
      destruct (exec _ _ _) as [[s' o]|]; [|discriminate]. destruct o; try discriminate. injection CE as ->. eauto. }
    destruct OK as [s' X]. unfold exec in X. inv_res. norm_bool. destruct x0 as [s2 p2]. injection X as <- ->.
    match goal with H : confirm _ _ _ = Ok _ |- _ => rename H into CF end. pose proof CF as CF'.
    apply confirm_ok in CF; [|apply H]. destruct CF as (rs' & cs' & G & GC & m & P & NI & Q & s1 & RR & _ & XE).
    assert (I : In id (list_request_ids s)).
    { unfold list_request_ids. apply in_mkeys_mmem. unfold mmem. now rewrite G. }
    destruct (R I) as (G2 & GC2 & CC & e0 & I0 & A0). rewrite G in G2. injection G2 as ->.
    rewrite GC in GC2. injection GC2 as ->. rewrite CC, LEN in Q. rewrite CC in NI.
    rewrite current_member_caller in P. destruct (smem _ _) eqn:SM; [|discriminate]. injection P as <-.
    split; [now apply smem_in|]. split; [assumption|]. split; [exact I|].
    split. { intros J. apply NI. now apply in_map. }
    split; [exact Q|]. exists e0, (the_request rs). split; [auto|]. split; [auto|].
    destruct XE as [_ _ PR K S _ _ _ _ _]. split; [|exact PR]. split; [exact K|]. split.
    { intros ST. destruct (S ST) as (Y & a & ->). auto. }
    destruct (existsb setting_action (actions (the_request rs))) eqn:ST.
    { intros l1 m0 l2 EQ. destruct (S eq_refl) as (_ & a & AA). rewrite AA in EQ, ST. cbn in ST.
      rewrite orb_false_r in ST. destruct l1 as [|? [|? ?]]; inversion EQ; subst; discriminate. }
    unfold confirm in CF'. inv_all.
    match goal with H : (if ?b then _ else _) = Ok _ |- _ => destruct b end; inv_all; [|discriminate].
    match goal with H : remove_request s id = Ok _ |- _ => rewrite RR in H; injection H as <- <- end.
    match goal with H : execute_request _ _ _ = Ok _ |- _ => unfold execute_request in H; inv_all end.
    match goal with H : execute_actions _ _ _ _ _ _ = Ok _ |- _ => apply removals_of_ok in H; [rename H into RM|auto] end.
    unfold remove_request in RR. rewrite G in RR. cbn [expect bind] in RR. injection RR as <-. eapply RM; eassumption.
  - intros (P & A & I & NI & Q & e0 & r & I0 & A0 & X & ->).
    destruct (R I) as (G & GC & CC & e1 & I1 & A1).
    assert (RR : r = the_request rs).
    { pose proof (granted_unique _ e0 e1 id _ _ (NoDup_granted self _ _ _ _ evs E) I0 I1 A0 A1) as U.
      rewrite U in A0. congruence. }
    apply smem_in in P. unfold get_members in P.
    destruct (confirm_cases (ctx_of self ev) s id rs cs (caller self ev) G GC) as [_ C2].
    { now rewrite current_member_caller, P. } { rewrite CC. intros J. apply NI. now apply in_map_text. }
    { rewrite CC, LEN. exact B. }
    destruct C2 as [s' CF]. { rewrite CC, LEN. exact Q. } { rewrite <- RR. exact X. }
    unfold confirmed, entry_of, outcome, exec. cbn [l_event l_output]. rewrite C. cbn [ctx_of ctx_attached]. rewrite A.
    cbn [N.eqb require bind].
    rewrite CF. cbn. now rewrite RR.
Qed.
(** * A quorum out of reach *)
(** Those who confirmed [id] so far and the members, all different, are fewer than required. *)
Definition short (s : contract) (l : list entry) (id : request_id) : Prop :=
  forall u, NoDup u -> incl u (confirmers l id ++ members s) -> N.of_nat (List.length u) < num_confirmations s.

Lemma short_step s l ev : linv s l -> N.of_nat (List.length (members s)) < num_confirmations s ->
  (forall id rs, mget id (requests s) = Some rs -> short s l id) ->
  (forall id p, confirmed (entry_of self s ev) <> Some (id, Some p)) /\
  members (step self s ev) = members s /\ num_confirmations (step self s ev) = num_confirmations s /\
  (forall id rs, mget id (requests (step self s ev)) = Some rs -> short (step self s ev) (l ++ [entry_of self s ev]) id).
Proof.
  intros H M S. destruct (step_cases self s ev (h_ok _ _ H)) as [[FE X]|[OK F]].
  { destruct (failed_entry self s ev FE) as (FA & FC & FD). rewrite X. split; [intros; congruence|].
    do 2 (split; [reflexivity|]). intros id rs G u NDu I. apply (S _ _ G u NDu). rewrite confirmers_app, confirmers_one in I.
    unfold confs_of in I. rewrite FC in I. now rewrite app_nil_r in I. }
  set (e := entry_of self s ev) in *. set (s' := step self s ev) in *.
  pose proof (proj2 (f_caller _ _ _ _ _ F)) as CM.
  assert (ALL : forall id, (exists rs, mget id (requests s) = Some rs) \/ confirmers l id = [] -> short s l id).
  { intros id [[rs G]|Z]; [exact (S _ _ G)|]. intros u NDu I. rewrite Z in I.
    cbn [app] in I. pose proof (NoDup_incl_length NDu I). lia. }
  assert (FR : forall id r, added e = Some (id, r) -> confirmers l id = []).
  { intros id r A. apply (h_conf_lt _ _ H). pose proof (f_nonce _ _ _ _ _ F) as X. rewrite A in X. lia. }
  assert (NX : forall id p, confirmed e <> Some (id, Some p)).
  { intros id p C. destruct (old_confs_log self _ _ _ _ _ _ H F C) as [OC NDo].
    pose proof (f_confirmed _ _ _ _ _ F _ _ C) as (_ & NI & r & R & L & _). rewrite OC in NI, L.
    unfold slength in L. rewrite map_length in L.
    assert (SH : short s l id).
    { apply ALL. destruct R as [(rs & G & _)|A]; [eauto|right; eapply FR; eassumption]. }
    assert (B : N.of_nat (List.length (confirmers l id ++ [caller self ev])) < num_confirmations s).
    { apply SH.
      - apply NoDup_snoc; auto. intros J. apply NI. now apply in_map.
      - intros x J. apply in_app_or in J. apply in_or_app. destruct J as [J|[<-|[]]]; auto. }
    rewrite app_length in B. cbn [List.length] in B. lia. }
  split; [exact NX|]. destruct (f_settings _ _ _ _ _ F NX) as (E1 & _ & E2).
  do 2 (split; [assumption|]). intros id rs G u NDu I. rewrite E1.
  assert (SH : short s l id).
  { apply ALL. apply (f_requests _ _ _ _ _ F) in G. destruct G as [G|[A _]]; [eauto|right; eapply FR; eassumption]. }
  apply SH; auto. intros x J. apply I in J. rewrite E2, confirmers_app, confirmers_one in J.
  apply in_or_app. apply in_app_or in J. destruct J as [J|J]; [|auto]. apply in_app_or in J. destruct J as [J|J]; [auto|].
  right. unfold confs_of in J. destruct (confirmed e) as [[i p]|]; [|contradiction].
  destruct (i =? id); [|contradiction]. destruct J as [<-|[]]. now rewrite (proj1 (f_caller _ _ _ _ _ F)).
Qed.

Lemma short_run evs' : forall s l, linv s l -> N.of_nat (List.length (members s)) < num_confirmations s ->
  (forall id rs, mget id (requests s) = Some rs -> short s l id) ->
  (forall e id p, In e (log self s evs') -> confirmed e <> Some (id, Some p)) /\
  members (final self s evs') = members s /\ num_confirmations (final self s evs') = num_confirmations s.
Proof.
  induction evs' as [|ev evs' IH]; intros s l H M S; cbn [log final].
  { split; [intros e id p []|auto]. }
  destruct (short_step _ _ ev H M S) as (NX & E1 & E2 & S').
  destruct (IH _ _ (log_step self _ _ ev H)) as (A & B & C); auto.
  { now rewrite E1, E2. }
  split; [|rewrite B, C; auto]. intros e id p [<-|I]; [apply NX|eauto].
Qed.

Lemma stuck_forever ms k p0 s0 evs evs' : new self false ms k = Ok (s0, p0) ->
  let s := final self s0 evs in
  N.of_nat (List.length (get_members s)) < get_num_confirmations s ->
  (forall id u, In id (list_request_ids s) -> NoDup u -> incl u (confirmers (log self s0 evs) id ++ get_members s) ->
     N.of_nat (List.length u) < get_num_confirmations s) ->
  (forall e id p, In e (log self s evs') -> confirmed e <> Some (id, Some p)) /\
  get_members (final self s evs') = get_members s /\
  get_num_confirmations (final self s evs') = get_num_confirmations s.
Proof.
  intros E s M S. pose proof (log_inv self _ _ _ _ evs E) as H. fold s in H.
  apply (short_run evs' s (log self s0 evs)); auto.
  intros id rs G u NDu I. apply (S id); auto. unfold list_request_ids. apply in_mkeys_mmem. unfold mmem. now rewrite G.
Qed.
End Live.
