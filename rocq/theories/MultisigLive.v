(** Enough keys get a request of the multisig executed. *)
From Coq Require Import NArith List Bool String Lia.
From Verif Require Import Prelude PreludeFacts MapFacts MultisigModel MultisigSpec MultisigProofs MultisigFacts.
Import ListNotations.
Open Scope N_scope.

Lemma execute_plain c rcv n l : forall s acc,
  existsb setting_action l = false -> (existsb key_action l = true -> rcv = ctx_current c) ->
  exists s', execute_actions c rcv n l s acc = Ok (s', (acc ++ flat_map batch_of l)%list).
Proof.
  induction l as [|a l IH]; intros s acc ST KA.
  - exists s. cbn. now rewrite app_nil_r.
  - cbn [existsb] in ST, KA. apply orb_false_iff in ST. destruct ST as [SA ST].
    assert (KA' : existsb key_action l = true -> rcv = ctx_current c).
    { intros X. apply KA. rewrite X. apply orb_true_r. }
    assert (C : forall s1 b, batch_of a = [b] ->
      exists s', execute_actions c rcv n l s1 (acc ++ [b])%list = Ok (s', (acc ++ flat_map batch_of (a :: l))%list)).
    { intros s1 b B. destruct (IH s1 (acc ++ [b])%list ST KA') as [s' E]. exists s'. rewrite E.
      cbn [flat_map]. rewrite B, <- app_assoc. reflexivity. }
    destruct a; cbn [execute_actions key_action setting_action orb] in *; try discriminate;
      try (unfold assert_self_request; rewrite (proj2 (String.eqb_eq rcv (ctx_current c)) (KA eq_refl)); cbn [require bind]);
      try destruct perm; apply C; reflexivity.
Qed.

Lemma execute_intro c s r : executable (ctx_current c) r ->
  exists s', execute_request c s r = Ok (s', asked r).
Proof.
  intros [K S]. unfold execute_request. destruct (existsb setting_action (actions r)) eqn:ST.
  - destruct (S eq_refl) as [R L]. unfold asked. destruct (actions r) as [|a [|b l]]; try discriminate.
    cbn in ST. rewrite orb_false_r in ST.
    destruct a; try discriminate; cbn [execute_actions]; unfold assert_one_action_only, assert_self_request;
      rewrite R, String.eqb_refl; cbn; eauto.
  - destruct (execute_plain c (receiver_id r) (List.length (actions r)) (actions r) s [] ST K) as [s' E].
    rewrite E. cbn [bind]. eauto.
Qed.

Lemma confirm_cases c s id rs cs :
  mget id (requests s) = Some rs -> mget id (confirmations s) = Some cs ->
  ctx_current c = ctx_predecessor c -> ~ In (ctx_signer_pk c) cs -> slength cs + 1 < U32_BOUND ->
  (slength cs + 1 < num_confirmations s ->
   exists s', confirm c s id = Ok (s', None) /\ mget id (requests s') = Some rs /\
     mget id (confirmations s') = Some (cs ++ [ctx_signer_pk c])%list /\ num_confirmations s' = num_confirmations s) /\
  (num_confirmations s <= slength cs + 1 -> executable (ctx_current c) (the_request rs) ->
   exists s', confirm c s id = Ok (s', Some (asked (the_request rs)))).
Proof.
  intros G GC P NI B. unfold confirm, assert_valid_request. rewrite P, String.eqb_refl.
  unfold mmem. rewrite G, GC. cbn [require bind expect].
  pose proof NI as NI'. apply smem_false in NI'. rewrite NI'. cbn [negb require bind].
  rewrite N.mod_small by lia. unfold add32, add_chk, fits. apply N.ltb_lt in B. rewrite B. cbn [bind].
  split.
  - intros Q. apply N.leb_gt in Q. rewrite Q. eexists. split; [reflexivity|].
    cbn [requests confirmations num_confirmations]. rewrite mget_minsert, keqb_refl.
    unfold sinsert. rewrite NI'. auto.
  - intros Q X. apply N.leb_le in Q. rewrite Q. unfold remove_request. rewrite G. cbn [expect bind].
    rewrite <- P in *.
    match goal with |- context [execute_request c ?s1 ?r] => destruct (execute_intro c s1 r X) as [s' ->] end.
    cbn [bind]. eauto.
Qed.

Section Live.
Variable self : account_id.

Definition confirmations_by (id : request_id) (ks : list (public_key * N)) : list event :=
  map (fun kt => mkEvent self (fst kt) 0 (snd kt) (CConfirm id)) ks.

Lemma rest_confirm id ks : forall s rs cs,
  mget id (requests s) = Some rs -> mget id (confirmations s) = Some cs ->
  executable self (the_request rs) -> NoDup (cs ++ map fst ks) -> ks <> [] ->
  slength cs + N.of_nat (List.length ks) = num_confirmations s -> num_confirmations s < U32_BOUND ->
  exists l e, log self s (confirmations_by id ks) = (l ++ [e])%list /\
    confirmed e = Some (id, Some (asked (the_request rs))) /\ forall e', In e' l -> confirmed e' = Some (id, None).
Proof.
  induction ks as [|[k t] ks IH]; intros s rs cs G GC X ND NE Q B; [congruence|]. clear NE.
  cbn [map fst] in ND.
  assert (NI : ~ In k cs).
  { apply NoDup_remove_2 in ND. intros I. apply ND. apply in_or_app. now left. }
  set (ev := mkEvent self k 0 t (CConfirm id)).
  cbn [List.length] in Q. rewrite Nat2N.inj_succ in Q.
  destruct (confirm_cases (ctx_of self ev) s id rs cs G GC eq_refl NI ltac:(lia)) as [C1 C2].
  cbn [confirmations_by map fst snd log]. fold ev. destruct ks as [|x ks].
  - cbn [List.length] in Q. destruct (C2 ltac:(lia) X) as [s' E].
    exists [], (ev, outcome self s ev). cbn [app map log]. split; [reflexivity|]. split; [|intros ? []].
    unfold confirmed, outcome, exec. cbn [fst snd ev e_call ctx_of ctx_attached e_attached N.eqb require bind].
    fold ev. rewrite E. reflexivity.
  - destruct C1 as (s' & E & G' & GC' & NC). { cbn [List.length] in Q. rewrite Nat2N.inj_succ in Q. lia. }
    assert (ST : step self s ev = s').
    { unfold step, exec. cbn [ev e_call ctx_of ctx_attached e_attached N.eqb require bind]. fold ev. now rewrite E. }
    rewrite ST. destruct (IH s' rs (cs ++ [k])%list) as (l & e & L & CE & CL); auto; try discriminate.
    { rewrite <- app_assoc. exact ND. }
    { rewrite NC. unfold slength in *. rewrite app_length. cbn [List.length] in *. lia. }
    { now rewrite NC. }
    exists ((ev, outcome self s ev) :: l), e. cbn [app]. split; [now rewrite <- L|]. split; [auto|].
    intros e' [<-|I]; [|auto]. unfold confirmed, outcome, exec.
    cbn [fst snd ev e_call ctx_of ctx_attached e_attached N.eqb require bind]. fold ev. rewrite E. reflexivity.
Qed.

Lemma quorum_executes k s0 evs r key0 t0 others : new false k = Ok s0 ->
  let s := final self s0 evs in
  let id := get_request_nonce s in
  executable self r ->
  NoDup (key0 :: map fst others) ->
  N.of_nat (List.length (key0 :: map fst others)) = N.max 1 (get_num_confirmations s) ->
  get_num_confirmations s < U32_BOUND ->
  get_num_requests_pk s key0 + 1 <= active_requests_limit s ->
  get_num_requests_pk s key0 + 1 < U32_BOUND -> id + 1 < U32_BOUND ->
  exists l e,
    log self s (mkEvent self key0 0 t0 (CAddRequestAndConfirm r)
                :: map (fun kt => mkEvent self (fst kt) 0 (snd kt) (CConfirm id)) others) = (l ++ [e])%list /\
    confirmed e = Some (id, Some (asked r)) /\ forall e', In e' l -> confirmed e' = Some (id, None).
Proof.
  intros _ s id X ND Q B A A32 NX. set (ev := mkEvent self key0 0 t0 (CAddRequestAndConfirm r)).
  unfold get_num_requests_pk in *. unfold get_num_confirmations in *.
  set (s1 := mkContract (num_confirmations s) (id + 1)
        (minsert id (mkSigned r key0 t0) (requests s)) (minsert id [] (confirmations s))
        (minsert key0 (num_requests_of s key0 + 1) (num_requests_pk s)) (active_requests_limit s)).
  assert (AD : add_request (ctx_of self ev) s r = Ok (s1, id)).
  { unfold add_request. cbn [ctx_of ctx_current ctx_predecessor ctx_signer_pk ctx_timestamp ev e_pred e_key e_time].
    rewrite String.eqb_refl. cbn [require bind]. unfold add32, add_chk, fits.
    apply N.ltb_lt in A32. rewrite A32. cbn [bind]. apply N.leb_le in A. rewrite A. cbn [require bind].
    apply N.ltb_lt in NX. unfold id, get_request_nonce in *. rewrite NX. reflexivity. }
  assert (G : mget id (requests s1) = Some (mkSigned r key0 t0)).
  { cbn [s1 requests]. now rewrite mget_minsert, keqb_refl. }
  assert (GC : mget id (confirmations s1) = Some []).
  { cbn [s1 confirmations]. now rewrite mget_minsert, keqb_refl. }
  cbn [List.length] in Q. rewrite Nat2N.inj_succ, map_length in Q.
  destruct (confirm_cases (ctx_of self ev) s1 id _ [] G GC eq_refl ltac:(auto) ltac:(cbn; reflexivity)) as [C1 C2].
  cbn [the_request] in C2. change (num_confirmations s1) with (num_confirmations s) in *.
  cbn [slength List.length] in C1, C2. change (0 + 1) with 1 in *.
  assert (OUT : forall s' p, confirm (ctx_of self ev) s1 id = Ok (s', p) ->
    step self s ev = s' /\ confirmed (ev, outcome self s ev) = Some (id, p)).
  { intros s' p E. unfold step, confirmed, outcome, exec, add_request_and_confirm.
    cbn [fst snd ev e_call]. fold ev. rewrite AD. cbn [ctx_of ctx_attached ev e_attached N.eqb require bind]. fold ev.
    change (mkCtx self (e_pred ev) (e_key ev) (e_attached ev) (e_time ev)) with (ctx_of self ev).
    rewrite E. cbn [bind]. auto. }
  cbn [log]. destruct others as [|x others].
  - cbn [List.length] in Q. destruct (C2 ltac:(lia) X) as [s' E]. destruct (OUT _ _ E) as [_ CE].
    exists [], (ev, outcome self s ev). cbn. split; [reflexivity|]. split; [exact CE|intros ? []].
  - assert (Q1 : 1 < num_confirmations s) by (cbn [List.length] in Q; rewrite Nat2N.inj_succ in Q; lia).
    destruct (C1 Q1) as (s' & E & G' & GC' & NC). destruct (OUT _ _ E) as [ST CE]. rewrite ST.
    change (num_confirmations s1) with (num_confirmations s) in NC.
    destruct (rest_confirm id (x :: others) s' _ _ G' GC') as (l & e & L & CE' & CL); auto; try discriminate.
    { rewrite NC. unfold slength. cbn [List.length app] in *. lia. }
    { now rewrite NC. }
    exists ((ev, outcome self s ev) :: l), e. cbn [app]. unfold confirmations_by in L. rewrite L.
    split; [reflexivity|]. split; [exact CE'|]. intros e' [<-|I]; auto.
Qed.

(** The same with [add_request] and [confirm] only. *)
Lemma quorum_executes_added k s0 evs r key0 t0 others : new false k = Ok s0 ->
  let s := final self s0 evs in
  let id := get_request_nonce s in
  executable self r ->
  NoDup (map fst others) ->
  N.of_nat (List.length others) = N.max 1 (get_num_confirmations s) ->
  get_num_confirmations s < U32_BOUND ->
  get_num_requests_pk s key0 + 1 <= active_requests_limit s ->
  get_num_requests_pk s key0 + 1 < U32_BOUND -> id + 1 < U32_BOUND ->
  exists e0 l e,
    log self s (mkEvent self key0 0 t0 (CAddRequest r)
                :: map (fun kt => mkEvent self (fst kt) 0 (snd kt) (CConfirm id)) others) = (e0 :: l ++ [e])%list /\
    added e0 = Some (id, r) /\
    confirmed e = Some (id, Some (asked r)) /\ forall e', In e' l -> confirmed e' = Some (id, None).
Proof.
  intros _ s id X ND Q B A A32 NX. set (ev := mkEvent self key0 0 t0 (CAddRequest r)).
  unfold get_num_requests_pk in *. unfold get_num_confirmations in *.
  set (s1 := mkContract (num_confirmations s) (id + 1)
        (minsert id (mkSigned r key0 t0) (requests s)) (minsert id [] (confirmations s))
        (minsert key0 (num_requests_of s key0 + 1) (num_requests_pk s)) (active_requests_limit s)).
  assert (AD : exec (ctx_of self ev) s (CAddRequest r) = Ok (s1, OAdded id)).
  { unfold exec, add_request. cbn [ctx_of ctx_attached ctx_current ctx_predecessor ctx_signer_pk ctx_timestamp ev e_attached e_pred e_key e_time].
    rewrite String.eqb_refl. cbn [N.eqb require bind]. unfold add32, add_chk, fits.
    apply N.ltb_lt in A32. rewrite A32. cbn [bind]. apply N.leb_le in A. rewrite A. cbn [require bind].
    apply N.ltb_lt in NX. unfold id, get_request_nonce in *. rewrite NX. reflexivity. }
  assert (ST : step self s ev = s1) by (unfold step; cbn [ev e_call]; fold ev; now rewrite AD).
  assert (OU : outcome self s ev = Some (OAdded id)) by (unfold outcome; cbn [ev e_call]; fold ev; now rewrite AD).
  cbn [log]. rewrite ST, OU. change (num_confirmations s) with (num_confirmations s1) in Q, B.
  destruct others as [|x others]; [cbn in Q; lia|].
  destruct (N.eq_dec (num_confirmations s1) 0) as [Z|NZ].
  - destruct others as [|y others]. 2:{ cbn [List.length] in Q. lia. }
    destruct (confirm_cases (ctx_of self (mkEvent self (fst x) 0 (snd x) (CConfirm id))) s1 id (mkSigned r key0 t0) []) as [_ C2];
      auto; try reflexivity; try (cbn [s1 requests confirmations]; now rewrite mget_minsert, keqb_refl).
    destruct C2 as [s' E]. { rewrite Z. cbn. lia. } { exact X. }
    exists (ev, Some (OAdded id)), [], (mkEvent self (fst x) 0 (snd x) (CConfirm id), outcome self s1 (mkEvent self (fst x) 0 (snd x) (CConfirm id))).
    split; [reflexivity|]. split; [reflexivity|]. split; [|intros ? []].
    unfold confirmed, outcome, exec. cbn [fst snd e_call]. cbn [ctx_of ctx_attached e_attached N.eqb require bind].
    change (mkCtx self _ _ _ _) with (ctx_of self (mkEvent self (fst x) 0 (snd x) (CConfirm id))). rewrite E. reflexivity.
  - destruct (rest_confirm id (x :: others) s1 (mkSigned r key0 t0) []) as (l & e & L & CE & CL); auto; try discriminate;
      try (cbn [s1 requests confirmations]; now rewrite mget_minsert, keqb_refl).
    { unfold slength. cbn [List.length] in *. lia. }
    exists (ev, Some (OAdded id)), l, e. unfold confirmations_by in L. rewrite L. auto.
Qed.

(** When a confirmation executes the request. *)
Lemma executes_iff k s0 evs ev id p : new false k = Ok s0 -> e_call ev = CConfirm id ->
  let s := final self s0 evs in
  let n := N.of_nat (List.length (confirmers (log self s0 evs) id)) in
  n + 1 < U32_BOUND ->
  (confirmed (ev, outcome self s ev) = Some (id, Some p) <->
   e_pred ev = self /\ e_attached ev = 0 /\ In id (list_request_ids s) /\
   ~ In (e_key ev) (confirmers (log self s0 evs) id) /\ get_num_confirmations s <= n + 1 /\
   exists e0 r, In e0 (log self s0 evs) /\ added e0 = Some (id, r) /\ executable self r /\ p = asked r).
Proof.
  intros E C s n B. pose proof (log_inv self _ _ evs E) as H. fold s in H.
  assert (R : exists rs cs, In id (list_request_ids s) -> mget id (requests s) = Some rs /\
     mget id (confirmations s) = Some cs /\ cs = confirmers (log self s0 evs) id /\
     exists e0, In e0 (log self s0 evs) /\ added e0 = Some (id, the_request rs)).
  { destruct (mget id (requests s)) as [rs|] eqn:G.
    - pose proof (ok_same _ (h_ok _ _ _ H) id) as SM. unfold mmem in SM. rewrite G in SM.
      destruct (mget id (confirmations s)) as [cs|] eqn:GC; [|discriminate].
      exists rs, cs. intros _. do 2 (split; [reflexivity|]). split; [now apply (h_confs _ _ _ H) in GC|].
      pose proof (h_added _ _ _ H _ _ G) as (l1 & ent & l2 & L & A & _). exists ent. split; auto.
      rewrite L. apply in_or_app. right. now left.
    - exists (mkSigned (mkRequest "" []) "" 0), []. intros I. unfold list_request_ids in I.
      apply in_mkeys_mmem in I. unfold mmem in I. rewrite G in I. discriminate. }
  destruct R as (rs & cs & R). split.
  - intros CE. assert (OK : exists s', exec (ctx_of self ev) s (CConfirm id) = Ok (s', OConfirmed (Some p))).
    { unfold confirmed, outcome in CE. cbn [fst snd] in CE. rewrite C in CE.
      destruct (exec _ _ _) as [[s' o]|]; [|discriminate]. destruct o; try discriminate. injection CE as ->. eauto. }
    destruct OK as [s' X]. unfold exec in X. inv_res. norm_bool. destruct x0 as [s2 p2]. injection X as <- ->.
    match goal with H : confirm _ _ _ = Ok _ |- _ => rename H into CF end.
    apply confirm_ok in CF; [|apply H]. destruct CF as (rs' & cs' & G & GC & P & NI & Q & s1 & RR & _ & XE).
    assert (I : In id (list_request_ids s)).
    { unfold list_request_ids. apply in_mkeys_mmem. unfold mmem. now rewrite G. }
    destruct (R I) as (G2 & GC2 & CC & e0 & I0 & A0). rewrite G in G2. injection G2 as ->.
    rewrite GC in GC2. injection GC2 as ->. cbn in P, NI. rewrite CC in NI, Q.
    split; [congruence|]. split; [assumption|]. split; [exact I|]. split; [exact NI|].
    split; [exact Q|]. exists e0, (the_request rs). split; [auto|]. split; [auto|].
    destruct XE as [_ _ PR K S _ _ _]. split; [|exact PR]. split; [exact K|].
    intros ST. destruct (S ST) as (Y & a & ->). auto.
  - intros (P & A & I & NI & Q & e0 & r & I0 & A0 & X & ->).
    destruct (R I) as (G & GC & CC & e1 & I1 & A1).
    assert (RR : r = the_request rs).
    { pose proof (granted_unique _ e0 e1 id _ _ (NoDup_granted self _ _ evs E) I0 I1 A0 A1) as U.
      rewrite U in A0. congruence. }
    destruct (confirm_cases (ctx_of self ev) s id rs cs G GC) as [_ C2].
    { cbn. congruence. } { rewrite CC. exact NI. } { rewrite CC. exact B. }
    destruct C2 as [s' CF]. { rewrite CC. exact Q. } { rewrite <- RR. exact X. }
    unfold confirmed, outcome, exec. cbn [fst snd]. rewrite C. cbn [ctx_of ctx_attached]. rewrite A.
    cbn [N.eqb require bind].
    rewrite CF. cbn. now rewrite RR.
Qed.
End Live.
