(** Proofs about the second multisig contract. *)
From Coq Require Import NArith List Bool String Lia Permutation.
From Verif Require Import Prelude PreludeFacts MapFacts Json Multisig2Model Multisig2Spec.
Import ListNotations.
Open Scope N_scope.

(** * Texts are identities *)
Lemma text_inj a b : text a = text b -> a = b.
Proof.
  destruct a as [x|x], b as [y|y]; unfold text, quote; cbn [append]; intros E; try discriminate.
  - repeat match type of E with String _ _ = String _ _ => apply (f_equal (fun s => match s with String _ r => r | _ => EmptyString end)) in E; cbv beta iota in E end.
    apply escape_quote_inj in E. destruct E as [-> _]. reflexivity.
  - repeat match type of E with String _ _ = String _ _ => apply (f_equal (fun s => match s with String _ r => r | _ => EmptyString end)) in E; cbv beta iota in E end.
    apply escape_quote_inj in E. destruct E as [-> _]. reflexivity.
Qed.

Lemma text_eqb a b : String.eqb (text a) (text b) = member_eqb a b.
Proof.
  destruct (String.eqb_spec (text a) (text b)) as [E|NE], (member_eqb_spec a b) as [E'|NE']; auto.
  - apply text_inj in E. contradiction.
  - subst. contradiction.
Qed.

(** * The state invariant *)
Definition cnt (k : member) (m : umap request_id signed_request) : N :=
  msum (fun r => if member_eqb (the_member r) k then 1 else 0) m.

Record ok (s : contract) : Prop := {
  ok_mem : NoDup (members s);
  ok_req : NoDup (mkeys (requests s));
  ok_conf : NoDup (mkeys (confirmations s));
  ok_num : NoDup (mkeys (num_requests_pk s));
  ok_same : forall id, mmem id (requests s) = mmem id (confirmations s);
  ok_nonce : forall id, mmem id (requests s) = true -> id < request_nonce s;
  ok_cnt : forall k, num_requests_of s k = cnt k (requests s)
}.

Lemma member_eqb_refl k : member_eqb k k = true.
Proof. destruct (member_eqb_spec k k); congruence. Qed.

Lemma cnt_pos k id rs m : mget id m = Some rs -> the_member rs = k -> 0 < cnt k m.
Proof.
  intros G E. pose proof (msum_ge (fun r => if member_eqb (the_member r) k then 1 else 0) id rs m G) as X.
  cbn beta in X. rewrite E, member_eqb_refl in X. unfold cnt. lia.
Qed.

(** A freshly made contract: the given members, each once, and nothing else. *)
Lemma new_fold c ms : forall s acts,
  let r := fold_left (fun '(s, acts) m => let '(s, b) := add_member c s m in (s, acts ++ b)%list) ms (s, acts) in
  fst r = mkContract (fold_left (fun x m => sinsert m x) ms (members s)) (num_confirmations s) (request_nonce s)
            (requests s) (confirmations s) (num_requests_pk s) (active_requests_limit s) /\
  snd r = (acts ++ flat_map (batch_of (ctx_current c)) (map AddMember ms))%list.
Proof.
  induction ms as [|m ms IH]; cbn [fold_left]; intros s acts.
  - cbn. rewrite app_nil_r. destruct s; auto.
  - cbn zeta. destruct (add_member c s m) as [s1 b] eqn:A.
    specialize (IH s1 (acts ++ b)%list). cbn zeta in IH. destruct IH as [-> ->].
    unfold add_member in A. injection A as <- <-. cbn [members num_confirmations request_nonce requests
      confirmations num_requests_pk active_requests_limit]. split; [reflexivity|].
    rewrite <- app_assoc. apply f_equal. cbn [map flat_map]. destruct m; reflexivity.
Qed.

Lemma NoDup_fold_sinsert (ms : list member) : forall x, NoDup x -> NoDup (fold_left (fun x m => sinsert m x) ms x).
Proof. induction ms as [|m ms IH]; cbn [fold_left]; intros x ND; auto. apply IH. now apply NoDup_sinsert. Qed.
Lemma in_fold_sinsert (ms : list member) k : forall x,
  In k (fold_left (fun x m => sinsert m x) ms x) <-> In k x \/ In k ms.
Proof.
  induction ms as [|m ms IH]; cbn [fold_left In]; intros x; [tauto|].
  rewrite IH, sinsert_in. intuition congruence.
Qed.

Lemma new_spec self ms k s p : new self false ms k = Ok (s, p) ->
  s = mkContract (fold_left (fun x m => sinsert m x) ms []) k 0 [] [] [] 12 /\
  p = asked self (mkRequest self (map AddMember ms)) /\ k <= N.of_nat (List.length ms).
Proof.
  unfold new. intros E. inv_res. norm_bool.
  pose proof (new_fold (mkCtx self self "" 0 0) ms (mkContract [] k 0 [] [] [] ACTIVE_REQUESTS_LIMIT) []) as X.
  cbn zeta in X. destruct (fold_left _ ms _) as [s1 acts] eqn:F. cbn [fst snd] in X. destruct X as [-> ->].
  inv_res. auto.
Qed.

Lemma new_ok self ms k s p : new self false ms k = Ok (s, p) -> ok s.
Proof.
  intros E. apply new_spec in E. destruct E as (-> & _ & _).
  split; cbn; try constructor; try discriminate; auto.
  apply NoDup_fold_sinsert. constructor.
Qed.

Lemma current_member_ok self ev s m : current_member (ctx_of self ev) s = Some m ->
  m = caller self ev /\ In m (members s).
Proof.
  unfold current_member, caller. cbn [ctx_of ctx_current ctx_predecessor ctx_signer_pk].
  rewrite (String.eqb_sym self). destruct (smem _ (members s)) eqn:M; [|discriminate].
  intros E. injection E as <-. split; auto. now apply smem_in.
Qed.

(** * Adding *)
Lemma add_request_ok c s r s' id :
  add_request c s r = Ok (s', id) -> ok s ->
  exists m, current_member c s = Some m /\
  num_requests_of s m + 1 <= active_requests_limit s /\
  id = request_nonce s /\ id + 1 < U32_BOUND /\
  s' = mkContract (members s) (num_confirmations s) (id + 1)
        (minsert id (mkSigned r m (ctx_timestamp c)) (requests s))
        (minsert id [] (confirmations s))
        (minsert (text m) (num_requests_of s m + 1) (num_requests_pk s))
        (active_requests_limit s) /\
  ok s'.
Proof.
  unfold add_request. intros E O. inv_res. norm_bool.
  match goal with H : current_member c s = Some ?x |- _ => exists x; rename x into k0 end.
  do 5 (split; [solve [auto]|]). destruct O as [MM R C NM SM NO CN].
  split; cbn [members requests confirmations num_requests_pk request_nonce]; try solve [solve_nd].
  - intros id. rewrite !mmem_minsert. now rewrite SM.
  - intros id. rewrite mmem_minsert. intros E. apply orb_true_iff in E.
    destruct E as [E|E]; [apply keqb_eq in E; subst; lia|apply NO in E; lia].
  - intros k. unfold num_requests_of at 1. cbn [num_requests_pk]. rewrite mget_minsert.
    pose proof (msum_minsert (fun r => if member_eqb (the_member r) k then 1 else 0)
      (request_nonce s) (mkSigned r k0 (ctx_timestamp c)) (requests s)) as X.
    assert (Z : mget (request_nonce s) (requests s) = None).
    { apply mmem_false. destruct (mmem (request_nonce s) (requests s)) eqn:M; auto. apply NO in M. lia. }
    rewrite Z in X. cbn [the_member] in X. unfold cnt.
    change (keqb (text k) (text k0)) with (String.eqb (text k) (text k0)).
    rewrite (String.eqb_sym (text k)), text_eqb. destruct (member_eqb_spec k0 k) as [->|].
    + rewrite CN. unfold cnt in *. lia.
    + fold (num_requests_of s k). rewrite CN. unfold cnt. lia.
Qed.

(** * Removing *)
Lemma remove_request_ok s id s' r :
  remove_request s id = Ok (s', r) -> ok s ->
  exists rs, mget id (requests s) = Some rs /\ r = the_request rs /\
    requests s' = mremove id (requests s) /\ confirmations s' = mremove id (confirmations s) /\
    num_confirmations s' = num_confirmations s /\ request_nonce s' = request_nonce s /\
    active_requests_limit s' = active_requests_limit s /\ members s' = members s /\ ok s'.
Proof.
  unfold remove_request. intros E O. inv_res. rename E0 into G. exists x. split; [exact G|].
  split; [reflexivity|]. cbn [requests confirmations num_requests_pk request_nonce num_confirmations active_requests_limit].
  do 6 (split; [solve [auto]|]). destruct O as [MM R C NM SM NO CN].
  split; cbn [members requests confirmations num_requests_pk request_nonce];
    try solve [solve_nd].
  - intros i. rewrite !mmem_mremove by auto. now rewrite SM.
  - intros i. rewrite mmem_mremove by auto. intros E. apply andb_true_iff in E. apply NO. tauto.
  - intros k. unfold num_requests_of at 1. cbn [num_requests_pk]. rewrite mget_minsert.
    pose proof (msum_mremove (fun r => if member_eqb (the_member r) k then 1 else 0) id (requests s)) as X.
    rewrite G in X. unfold cnt.
    change (keqb (text k) (text (the_member x))) with (String.eqb (text k) (text (the_member x))).
    rewrite (String.eqb_sym (text k)), text_eqb. destruct (member_eqb_spec (the_member x) k) as [E|NE].
    + rewrite E, CN. pose proof (cnt_pos k id x _ G E) as P. apply N.ltb_lt in P. rewrite P.
      apply N.ltb_lt in P. unfold cnt in *. lia.
    + fold (num_requests_of s k). rewrite CN. unfold cnt. lia.
Qed.

Lemma remove_request_intro s id : mmem id (requests s) = true -> exists r, remove_request s id = Ok r.
Proof.
  intros M. apply mmem_mget in M. destruct M as [rs G]. unfold remove_request. rewrite G. cbn. eauto.
Qed.

(** * Deleting a key *)
Lemma drop_ok s pk : ok s ->
  let s' := drop_member s pk in
  ok s' /\
  (forall id, mget id (requests s') =
     match mget id (requests s) with
     | Some rs => if member_eqb (the_member rs) pk then None else Some rs
     | None => None end) /\
  (forall id, mget id (confirmations s') =
     match mget id (requests s) with
     | Some rs => if member_eqb (the_member rs) pk then None else mget id (confirmations s)
     | None => None end).
Proof.
  intros [MM R C NM SM NO CN] s'.
  set (f := fun kr : request_id * signed_request => member_eqb (the_member (snd kr)) pk).
  set (ids := map fst (filter f (requests s))).
  assert (GR : forall id, mget id (requests s') =
     match mget id (requests s) with
     | Some rs => if member_eqb (the_member rs) pk then None else Some rs
     | None => None end).
  { intros id. change (requests s') with (fold_left (fun m i => mremove i m) ids (requests s)).
    rewrite mget_fold_mremove by auto. unfold ids. rewrite smem_filter_keys by auto.
    destruct (mget id (requests s)); auto. }
  assert (GC : forall id, mget id (confirmations s') =
     match mget id (requests s) with
     | Some rs => if member_eqb (the_member rs) pk then None else mget id (confirmations s)
     | None => None end).
  { intros id. change (confirmations s') with (fold_left (fun m i => mremove i m) ids (confirmations s)).
    rewrite mget_fold_mremove by auto. unfold ids. rewrite smem_filter_keys by auto.
    specialize (SM id). unfold mmem in SM.
    destruct (mget id (requests s)); auto. destruct (mget id (confirmations s)); congruence. }
  split; [|split; auto]. split.
  - now apply NoDup_sremove.
  - solve_nd.
  - solve_nd.
  - solve_nd.
  - intros id. unfold mmem. rewrite GR, GC. specialize (SM id). unfold mmem in SM.
    destruct (mget id (requests s)); auto. destruct (member_eqb _ _); auto.
  - intros id M. apply NO. unfold mmem in *. rewrite GR in M. destruct (mget id (requests s)); auto.
  - intros k. unfold num_requests_of. cbn [drop_member num_requests_pk s'].
    rewrite mget_mremove by auto.
    change (requests s') with (fold_left (fun m i => mremove i m) ids (requests s)).
    unfold cnt. rewrite (msum_perm _ _ _ (fold_mremove_filter f (requests s) R)).
    change (keqb (text k) (text pk)) with (String.eqb (text k) (text pk)). rewrite text_eqb.
    assert (X : forall m : umap request_id signed_request,
      msum (fun r => if member_eqb (the_member r) k then 1 else 0) (filter (fun kv => negb (f kv)) m)
      = if member_eqb k pk then 0 else cnt k m).
    { clear. unfold cnt, msum, f. induction m as [|[i rs] m IH]; cbn [filter fold_right snd].
      - now destruct (member_eqb k pk).
      - destruct (member_eqb_spec (the_member rs) pk) as [E|NE]; cbn [negb fold_right snd]; rewrite IH.
        + destruct (member_eqb_spec k pk) as [->|NK]; auto.
          destruct (member_eqb_spec (the_member rs) k); [congruence|]. lia.
        + destruct (member_eqb_spec k pk) as [->|NK]; auto.
          destruct (member_eqb_spec (the_member rs) pk); [contradiction|]. reflexivity. }
    rewrite X. destruct (member_eqb k pk); auto. apply CN.
Qed.

(** * Executing a request *)
(** [s'] has lost some of the requests of [s], with their confirmations, and nothing else. *)
Definition shrinks (s s' : contract) : Prop :=
  request_nonce s' = request_nonce s /\
  (forall id rs, mget id (requests s') = Some rs -> mget id (requests s) = Some rs) /\
  (forall id cs, mget id (confirmations s') = Some cs -> mget id (confirmations s) = Some cs).

Lemma shrinks_refl s : shrinks s s.
Proof. repeat split; auto. Qed.
Lemma shrinks_trans a b c : shrinks a b -> shrinks b c -> shrinks a c.
Proof. intros (A & B & C) (D & E & F). repeat split; [congruence|auto|auto]. Qed.

(** What executing [l] on [s] amounts to. *)
Record executed_list (c : ctx) (rcv : account_id) (n : nat) (l : list action)
    (s : contract) (acc : list batch_action) (s' : contract) (acc' : list batch_action) : Prop := {
  xl_ok : ok s';
  xl_shrinks : shrinks s s';
  xl_plain : existsb setting_action l = false ->
     acc' = (acc ++ flat_map (batch_of (ctx_current c)) l)%list /\
     num_confirmations s' = num_confirmations s /\ active_requests_limit s' = active_requests_limit s /\
     members s' = members_after l (members s) /\
     (num_confirmations s <= slength (members s) -> num_confirmations s' <= slength (members s')) /\
     (forall m id rs, In (DeleteMember m) l -> mget id (requests s') = Some rs -> the_member rs <> m);
  xl_setting : existsb setting_action l = true -> n = 1%nat /\ rcv = ctx_current c;
  xl_key : existsb key_action l = true -> existsb setting_action l = false -> rcv = ctx_current c;
  xl_one : forall a, l = [a] -> setting_action a = true -> acc' = acc /\ members s' = members s /\
     num_confirmations s' = match a with SetNumConfirmations k => k | _ => num_confirmations s end /\
     active_requests_limit s' = match a with SetActiveRequestsLimit k => k | _ => active_requests_limit s end
}.

Lemma xl_cons c rcv n a l s acc s1 b s' acc' :
  setting_action a = false -> batch_of (ctx_current c) a = b -> shrinks s s1 ->
  num_confirmations s1 = num_confirmations s -> active_requests_limit s1 = active_requests_limit s ->
  members s1 = member_effect a (members s) ->
  (num_confirmations s <= slength (members s) -> num_confirmations s1 <= slength (members s1)) ->
  (key_action a = true -> rcv = ctx_current c) ->
  (forall m id rs, a = DeleteMember m -> mget id (requests s1) = Some rs -> the_member rs <> m) ->
  executed_list c rcv n l s1 (acc ++ b)%list s' acc' ->
  executed_list c rcv n (a :: l) s acc s' acc'.
Proof.
  intros NS B SH NC AL ME QU KA DK [O2 SH2 P1 P2 P3 _].
  split; cbn [existsb flat_map]; try rewrite NS; cbn [orb]; auto.
  - eapply shrinks_trans; eauto.
  - intros F. destruct (P1 F) as (-> & E2 & E3 & E4 & E5 & D). rewrite <- app_assoc, B.
    split; [auto|]. split; [congruence|]. split; [congruence|].
    split. { rewrite E4, ME. reflexivity. }
    split. { rewrite <- E2 in *. auto. }
    intros m id rs [X|X] G; [|eauto]. destruct SH2 as (_ & RR & _). eapply DK; eauto.
  - intros X NX. apply orb_true_iff in X. destruct X; auto.
  - intros a0 X Y. injection X as -> ->. congruence.
Qed.

Lemma slength_nodup_sub (x : list member) m : NoDup x -> slength x <= slength (sremove m x) + 1.
Proof. intros ND. pose proof (slength_sremove m x ND). destruct (smem m x); lia. Qed.

Lemma execute_actions_ok c rcv n l : forall s acc s' acc',
  execute_actions c rcv n l s acc = Ok (s', acc') -> ok s ->
  executed_list c rcv n l s acc s' acc'.
Proof.
  induction l as [|a l IH]; cbn [execute_actions]; intros s acc s' acc' E O.
  - inv_res. split; cbn; auto using shrinks_refl; try discriminate.
    intros _. rewrite app_nil_r. repeat split; auto; contradiction.
  - destruct a.
    1-3,7: eapply xl_cons; [..|apply IH; [exact E|auto]]; auto using shrinks_refl; discriminate.
    + (* AddMember *)
      unfold assert_self_request in E. inv_res. norm_bool. unfold add_member in E.
      eapply xl_cons; [..|apply IH; [exact E|]]; auto; try discriminate.
      * repeat split; auto.
      * cbn [num_confirmations members]. rewrite slength_sinsert. destruct (smem m (members s)); lia.
      * destruct O as [MM R C NM SM NO CN]. split; cbn; auto. now apply NoDup_sinsert.
    + (* DeleteMember *)
      unfold assert_self_request in E. inv_res. norm_bool. destruct x0 as [s1 b].
      match goal with H : delete_member _ _ = Ok _ |- _ => rename H into D end.
      unfold delete_member in D. inv_res. norm_bool. destruct (drop_ok s m O) as (O1 & G1 & G2).
      eapply xl_cons; [..|apply IH; [exact E|exact O1]]; auto.
      * repeat split; auto.
        -- intros id rs G. rewrite G1 in G. destruct (mget id (requests s)); [|discriminate].
           destruct (member_eqb _ _); congruence.
        -- intros id cs G. rewrite G2 in G. destruct (mget id (requests s)); [|discriminate].
           destruct (member_eqb _ _); congruence.
      * intros Q. cbn [drop_member members num_confirmations].
        pose proof (slength_nodup_sub (members s) m (ok_mem _ O)). lia.
      * intros m0 id rs X G. injection X as <-. rewrite G1 in G.
        destruct (mget id (requests s)) as [s0|]; [|discriminate].
        destruct (member_eqb_spec (the_member s0) m); congruence.
    + (* AddKey *)
      unfold assert_self_request in E. inv_res. norm_bool.
      destruct perm; (eapply xl_cons; [..|apply IH; [exact E|auto]]); auto using shrinks_refl; discriminate.
    + unfold assert_one_action_only, assert_self_request in E. inv_res.
      norm_bool. split; cbn [existsb setting_action orb]; auto; try discriminate.
      * destruct O; split; auto.
      * repeat split; auto.
      * intros a0 X Y. injection X as <- _. cbn. auto.
    + unfold assert_one_action_only, assert_self_request in E. inv_res.
      norm_bool. split; cbn [existsb setting_action orb]; auto; try discriminate.
      * destruct O; split; auto.
      * repeat split; auto.
      * intros a0 X Y. injection X as <- _. cbn. auto.
Qed.

(** What executing [r] on [s] amounts to. *)
Record executed (self : account_id) (s : contract) (r : request) (s' : contract) (p : promise) : Prop := {
  x_ok : ok s';
  x_shrinks : shrinks s s';
  x_promise : p = asked self r;
  x_keys : existsb key_action (actions r) = true -> receiver_id r = self;
  x_settings : existsb setting_action (actions r) = true ->
               receiver_id r = self /\ exists a, actions r = [a];
  x_num : num_confirmations s' =
          match actions r with [SetNumConfirmations k] => k | _ => num_confirmations s end;
  x_limit : active_requests_limit s' =
            match actions r with [SetActiveRequestsLimit k] => k | _ => active_requests_limit s end;
  x_members : members s' = members_after (actions r) (members s);
  x_quorum : num_confirmations s <= slength (members s) ->
             existsb setting_action (actions r) = false -> num_confirmations s' <= slength (members s');
  x_delete : forall m id rs, In (DeleteMember m) (actions r) -> mget id (requests s') = Some rs ->
             the_member rs <> m
}.

Lemma execute_request_ok c s r s' p :
  execute_request c s r = Ok (s', p) -> ok s -> executed (ctx_current c) s r s' p.
Proof.
  unfold execute_request. intros E O. inv_res. destruct x as [s1 acts]. inv_res.
  apply execute_actions_ok in E0; auto. destruct E0 as [O1 SH P1 P2 P3 P4].
  destruct (existsb setting_action (actions r)) eqn:ST.
  - destruct (P2 eq_refl) as [L R].
    assert (A : exists a, actions r = [a]).
    { destruct (actions r) as [|a [|b l]]; try discriminate. eauto. }
    destruct A as [a A]. assert (SA : setting_action a = true).
    { rewrite A in ST. cbn in ST. now rewrite orb_false_r in ST. }
    destruct (P4 a A SA) as (-> & M1 & N1 & N2). clear P1 P2 P3 P4.
    split; auto; try rewrite A.
    + unfold asked. rewrite A. destruct a; try discriminate; reflexivity.
    + intros _. split; eauto.
    + rewrite N1. destruct a; auto.
    + rewrite N2. destruct a; auto.
    + rewrite M1. destruct a; try discriminate; reflexivity.
    + cbn. rewrite SA. discriminate.
    + intros pk id rs [->|[]]. discriminate.
  - destruct (P1 eq_refl) as (-> & N1 & N2 & M1 & Q & D).
    split; auto; try discriminate.
    + congruence.
    + rewrite N1. destruct (actions r) as [|[] [|]]; auto. discriminate.
    + rewrite N2. destruct (actions r) as [|[] [|]]; auto. discriminate.
Qed.

(** * Confirming *)
Lemma confirm_ok c s id s' p :
  confirm c s id = Ok (s', p) -> ok s ->
  exists rs cs, mget id (requests s) = Some rs /\ mget id (confirmations s) = Some cs /\
    exists m, current_member c s = Some m /\ ~ In (text m) cs /\
    match p with
    | None => s' = mkContract (members s) (num_confirmations s) (request_nonce s) (requests s)
                     (minsert id (cs ++ [text m])%list (confirmations s))
                     (num_requests_pk s) (active_requests_limit s) /\
              slength cs mod U32_BOUND + 1 < num_confirmations s /\ ok s'
    | Some pr => num_confirmations s <= slength cs + 1 /\
              exists s1, remove_request s id = Ok (s1, the_request rs) /\ ok s1 /\
                executed (ctx_current c) s1 (the_request rs) s' pr
    end.
Proof.
  unfold confirm, assert_valid_request. intros E O. inv_all.
  match goal with H : mmem id (requests s) = true |- _ => apply mmem_mget in H; destruct H as [rs G] end.
  match goal with H : mget id (confirmations s) = Some ?x |- _ => rename x into cs, H into GC end.
  match goal with H : ~ In _ cs |- _ => rename H into NI end.
  match goal with H : current_member c s = Some ?x |- _ => rename x into k0 end.
  exists rs, cs. do 2 (split; [solve [auto]|]). exists k0. do 2 (split; [solve [auto]|]).
  destruct (N.leb_spec (num_confirmations s) (slength cs mod U32_BOUND + 1)) as [L|L].
  - inv_all. rename s' into s2.
    match goal with H : remove_request s id = Ok (?a, ?b) |- _ => rename H into RR, a into s1, b into r end.
    split. { pose proof (N.mod_le (slength cs) U32_BOUND ltac:(discriminate)). lia. }
    exists s1. pose proof (remove_request_ok _ _ _ _ RR O) as (rs' & G' & R & _ & _ & _ & _ & _ & _ & O1).
    rewrite G in G'. injection G' as <-. subst r. do 2 (split; [solve [auto]|]).
    now apply execute_request_ok.
  - inv_all. assert (SI : sinsert (text k0) cs = (cs ++ [text k0])%list).
    { unfold sinsert. apply smem_false in NI. now rewrite NI. }
    rewrite SI. split; [reflexivity|]. split; [auto|].
    destruct O as [MM R C NM SM NO CN].
    split; cbn [members requests confirmations num_requests_pk request_nonce]; try solve [solve_nd]; auto.
    intros i. rewrite mmem_minsert. rewrite SM. destruct (keqb_spec i id); auto. subst.
    cbn [orb]. apply mmem_mget. eauto.
Qed.

(** * One call *)
Definition old_confs (s : contract) (id : request_id) : list string :=
  match mget id (confirmations s) with Some cs => cs | None => [] end.

(** The members an entry adds to the confirmations of [id]. *)
Definition confs_of (e : entry) (id : request_id) : list member :=
  match confirmed e with
  | Some (id', _) => if id' =? id then [l_caller e] else []
  | None => []
  end.

Definition request_of (s : contract) (e : entry) (id : request_id) (r : request) : Prop :=
  (exists rs, mget id (requests s) = Some rs /\ r = the_request rs) \/ added e = Some (id, r).

(** What a successful call does. *)
Record effect (self : account_id) (s : contract) (ev : event) (s' : contract) (e : entry) : Prop := {
  f_ok : ok s';
  f_caller : l_caller e = caller self ev /\ In (caller self ev) (members s);
  f_nonce : match added e with
            | Some (id, _) => id = request_nonce s /\ request_nonce s' = request_nonce s + 1
            | None => request_nonce s' = request_nonce s
            end;
  f_requests : forall id rs, mget id (requests s') = Some rs ->
    mget id (requests s) = Some rs \/
    (added e = Some (id, the_request rs) /\ the_member rs = caller self ev /\ added_timestamp rs = e_time ev);
  f_confs : forall id cs, mget id (confirmations s') = Some cs -> cs = (old_confs s id ++ map text (confs_of e id))%list;
  f_confirmed : forall id p, confirmed e = Some (id, p) ->
    id < request_nonce s' /\ ~ In (text (caller self ev)) (old_confs s id) /\
    exists r, request_of s e id r /\
    match p with
    | None => slength (old_confs s id) mod U32_BOUND + 1 < num_confirmations s /\
              mmem id (requests s') = true
    | Some pr => num_confirmations s <= slength (old_confs s id) + 1 /\
              mget id (requests s') = None /\
              exists s1, executed self s1 r s' pr /\ num_confirmations s1 = num_confirmations s /\
                active_requests_limit s1 = active_requests_limit s /\ members s1 = members s
    end;
  f_deleted : forall id, deleted e = Some id ->
    mget id (requests s') = None /\
    exists rs, mget id (requests s) = Some rs /\ added_timestamp rs + REQUEST_COOLDOWN < e_time ev;
  f_settings : (forall id pr, confirmed e <> Some (id, Some pr)) ->
    num_confirmations s' = num_confirmations s /\ active_requests_limit s' = active_requests_limit s /\
    members s' = members s
}.

Lemma removed_gone s id s1 r : remove_request s id = Ok (s1, r) -> ok s ->
  mget id (requests s1) = None /\ mget id (confirmations s1) = None /\ shrinks s s1.
Proof.
  intros RR O. destruct (remove_request_ok _ _ _ _ RR O) as (rs & G & -> & E1 & E2 & E3 & E4 & E5 & E6 & O1).
  destruct O. rewrite E1, E2, !mget_mremove_eq by auto. repeat split; auto.
  - intros i x. rewrite E1, mget_mremove by auto. destruct (keqb i id); [discriminate|auto].
  - intros i x. rewrite E2, mget_mremove by auto. destruct (keqb i id); [discriminate|auto].
Qed.

Lemma shrinks_none s s' id : shrinks s s' -> ok s' -> mget id (requests s) = None ->
  mget id (requests s') = None /\ mget id (confirmations s') = None.
Proof.
  intros (_ & R & _) O G. assert (X : mget id (requests s') = None).
  { destruct (mget id (requests s')) eqn:E; auto. apply R in E. congruence. }
  split; auto. destruct O as [_ _ _ _ SM _ _]. specialize (SM id). unfold mmem in SM. rewrite X in SM.
  destruct (mget id (confirmations s')); congruence.
Qed.

Lemma old_confs_fresh s : ok s -> old_confs s (request_nonce s) = [] /\ mget (request_nonce s) (requests s) = None.
Proof.
  intros [_ _ _ _ SM NO _].
  assert (X : mmem (request_nonce s) (requests s) = false).
  { destruct (mmem (request_nonce s) (requests s)) eqn:E; auto. apply NO in E. lia. }
  split; [|now apply mmem_false]. rewrite SM in X. apply mmem_false in X. unfold old_confs. now rewrite X.
Qed.


Lemma exec_effect self ev s s' o :
  exec (ctx_of self ev) s (e_call ev) = Ok (s', o) -> ok s ->
  effect self s ev s' (mkEntry ev (caller self ev) (members s) (Some o)).
Proof.
  unfold exec. intros E O. inv_res.
  destruct (e_call ev) as [r|r|id|id] eqn:CALL.
  - (* add_request *)
    inv_all. match goal with H : add_request _ _ _ = Ok (?a, ?b) |- _ => rename H into A end.
    pose proof (old_confs_fresh s O) as [OC OR].
    apply add_request_ok in A; auto. destruct A as (m & P & LIM & -> & B & -> & O').
    apply current_member_ok in P. destruct P as [-> IN].
    split; unfold added, confirmed, deleted, confs_of, confirmed; cbn [l_event l_caller l_output]; try rewrite CALL; auto; try discriminate.
    + intros id rs. cbn [requests]. rewrite mget_minsert.
      destruct (keqb_spec id (request_nonce s)) as [->|]; [|auto].
      intros X. injection X as <-. cbn. auto.
    + intros id cs. cbn [confirmations map]. rewrite mget_minsert, app_nil_r.
      destruct (keqb_spec id (request_nonce s)) as [->|]; [congruence|].
      unfold old_confs. now intros ->.
  - (* add_request_and_confirm *)
    inv_res. destruct x0 as [s2 [i p]]. inv_res. unfold add_request_and_confirm in E1. inv_all.
    match goal with H : add_request _ _ _ = Ok (?a, ?b) |- _ => rename H into A, a into s1 end.
    match goal with H : confirm _ _ _ = Ok (?a, ?b) |- _ => rename H into C end.
    pose proof (old_confs_fresh s O) as [OC OR].
    apply add_request_ok in A; auto. destruct A as (m & P & LIM & -> & B & S1 & O1).
    apply current_member_ok in P. destruct P as [-> IN].
    cbn [ctx_of ctx_timestamp] in S1.
    assert (G1 : forall i rs, mget i (requests s1) = Some rs ->
      i <> request_nonce s /\ mget i (requests s) = Some rs \/
      i = request_nonce s /\ rs = mkSigned r (caller self ev) (e_time ev)).
    { intros i rs. rewrite S1. cbn [requests]. rewrite mget_minsert.
      destruct (keqb_spec i (request_nonce s)); auto. right. split; congruence. }
    assert (G2 : forall i cs, mget i (confirmations s1) = Some cs -> cs = old_confs s i).
    { intros i cs. rewrite S1. cbn [confirmations]. rewrite mget_minsert.
      destruct (keqb_spec i (request_nonce s)); [congruence|]. unfold old_confs. now intros ->. }
    assert (GN : request_nonce s1 = request_nonce s + 1) by (subst s1; reflexivity).
    assert (GK : num_confirmations s1 = num_confirmations s /\ active_requests_limit s1 = active_requests_limit s
      /\ members s1 = members s) by (subst s1; auto).
    apply confirm_ok in C; auto. destruct C as (rs & cs & GR & GC & m2 & P2 & NI & X).
    apply current_member_ok in P2. destruct P2 as [-> _].
    destruct (G1 _ _ GR) as [[? _]|[_ ->]]; [congruence|]. cbn [the_request] in X.
    pose proof (G2 _ _ GC) as ->. rewrite OC in *. cbn [app ctx_of ctx_current] in X.
    split; unfold added, confirmed, deleted, confs_of, confirmed; cbn [l_event l_caller l_output]; try rewrite CALL; auto; try discriminate.
    + destruct p; [destruct X as (_ & s3 & _ & _ & [])|]; tauto.
    + destruct p; [destruct X as (_ & s3 & RR & _ & [])|destruct X as (-> & _ & _)]; auto.
      destruct (removed_gone _ _ _ _ RR O1) as (_ & _ & H1 & _). destruct x_shrinks0 as (H2 & _). split; auto. congruence.
    + intros i rs G. assert (H : mget i (requests s1) = Some rs).
      { destruct p; [destruct X as (_ & s3 & RR & _ & [])|destruct X as (-> & _ & _); auto].
        destruct (removed_gone _ _ _ _ RR O1) as (_ & _ & SH). pose proof (shrinks_trans _ _ _ SH x_shrinks0) as (_ & Y & _). auto. }
      apply G1 in H. destruct H as [[_ H]|[-> ->]]; auto.
    + intros i cs G. destruct p.
      * destruct X as (_ & s3 & RR & _ & []).
        destruct (removed_gone _ _ _ _ RR O1) as (Z1 & Z2 & SH).
        pose proof (shrinks_none _ _ _ x_shrinks0 x_ok0 Z1) as [_ Z3].
        pose proof (shrinks_trans _ _ _ SH x_shrinks0) as (_ & _ & Y).
        destruct (N.eqb_spec (request_nonce s) i) as [<-|]; [congruence|].
        cbn [map]. rewrite app_nil_r. auto.
      * destruct X as (-> & _ & _). cbn [confirmations] in G. rewrite mget_minsert in G.
        destruct (keqb_spec i (request_nonce s)) as [->|NE].
        -- rewrite N.eqb_refl, OC. injection G as <-. reflexivity.
        -- destruct (N.eqb_spec (request_nonce s) i); [congruence|]. cbn [map]. rewrite app_nil_r. auto.
    + intros i q Q. injection Q as <- <-. rewrite OC. split.
      { destruct p; [destruct X as (_ & s3 & RR & _ & [])|destruct X as (-> & _ & _); cbn [request_nonce]; lia].
        destruct (removed_gone _ _ _ _ RR O1) as (_ & _ & H1 & _). destruct x_shrinks0 as (H2 & _). lia. }
      split; [auto|]. exists r. split.
      { right. unfold added. cbn [l_event l_output]. now rewrite CALL. }
      destruct GK as (GK1 & GK2 & GK3). rewrite GK1 in X. destruct p.
      * destruct X as (L & s3 & RR & O3 & XX). split; [auto|].
        destruct (removed_gone _ _ _ _ RR O1) as (Z1 & Z2 & SH).
        destruct (remove_request_ok _ _ _ _ RR O1) as (_ & _ & _ & _ & _ & E3 & _ & E5 & E6 & _).
        split. { destruct XX. now apply (shrinks_none s3). }
        exists s3. split; [exact XX|]. repeat split; congruence.
      * destruct X as (-> & L & O3). split; [auto|]. cbn [requests]. apply mmem_mget. eauto.
    + destruct p; [intros H; exfalso; eapply H; reflexivity|].
      destruct X as (-> & _ & _). cbn [num_confirmations active_requests_limit members]. tauto.
  - (* delete_request *)
    inv_res. destruct x0 as [s2 rq]. inv_res. unfold delete_request, assert_valid_request in E1. inv_all.
    match goal with H : remove_request _ _ = Ok _ |- _ => rename H into RR end.
    match goal with H : mget id (requests s) = Some ?r |- _ => rename H into G, r into rs end.
    match goal with H : match current_member _ _ with Some _ => true | None => false end = true |- _ => rename H into P end.
    destruct (current_member (ctx_of self ev) s) as [m|] eqn:CM; [|discriminate].
    apply current_member_ok in CM. destruct CM as [-> IN].
    destruct (removed_gone _ _ _ _ RR O) as (Z1 & Z2 & (N1 & R1 & C1)).
    destruct (remove_request_ok _ _ _ _ RR O) as (rs' & G' & -> & _ & _ & E3 & _ & E5 & EM & O').
    cbn [ctx_of ctx_current ctx_predecessor ctx_timestamp] in *.
    split; unfold added, confirmed, deleted, confs_of, confirmed; cbn [l_event l_caller l_output]; try rewrite CALL; auto; try discriminate.
    + intros i cs Gi. cbn [map]. rewrite app_nil_r. apply C1 in Gi. unfold old_confs. now rewrite Gi.
    + intros i Q. injection Q as <-. split; auto. exists rs. split; auto.
  - (* confirm *)
    inv_res. destruct x0 as [s2 p]. inv_res.
    match goal with H : confirm _ _ _ = Ok _ |- _ => rename H into C end.
    apply confirm_ok in C; auto. destruct C as (rs & cs & GR & GC & m & P & NI & X).
    apply current_member_ok in P. destruct P as [-> IN].
    cbn [ctx_of ctx_current ctx_predecessor ctx_signer_pk] in *.
    assert (OC : old_confs s id = cs) by (unfold old_confs; now rewrite GC).
    assert (OLD : forall i c, mget i (confirmations s) = Some c -> c = old_confs s i)
      by (intros i c H; unfold old_confs; now rewrite H).
    split; unfold added, confirmed, deleted, confs_of, confirmed; cbn [l_event l_caller l_output]; try rewrite CALL; auto; try discriminate.
    + destruct p; [destruct X as (_ & s3 & _ & _ & [])|]; tauto.
    + destruct p; [destruct X as (_ & s3 & RR & _ & [])|destruct X as (-> & _ & _); auto].
      destruct (removed_gone _ _ _ _ RR O) as (_ & _ & H1 & _). destruct x_shrinks0 as (H2 & _). congruence.
    + intros i r' G. left.
      destruct p; [destruct X as (_ & s3 & RR & _ & [])|destruct X as (-> & _ & _); auto].
      destruct (removed_gone _ _ _ _ RR O) as (_ & _ & SH). pose proof (shrinks_trans _ _ _ SH x_shrinks0) as (_ & Y & _). auto.
    + intros i c G. destruct p.
      * destruct X as (_ & s3 & RR & _ & []).
        destruct (removed_gone _ _ _ _ RR O) as (Z1 & Z2 & SH).
        pose proof (shrinks_none _ _ _ x_shrinks0 x_ok0 Z1) as [_ Z3].
        pose proof (shrinks_trans _ _ _ SH x_shrinks0) as (_ & _ & Y).
        destruct (N.eqb_spec id i) as [<-|]; [congruence|].
        cbn [map]. rewrite app_nil_r. auto.
      * destruct X as (-> & _ & _). cbn [confirmations] in G. rewrite mget_minsert in G.
        destruct (keqb_spec i id) as [->|NE].
        -- rewrite N.eqb_refl, OC. injection G as <-. reflexivity.
        -- destruct (N.eqb_spec id i); [congruence|]. cbn [map]. rewrite app_nil_r. auto.
    + intros i q Q. injection Q as <- <-. rewrite OC.
      assert (LT : id < request_nonce s). { apply (ok_nonce _ O). apply mmem_mget. eauto. }
      split.
      { destruct p; [destruct X as (_ & s3 & RR & _ & [])|destruct X as (-> & _ & _); cbn [request_nonce]; lia].
        destruct (removed_gone _ _ _ _ RR O) as (_ & _ & H1 & _). destruct x_shrinks0 as (H2 & _). lia. }
      split; [auto|]. exists (the_request rs). split; [left; eauto|]. destruct p.
      * destruct X as (L & s3 & RR & O3 & XX). split; [auto|].
        destruct (removed_gone _ _ _ _ RR O) as (Z1 & Z2 & SH).
        destruct (remove_request_ok _ _ _ _ RR O) as (_ & _ & _ & _ & _ & E3 & _ & E5 & E6 & _).
        split. { destruct XX. now apply (shrinks_none s3). }
        exists s3. split; [exact XX|]. repeat split; congruence.
      * destruct X as (-> & L & O3). split; [auto|]. cbn [requests]. apply mmem_mget. eauto.
    + destruct p; [intros H; exfalso; eapply H; reflexivity|].
      destruct X as (-> & _ & _). cbn [num_confirmations active_requests_limit members]. auto.
Qed.
