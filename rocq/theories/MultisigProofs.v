(** Proofs about the multisig contract. *)
From Coq Require Import NArith List Bool String Lia Permutation.
From Verif Require Import Prelude PreludeFacts MapFacts MultisigModel MultisigSpec.
Import ListNotations.
Open Scope N_scope.

(** * The state invariant *)
Definition cnt (k : public_key) (m : umap request_id signed_request) : N :=
  msum (fun r => if String.eqb (signer_pk r) k then 1 else 0) m.

Record ok (s : contract) : Prop := {
  ok_req : NoDup (mkeys (requests s));
  ok_conf : NoDup (mkeys (confirmations s));
  ok_num : NoDup (mkeys (num_requests_pk s));
  ok_same : forall id, mmem id (requests s) = mmem id (confirmations s);
  ok_nonce : forall id, mmem id (requests s) = true -> id < request_nonce s;
  ok_cnt : forall k, num_requests_of s k = cnt k (requests s)
}.

Lemma cnt_pos k id rs m : mget id m = Some rs -> signer_pk rs = k -> 0 < cnt k m.
Proof.
  intros G E. pose proof (msum_ge (fun r => if String.eqb (signer_pk r) k then 1 else 0) id rs m G) as X.
  cbn beta in X. rewrite E, String.eqb_refl in X. unfold cnt. lia.
Qed.

Lemma new_ok k s : new false k = Ok s -> ok s.
Proof.
  unfold new. intros E. inv_res. split; cbn; try constructor; try discriminate; auto.
Qed.

(** * Adding *)
Lemma add_request_ok c s r s' id :
  add_request c s r = Ok (s', id) -> ok s ->
  ctx_current c = ctx_predecessor c /\
  num_requests_of s (ctx_signer_pk c) + 1 <= active_requests_limit s /\
  id = request_nonce s /\ id + 1 < U32_BOUND /\
  s' = mkContract (num_confirmations s) (id + 1)
        (minsert id (mkSigned r (ctx_signer_pk c) (ctx_timestamp c)) (requests s))
        (minsert id [] (confirmations s))
        (minsert (ctx_signer_pk c) (num_requests_of s (ctx_signer_pk c) + 1) (num_requests_pk s))
        (active_requests_limit s) /\
  ok s'.
Proof.
  unfold add_request. intros E O. inv_res. norm_bool.
  do 5 (split; [solve [auto]|]). destruct O as [R C NM SM NO CN].
  split; cbn [requests confirmations num_requests_pk request_nonce]; try solve [solve_nd].
  - intros id. rewrite !mmem_minsert. now rewrite SM.
  - intros id. rewrite mmem_minsert. intros E. apply orb_true_iff in E.
    destruct E as [E|E]; [apply keqb_eq in E; subst; lia|apply NO in E; lia].
  - intros k. unfold num_requests_of at 1. cbn [num_requests_pk]. rewrite mget_minsert.
    pose proof (msum_minsert (fun r => if String.eqb (signer_pk r) k then 1 else 0)
      (request_nonce s) (mkSigned r (ctx_signer_pk c) (ctx_timestamp c)) (requests s)) as X.
    assert (Z : mget (request_nonce s) (requests s) = None).
    { apply mmem_false. destruct (mmem (request_nonce s) (requests s)) eqn:M; auto. apply NO in M. lia. }
    rewrite Z in X. cbn [signer_pk] in X. unfold cnt.
    change (keqb k (ctx_signer_pk c)) with (String.eqb k (ctx_signer_pk c)).
    rewrite (String.eqb_sym k). destruct (String.eqb_spec (ctx_signer_pk c) k) as [->|].
    + rewrite CN. unfold cnt in *. lia.
    + fold (num_requests_of s k). rewrite CN. unfold cnt. lia.
Qed.

(** * Removing *)
Lemma remove_request_ok s id s' r :
  remove_request s id = Ok (s', r) -> ok s ->
  exists rs, mget id (requests s) = Some rs /\ r = the_request rs /\
    requests s' = mremove id (requests s) /\ confirmations s' = mremove id (confirmations s) /\
    num_confirmations s' = num_confirmations s /\ request_nonce s' = request_nonce s /\
    active_requests_limit s' = active_requests_limit s /\ ok s'.
Proof.
  unfold remove_request. intros E O. inv_res. rename E0 into G. exists x. split; [exact G|].
  split; [reflexivity|]. cbn [requests confirmations num_requests_pk request_nonce num_confirmations active_requests_limit].
  do 5 (split; [solve [auto]|]). destruct O as [R C NM SM NO CN].
  split; cbn [requests confirmations num_requests_pk request_nonce];
    try solve [solve_nd].
  - intros i. rewrite !mmem_mremove by auto. now rewrite SM.
  - intros i. rewrite mmem_mremove by auto. intros E. apply andb_true_iff in E. apply NO. tauto.
  - intros k. unfold num_requests_of at 1. cbn [num_requests_pk]. rewrite mget_minsert.
    pose proof (msum_mremove (fun r => if String.eqb (signer_pk r) k then 1 else 0) id (requests s)) as X.
    rewrite G in X. unfold cnt.
    change (keqb k (signer_pk x)) with (String.eqb k (signer_pk x)).
    rewrite (String.eqb_sym k). destruct (String.eqb_spec (signer_pk x) k) as [E|NE].
    + rewrite E, CN. pose proof (cnt_pos k id x _ G E) as P. apply N.ltb_lt in P. rewrite P.
      apply N.ltb_lt in P. unfold cnt in *. lia.
    + fold (num_requests_of s k). rewrite CN. unfold cnt. lia.
Qed.

Lemma remove_request_intro s id : mmem id (requests s) = true -> exists r, remove_request s id = Ok r.
Proof.
  intros M. apply mmem_mget in M. destruct M as [rs G]. unfold remove_request. rewrite G. cbn. eauto.
Qed.

(** * Deleting a key *)
Lemma drop_ok s pk : ok s ->
  let s' := drop_requests_of s pk in
  ok s' /\
  (forall id, mget id (requests s') =
     match mget id (requests s) with
     | Some rs => if String.eqb (signer_pk rs) pk then None else Some rs
     | None => None end) /\
  (forall id, mget id (confirmations s') =
     match mget id (requests s) with
     | Some rs => if String.eqb (signer_pk rs) pk then None else mget id (confirmations s)
     | None => None end).
Proof.
  intros [R C NM SM NO CN] s'.
  set (f := fun kr : request_id * signed_request => String.eqb (signer_pk (snd kr)) pk).
  set (ids := map fst (filter f (requests s))).
  assert (GR : forall id, mget id (requests s') =
     match mget id (requests s) with
     | Some rs => if String.eqb (signer_pk rs) pk then None else Some rs
     | None => None end).
  { intros id. change (requests s') with (fold_left (fun m i => mremove i m) ids (requests s)).
    rewrite mget_fold_mremove by auto. unfold ids. rewrite smem_filter_keys by auto.
    destruct (mget id (requests s)); auto. }
  assert (GC : forall id, mget id (confirmations s') =
     match mget id (requests s) with
     | Some rs => if String.eqb (signer_pk rs) pk then None else mget id (confirmations s)
     | None => None end).
  { intros id. change (confirmations s') with (fold_left (fun m i => mremove i m) ids (confirmations s)).
    rewrite mget_fold_mremove by auto. unfold ids. rewrite smem_filter_keys by auto.
    specialize (SM id). unfold mmem in SM.
    destruct (mget id (requests s)); auto. destruct (mget id (confirmations s)); congruence. }
  split; [|split; auto]. split.
  - solve_nd.
  - solve_nd.
  - solve_nd.
  - intros id. unfold mmem. rewrite GR, GC. specialize (SM id). unfold mmem in SM.
    destruct (mget id (requests s)); auto. destruct (String.eqb _ _); auto.
  - intros id M. apply NO. unfold mmem in *. rewrite GR in M. destruct (mget id (requests s)); auto.
  - intros k. unfold num_requests_of. cbn [drop_requests_of num_requests_pk s'].
    rewrite mget_mremove by auto.
    change (requests s') with (fold_left (fun m i => mremove i m) ids (requests s)).
    unfold cnt. rewrite (msum_perm _ _ _ (fold_mremove_filter f (requests s) R)).
    change (keqb k pk) with (String.eqb k pk).
    assert (X : forall m : umap request_id signed_request,
      msum (fun r => if String.eqb (signer_pk r) k then 1 else 0) (filter (fun kv => negb (f kv)) m)
      = if String.eqb k pk then 0 else cnt k m).
    { clear. unfold cnt, msum, f. induction m as [|[i rs] m IH]; cbn [filter fold_right snd].
      - now destruct (String.eqb k pk).
      - destruct (String.eqb_spec (signer_pk rs) pk) as [E|NE]; cbn [negb fold_right snd]; rewrite IH.
        + destruct (String.eqb_spec k pk) as [->|NK]; auto.
          destruct (String.eqb_spec (signer_pk rs) k); [congruence|]. lia.
        + destruct (String.eqb_spec k pk) as [->|NK]; auto.
          rewrite (proj2 (String.eqb_neq _ _) NE). reflexivity. }
    rewrite X. destruct (String.eqb k pk); auto. apply CN.
Qed.

(** * Executing a request *)
(** [s'] has lost some of the requests of [s], with their confirmations, and nothing else. *)
Definition shrinks (s s' : contract) : Prop :=
  request_nonce s' = request_nonce s /\
  (forall id rs, mget id (requests s') = Some rs -> mget id (requests s) = Some rs) /\
  (forall id cs, mget id (confirmations s') = Some cs -> mget id (confirmations s) = Some cs).

Lemma shrinks_refl s : shrinks s s.
Proof. repeat split; auto. Qed.
Lemma shrinks_trans a b c : shrinks a b -> shrinks b c -> shrinks a c.
Proof. intros (A & B & C) (D & E & F). repeat split; [congruence|auto|auto]. Qed.

(** Which keys a list of actions deletes. *)
Definition deletes (pk : public_key) (l : list action) : Prop := In (DeleteKey pk) l.

Lemma execute_actions_ok c rcv n l : forall s acc s' acc',
  execute_actions c rcv n l s acc = Ok (s', acc') -> ok s ->
  ok s' /\ shrinks s s' /\
  (forallb (fun a => negb (setting_action a)) l = true ->
     acc' = (acc ++ flat_map batch_of l)%list /\
     num_confirmations s' = num_confirmations s /\ active_requests_limit s' = active_requests_limit s /\
     (forall pk id rs, In (DeleteKey pk) l -> mget id (requests s') = Some rs -> signer_pk rs <> pk)) /\
  (existsb setting_action l = true -> n = 1%nat /\ rcv = ctx_current c) /\
  (existsb key_action l = true -> existsb setting_action l = false -> rcv = ctx_current c) /\
  (forall a, l = [a] -> setting_action a = true -> acc' = acc /\
     num_confirmations s' = match a with SetNumConfirmations k => k | _ => num_confirmations s end /\
     active_requests_limit s' = match a with SetActiveRequestsLimit k => k | _ => active_requests_limit s end).
Proof.
  induction l as [|a l IH]; cbn [execute_actions]; intros s acc s' acc' E O.
  - inv_res. cbn. rewrite app_nil_r. split; [exact O|]; repeat split; auto; try discriminate; try contradiction.
  - assert (CONT : forall s1 b, execute_actions c rcv n l s1 (acc ++ [b])%list = Ok (s', acc') ->
      setting_action a = false ->
      batch_of a = [b] -> ok s1 -> shrinks s s1 -> num_confirmations s1 = num_confirmations s ->
      active_requests_limit s1 = active_requests_limit s ->
      (key_action a = true -> rcv = ctx_current c) ->
      (forall pk id rs, a = DeleteKey pk -> mget id (requests s1) = Some rs -> signer_pk rs <> pk) ->
      ok s' /\ shrinks s s' /\
      (forallb (fun a => negb (setting_action a)) (a :: l) = true ->
         acc' = (acc ++ flat_map batch_of (a :: l))%list /\
         num_confirmations s' = num_confirmations s /\ active_requests_limit s' = active_requests_limit s /\
         (forall pk id rs, In (DeleteKey pk) (a :: l) -> mget id (requests s') = Some rs -> signer_pk rs <> pk)) /\
      (existsb setting_action (a :: l) = true -> n = 1%nat /\ rcv = ctx_current c) /\
      (existsb key_action (a :: l) = true -> existsb setting_action (a :: l) = false -> rcv = ctx_current c) /\
      (forall a0, a :: l = [a0] -> setting_action a0 = true -> acc' = acc /\
        num_confirmations s' = match a0 with SetNumConfirmations k => k | _ => num_confirmations s end /\
        active_requests_limit s' = match a0 with SetActiveRequestsLimit k => k | _ => active_requests_limit s end)).
    { intros s1 b E1 NS B O1 SH NC AL KA DK. apply IH in E1; auto.
      destruct E1 as (O2 & SH2 & P1 & P2 & P3 & _).
      split; [auto|]. split; [eapply shrinks_trans; eauto|].
      cbn [forallb existsb flat_map]. rewrite NS, B. cbn [negb andb orb].
      split; [|split; [auto|split]].
      - intros F. destruct (P1 F) as (-> & E2 & E3 & D). rewrite <- app_assoc. cbn [app].
        repeat split; try congruence.
        intros pk id rs [X|X] G; [|eauto]. destruct SH2 as (_ & RR & _). eapply DK; eauto.
      - intros X NX. apply orb_true_iff in X. destruct X; auto.
      - intros a0 X Y. injection X as -> ->. congruence. }
    destruct a; cbn [key_action] in CONT.
    1-3,6: eapply CONT; eauto using shrinks_refl; try reflexivity; discriminate.
    + unfold assert_self_request in E. inv_res. norm_bool. destruct perm; eapply CONT; eauto using shrinks_refl; try reflexivity; discriminate.
    + unfold assert_self_request in E. inv_res. norm_bool. destruct (drop_ok s pk O) as (O1 & G1 & G2).
      eapply CONT; eauto; try reflexivity.
      * repeat split; auto.
        -- intros id rs G. rewrite G1 in G. destruct (mget id (requests s)); [|discriminate].
           destruct (String.eqb _ _); congruence.
        -- intros id cs G. rewrite G2 in G. destruct (mget id (requests s)); [|discriminate].
           destruct (String.eqb _ _); congruence.
      * intros pk0 id rs X G. injection X as <-. rewrite G1 in G.
        destruct (mget id (requests s)); [|discriminate].
        destruct (String.eqb_spec (signer_pk s0) pk); congruence.
    + clear CONT IH. unfold assert_one_action_only, assert_self_request in E. inv_res.
      norm_bool.
      cbn [forallb existsb setting_action negb andb orb].
      split; [destruct O; split; auto|]. split; [repeat split; auto|].
      split; [discriminate|]. split; [auto|]. split; [discriminate|].
      intros a0 X Y. injection X as <- _. cbn. auto.
    + clear CONT IH. unfold assert_one_action_only, assert_self_request in E. inv_res.
      norm_bool.
      cbn [forallb existsb setting_action negb andb orb].
      split; [destruct O; split; auto|]. split; [repeat split; auto|].
      split; [discriminate|]. split; [auto|]. split; [discriminate|].
      intros a0 X Y. injection X as <- _. cbn. auto.
Qed.

(** What executing [r] on [s] amounts to. *)
Record executed (self : account_id) (s : contract) (r : request) (s' : contract) (p : promise) : Prop := {
  x_ok : ok s';
  x_shrinks : shrinks s s';
  x_promise : p = asked r;
  x_keys : existsb key_action (actions r) = true -> receiver_id r = self;
  x_settings : existsb setting_action (actions r) = true ->
               receiver_id r = self /\ exists a, actions r = [a];
  x_num : num_confirmations s' =
          match actions r with [SetNumConfirmations k] => k | _ => num_confirmations s end;
  x_limit : active_requests_limit s' =
            match actions r with [SetActiveRequestsLimit k] => k | _ => active_requests_limit s end;
  x_delete : forall pk id rs, In (DeleteKey pk) (actions r) -> mget id (requests s') = Some rs ->
             signer_pk rs <> pk
}.

Lemma no_settings l : existsb setting_action l = false <-> forallb (fun a => negb (setting_action a)) l = true.
Proof. induction l as [|a l IH]; cbn; [tauto|]. destruct (setting_action a); cbn; [split; discriminate|auto]. Qed.

Lemma execute_request_ok c s r s' p :
  execute_request c s r = Ok (s', p) -> ok s -> executed (ctx_current c) s r s' p.
Proof.
  unfold execute_request. intros E O. inv_res. destruct x as [s1 acts]. inv_res.
  apply execute_actions_ok in E0; auto. destruct E0 as (O1 & SH & P1 & P2 & P3 & P4).
  destruct (existsb setting_action (actions r)) eqn:ST.
  - destruct (P2 eq_refl) as [L R].
    assert (A : exists a, actions r = [a]).
    { destruct (actions r) as [|a [|b l]]; try discriminate. eauto. }
    destruct A as [a A]. assert (SA : setting_action a = true).
    { rewrite A in ST. cbn in ST. now rewrite orb_false_r in ST. }
    destruct (P4 a A SA) as (-> & N1 & N2). clear P1 P2 P3 P4.
    split; auto; try rewrite A.
    + unfold asked. rewrite A. destruct a; try discriminate; reflexivity.
    + intros _. split; eauto.
    + rewrite N1. destruct a; auto.
    + rewrite N2. destruct a; auto.
    + intros pk id rs [->|[]]. discriminate.
  - pose proof (proj1 (no_settings _) ST) as F. destruct (P1 F) as (-> & N1 & N2 & D).
    split; auto; try discriminate.
    + congruence.
    + rewrite N1. destruct (actions r) as [|[] [|]]; auto. discriminate.
    + rewrite N2. destruct (actions r) as [|[] [|]]; auto. discriminate.
Qed.

(** * Confirming *)
Lemma confirm_ok c s id s' p :
  confirm c s id = Ok (s', p) -> ok s ->
  exists rs cs, mget id (requests s) = Some rs /\ mget id (confirmations s) = Some cs /\
    ctx_current c = ctx_predecessor c /\ ~ In (ctx_signer_pk c) cs /\
    match p with
    | None => s' = mkContract (num_confirmations s) (request_nonce s) (requests s)
                     (minsert id (cs ++ [ctx_signer_pk c])%list (confirmations s))
                     (num_requests_pk s) (active_requests_limit s) /\
              slength cs mod U32_BOUND + 1 < num_confirmations s /\ ok s'
    | Some pr => num_confirmations s <= slength cs + 1 /\
              exists s1, remove_request s id = Ok (s1, the_request rs) /\ ok s1 /\
                executed (ctx_current c) s1 (the_request rs) s' pr
    end.
Proof.
  unfold confirm, assert_valid_request. intros E O. inv_all.
  match goal with H : mmem id (requests s) = true |- _ => apply mmem_mget in H; destruct H as [rs G] end.
  match goal with H : mget id (confirmations s) = Some ?x |- _ => rename x into cs, H into GC end.
  match goal with H : ~ In _ cs |- _ => rename H into NI end.
  exists rs, cs. do 4 (split; [solve [auto]|]).
  destruct (N.leb_spec (num_confirmations s) (slength cs mod U32_BOUND + 1)) as [L|L].
  - inv_all. rename s' into s2.
    match goal with H : remove_request s id = Ok (?a, ?b) |- _ => rename H into RR, a into s1, b into r end.
    split. { pose proof (N.mod_le (slength cs) U32_BOUND ltac:(discriminate)). lia. }
    exists s1. pose proof (remove_request_ok _ _ _ _ RR O) as (rs' & G' & R & _ & _ & _ & _ & _ & O1).
    rewrite G in G'. injection G' as <-. subst r. do 2 (split; [solve [auto]|]).
    now apply execute_request_ok.
  - inv_all. assert (SI : sinsert (ctx_signer_pk c) cs = (cs ++ [ctx_signer_pk c])%list).
    { unfold sinsert. apply smem_false in NI. now rewrite NI. }
    rewrite SI. split; [reflexivity|]. split; [auto|].
    destruct O as [R C NM SM NO CN].
    split; cbn [requests confirmations num_requests_pk request_nonce]; try solve [solve_nd]; auto.
    intros i. rewrite mmem_minsert. rewrite SM. destruct (keqb_spec i id); auto. subst.
    cbn [orb]. apply mmem_mget. eauto.
Qed.

(** * One call *)
Definition old_confs (s : contract) (id : request_id) : list public_key :=
  match mget id (confirmations s) with Some cs => cs | None => [] end.

(** The keys an entry adds to the confirmations of [id]. *)
Definition confs_of (e : entry) (id : request_id) : list public_key :=
  match confirmed e with
  | Some (id', _) => if id' =? id then [e_key (fst e)] else []
  | None => []
  end.

Definition request_of (s : contract) (e : entry) (id : request_id) (r : request) : Prop :=
  (exists rs, mget id (requests s) = Some rs /\ r = the_request rs) \/ added e = Some (id, r).

(** What a successful call does. *)
Record effect (self : account_id) (s : contract) (ev : event) (s' : contract) (e : entry) : Prop := {
  f_ok : ok s';
  f_pred : e_pred ev = self;
  f_nonce : match added e with
            | Some (id, _) => id = request_nonce s /\ request_nonce s' = request_nonce s + 1
            | None => request_nonce s' = request_nonce s
            end;
  f_requests : forall id rs, mget id (requests s') = Some rs ->
    mget id (requests s) = Some rs \/
    (added e = Some (id, the_request rs) /\ signer_pk rs = e_key ev /\ added_timestamp rs = e_time ev);
  f_confs : forall id cs, mget id (confirmations s') = Some cs -> cs = (old_confs s id ++ confs_of e id)%list;
  f_confirmed : forall id p, confirmed e = Some (id, p) ->
    id < request_nonce s' /\ ~ In (e_key ev) (old_confs s id) /\
    exists r, request_of s e id r /\
    match p with
    | None => slength (old_confs s id) mod U32_BOUND + 1 < num_confirmations s /\
              mmem id (requests s') = true
    | Some pr => num_confirmations s <= slength (old_confs s id) + 1 /\
              mget id (requests s') = None /\
              exists s1, executed self s1 r s' pr /\ num_confirmations s1 = num_confirmations s /\
                active_requests_limit s1 = active_requests_limit s
    end;
  f_deleted : forall id, deleted e = Some id ->
    mget id (requests s') = None /\
    exists rs, mget id (requests s) = Some rs /\ added_timestamp rs + REQUEST_COOLDOWN < e_time ev;
  f_settings : (forall id pr, confirmed e <> Some (id, Some pr)) ->
    num_confirmations s' = num_confirmations s /\ active_requests_limit s' = active_requests_limit s
}.

Lemma removed_gone s id s1 r : remove_request s id = Ok (s1, r) -> ok s ->
  mget id (requests s1) = None /\ mget id (confirmations s1) = None /\ shrinks s s1.
Proof.
  intros RR O. destruct (remove_request_ok _ _ _ _ RR O) as (rs & G & -> & E1 & E2 & E3 & E4 & E5 & O1).
  destruct O. rewrite E1, E2, !mget_mremove_eq by auto. repeat split; auto.
  - intros i x. rewrite E1, mget_mremove by auto. destruct (keqb i id); [discriminate|auto].
  - intros i x. rewrite E2, mget_mremove by auto. destruct (keqb i id); [discriminate|auto].
Qed.

Lemma shrinks_none s s' id : shrinks s s' -> ok s' -> mget id (requests s) = None ->
  mget id (requests s') = None /\ mget id (confirmations s') = None.
Proof.
  intros (_ & R & _) O G. assert (X : mget id (requests s') = None).
  { destruct (mget id (requests s')) eqn:E; auto. apply R in E. congruence. }
  split; auto. destruct O as [_ _ _ SM _ _]. specialize (SM id). unfold mmem in SM. rewrite X in SM.
  destruct (mget id (confirmations s')); congruence.
Qed.

Lemma old_confs_fresh s : ok s -> old_confs s (request_nonce s) = [] /\ mget (request_nonce s) (requests s) = None.
Proof.
  intros [_ _ _ SM NO _].
  assert (X : mmem (request_nonce s) (requests s) = false).
  { destruct (mmem (request_nonce s) (requests s)) eqn:E; auto. apply NO in E. lia. }
  split; [|now apply mmem_false]. rewrite SM in X. apply mmem_false in X. unfold old_confs. now rewrite X.
Qed.

Lemma exec_effect self ev s s' o :
  exec (ctx_of self ev) s (e_call ev) = Ok (s', o) -> ok s -> effect self s ev s' (ev, Some o).
Proof.
  unfold exec. intros E O. inv_res.
  destruct (e_call ev) as [r|r|id|id] eqn:CALL.
  - (* add_request *)
    inv_all. match goal with H : add_request _ _ _ = Ok (?a, ?b) |- _ => rename H into A end.
    pose proof (old_confs_fresh s O) as [OC OR].
    apply add_request_ok in A; auto. destruct A as (P & LIM & -> & B & -> & O').
    cbn [ctx_of ctx_current ctx_predecessor] in P.
    split; unfold added, confirmed, deleted, confs_of, confirmed; cbn [fst snd]; try rewrite CALL; auto; try discriminate.
    + intros id rs. cbn [requests]. rewrite mget_minsert.
      destruct (keqb_spec id (request_nonce s)) as [->|]; [|auto].
      intros X. injection X as <-. cbn. auto.
    + intros id cs. cbn [confirmations]. rewrite mget_minsert, app_nil_r.
      destruct (keqb_spec id (request_nonce s)) as [->|]; [congruence|].
      unfold old_confs. now intros ->.
  - (* add_request_and_confirm *)
    inv_res. destruct x0 as [s2 [i p]]. inv_res. unfold add_request_and_confirm in E1. inv_all.
    match goal with H : add_request _ _ _ = Ok (?a, ?b) |- _ => rename H into A, a into s1 end.
    match goal with H : confirm _ _ _ = Ok (?a, ?b) |- _ => rename H into C end.
    pose proof (old_confs_fresh s O) as [OC OR].
    apply add_request_ok in A; auto. destruct A as (P & LIM & -> & B & S1 & O1).
    cbn [ctx_of ctx_current ctx_predecessor ctx_signer_pk ctx_timestamp] in P, S1.
    assert (G1 : forall i rs, mget i (requests s1) = Some rs ->
      i <> request_nonce s /\ mget i (requests s) = Some rs \/
      i = request_nonce s /\ rs = mkSigned r (e_key ev) (e_time ev)).
    { intros i rs. rewrite S1. cbn [requests]. rewrite mget_minsert.
      destruct (keqb_spec i (request_nonce s)); auto. right. split; congruence. }
    assert (G2 : forall i cs, mget i (confirmations s1) = Some cs -> cs = old_confs s i).
    { intros i cs. rewrite S1. cbn [confirmations]. rewrite mget_minsert.
      destruct (keqb_spec i (request_nonce s)); [congruence|]. unfold old_confs. now intros ->. }
    assert (GN : request_nonce s1 = request_nonce s + 1) by (subst s1; reflexivity).
    assert (GK : num_confirmations s1 = num_confirmations s /\ active_requests_limit s1 = active_requests_limit s)
      by (subst s1; auto).
    apply confirm_ok in C; auto. destruct C as (rs & cs & GR & GC & _ & NI & X).
    destruct (G1 _ _ GR) as [[? _]|[_ ->]]; [congruence|]. cbn [the_request] in X.
    pose proof (G2 _ _ GC) as ->. rewrite OC in *. cbn [app ctx_of ctx_signer_pk ctx_current] in X.
    split; unfold added, confirmed, deleted, confs_of, confirmed; cbn [fst snd]; try rewrite CALL; auto; try discriminate.
    + destruct p; [destruct X as (_ & s3 & _ & _ & [])|]; tauto.
    + destruct p; [destruct X as (_ & s3 & RR & _ & [])|destruct X as (-> & _ & _)]; auto.
      destruct (removed_gone _ _ _ _ RR O1) as (_ & _ & H1 & _). destruct x_shrinks0 as (H2 & _). split; auto. congruence.
    + intros i rs G. assert (H : mget i (requests s1) = Some rs).
      { destruct p; [destruct X as (_ & s3 & RR & _ & [])|destruct X as (-> & _ & _); auto].
        destruct (removed_gone _ _ _ _ RR O1) as (_ & _ & SH). pose proof (shrinks_trans _ _ _ SH x_shrinks0) as (_ & Y & _). auto. }
      apply G1 in H. destruct H as [[_ H]|[-> ->]]; auto.
    + intros i cs G. destruct p.
      * destruct X as (_ & s3 & RR & _ & []).
        destruct (removed_gone _ _ _ _ RR O1) as (Z1 & Z2 & SH).
        pose proof (shrinks_none _ _ _ x_shrinks0 x_ok0 Z1) as [_ Z3].
        pose proof (shrinks_trans _ _ _ SH x_shrinks0) as (_ & _ & Y).
        destruct (N.eqb_spec (request_nonce s) i) as [<-|]; [congruence|].
        rewrite app_nil_r. auto.
      * destruct X as (-> & _ & _). cbn [confirmations] in G. rewrite mget_minsert in G.
        destruct (keqb_spec i (request_nonce s)) as [->|NE].
        -- rewrite N.eqb_refl, OC. injection G as <-. reflexivity.
        -- destruct (N.eqb_spec (request_nonce s) i); [congruence|]. rewrite app_nil_r. auto.
    + intros i q Q. injection Q as <- <-. rewrite OC. split.
      { destruct p; [destruct X as (_ & s3 & RR & _ & [])|destruct X as (-> & _ & _); cbn [request_nonce]; lia].
        destruct (removed_gone _ _ _ _ RR O1) as (_ & _ & H1 & _). destruct x_shrinks0 as (H2 & _). lia. }
      split; [auto|]. exists r. split.
      { right. unfold added. cbn [fst snd]. now rewrite CALL. }
      destruct GK as [GK1 GK2]. rewrite GK1 in X. destruct p.
      * destruct X as (L & s3 & RR & O3 & XX). split; [auto|].
        destruct (removed_gone _ _ _ _ RR O1) as (Z1 & Z2 & SH).
        destruct (remove_request_ok _ _ _ _ RR O1) as (_ & _ & _ & _ & _ & E3 & _ & E5 & _).
        split. { destruct XX. now apply (shrinks_none s3). }
        exists s3. split; [exact XX|]. split; congruence.
      * destruct X as (-> & L & O3). split; [auto|]. cbn [requests]. apply mmem_mget. eauto.
    + destruct p; [intros H; exfalso; eapply H; reflexivity|].
      destruct X as (-> & _ & _). cbn [num_confirmations active_requests_limit]. auto.
  - (* delete_request *)
    inv_res. destruct x0 as [s2 rq]. inv_res. unfold delete_request, assert_valid_request in E1. inv_all.
    match goal with H : remove_request _ _ = Ok _ |- _ => rename H into RR end.
    match goal with H : mget id (requests s) = Some ?r |- _ => rename H into G, r into rs end.
    match goal with H : ctx_current _ = ctx_predecessor _ |- _ => rename H into P end.
    destruct (removed_gone _ _ _ _ RR O) as (Z1 & Z2 & (N1 & R1 & C1)).
    destruct (remove_request_ok _ _ _ _ RR O) as (rs' & G' & -> & _ & _ & E3 & _ & E5 & O').
    cbn [ctx_of ctx_current ctx_predecessor ctx_timestamp] in *.
    split; unfold added, confirmed, deleted, confs_of, confirmed; cbn [fst snd]; try rewrite CALL; auto; try discriminate.
    + intros i cs Gi. rewrite app_nil_r. apply C1 in Gi. unfold old_confs. now rewrite Gi.
    + intros i Q. injection Q as <-. split; auto. exists rs. split; auto.
  - (* confirm *)
    inv_res. destruct x0 as [s2 p]. inv_res.
    match goal with H : confirm _ _ _ = Ok _ |- _ => rename H into C end.
    apply confirm_ok in C; auto. destruct C as (rs & cs & GR & GC & P & NI & X).
    cbn [ctx_of ctx_current ctx_predecessor ctx_signer_pk] in *.
    assert (OC : old_confs s id = cs) by (unfold old_confs; now rewrite GC).
    assert (OLD : forall i c, mget i (confirmations s) = Some c -> c = old_confs s i)
      by (intros i c H; unfold old_confs; now rewrite H).
    split; unfold added, confirmed, deleted, confs_of, confirmed; cbn [fst snd]; try rewrite CALL; auto; try discriminate.
    + destruct p; [destruct X as (_ & s3 & _ & _ & [])|]; tauto.
    + destruct p; [destruct X as (_ & s3 & RR & _ & [])|destruct X as (-> & _ & _); auto].
      destruct (removed_gone _ _ _ _ RR O) as (_ & _ & H1 & _). destruct x_shrinks0 as (H2 & _). congruence.
    + intros i r' G. left.
      destruct p; [destruct X as (_ & s3 & RR & _ & [])|destruct X as (-> & _ & _); auto].
      destruct (removed_gone _ _ _ _ RR O) as (_ & _ & SH). pose proof (shrinks_trans _ _ _ SH x_shrinks0) as (_ & Y & _). auto.
    + intros i c G. destruct p.
      * destruct X as (_ & s3 & RR & _ & []).
        destruct (removed_gone _ _ _ _ RR O) as (Z1 & Z2 & SH).
        pose proof (shrinks_none _ _ _ x_shrinks0 x_ok0 Z1) as [_ Z3].
        pose proof (shrinks_trans _ _ _ SH x_shrinks0) as (_ & _ & Y).
        destruct (N.eqb_spec id i) as [<-|]; [congruence|].
        rewrite app_nil_r. auto.
      * destruct X as (-> & _ & _). cbn [confirmations] in G. rewrite mget_minsert in G.
        destruct (keqb_spec i id) as [->|NE].
        -- rewrite N.eqb_refl, OC. injection G as <-. reflexivity.
        -- destruct (N.eqb_spec id i); [congruence|]. rewrite app_nil_r. auto.
    + intros i q Q. injection Q as <- <-. rewrite OC.
      assert (LT : id < request_nonce s). { destruct O as [_ _ _ _ NO _]. apply NO. apply mmem_mget. eauto. }
      split.
      { destruct p; [destruct X as (_ & s3 & RR & _ & [])|destruct X as (-> & _ & _); cbn [request_nonce]; lia].
        destruct (removed_gone _ _ _ _ RR O) as (_ & _ & H1 & _). destruct x_shrinks0 as (H2 & _). lia. }
      split; [auto|]. exists (the_request rs). split; [left; eauto|]. destruct p.
      * destruct X as (L & s3 & RR & O3 & XX). split; [auto|].
        destruct (removed_gone _ _ _ _ RR O) as (Z1 & Z2 & SH).
        destruct (remove_request_ok _ _ _ _ RR O) as (_ & _ & _ & _ & _ & E3 & _ & E5 & _).
        split. { destruct XX. now apply (shrinks_none s3). }
        exists s3. split; [exact XX|]. split; congruence.
      * destruct X as (-> & L & O3). split; [auto|]. cbn [requests]. apply mmem_mget. eauto.
    + destruct p; [intros H; exfalso; eapply H; reflexivity|].
      destruct X as (-> & _ & _). cbn [num_confirmations active_requests_limit]. auto.
Qed.
