(** Every state the multisigs and the voting contract can reach is one their Rust types can hold (C102). *)
From Coq Require Import NArith List Bool String Lia.
From Verif Require Import Prelude PreludeFacts MapFacts StorageModel Borsh BorshProofs PersistModel PersistProofs.
From Verif Require MultisigSpec Multisig2Spec VotingSpec WNearSpec.
From Verif Require Import OthersPersistSpec.
Import ListNotations.
Open Scope string_scope.
Open Scope N_scope.

(** * Entries of maps *)
Section All.
  Context {K V : Type} `{EqKey K} (P : K * V -> Prop).
  Lemma all_insert k v m : P (k, v) -> Forall P m -> Forall P (minsert k v m).
  Proof.
    intros A F. induction F as [|[a b] m B F IH]; cbn [minsert]; [now constructor|].
    destruct (keqb_spec k a) as [->|]; constructor; assumption.
  Qed.
  Lemma in_swap (x : K * V) r : In x (drop_head_swap r) -> In x r.
  Proof.
    destruct r as [|y r]; [auto|]. cbn [drop_head_swap]. intros [<-|I].
    - destruct (exists_last (l := y :: r)) as (q & z & E); [discriminate|].
      assert (last r y = last (y :: r) y) as -> by (now destruct r).
      rewrite E, last_last. apply in_or_app. right. left. reflexivity.
    - destruct (exists_last (l := y :: r)) as (q & z & E); [discriminate|]. rewrite E in *.
      rewrite removelast_last in I. apply in_or_app. left. exact I.
  Qed.
  Lemma all_remove k m : Forall P m -> Forall P (mremove k m).
  Proof.
    intros F. induction m as [|[a b] m IH]; cbn [mremove]; [constructor|]. inversion F; subst. destruct (keqb k a).
    - apply Forall_forall. intros x I. apply in_swap in I. revert I. apply Forall_forall. assumption.
    - constructor; auto.
  Qed.
  Lemma all_fold_remove (ids : list K) : forall m, Forall P m -> Forall P (fold_left (fun m id => mremove id m) ids m).
  Proof. induction ids as [|i ids IH]; intros m F; [exact F|]. cbn [fold_left]. apply IH. now apply all_remove. Qed.
  Lemma all_get k v m : Forall P m -> mget k m = Some v -> P (k, v).
  Proof. intros F G. apply mget_in in G. revert G. apply Forall_forall. exact F. Qed.
End All.

Ltac opn := inv_res; repeat (match goal with x : (_ * _)%type |- _ => destruct x end; inv_res).

(** * Multisig *)
Section Multisig.
  Import MultisigModel MultisigSpec.
  Local Notation R := (fun e : N * signed_request => fst e < U32_BOUND /\ typed c_signed_request (snd e)).
  Local Notation C := (fun e : N * uset public_key => fst e < U32_BOUND /\ typed c_confirmations (snd e)).
  Local Notation Q := (fun e : public_key * N => typed c_bytes (fst e) /\ snd e < U32_BOUND).
  Record ms_fits (s : contract) : Prop := {
    mf_k : num_confirmations s < U32_BOUND;
    mf_n : request_nonce s < U32_BOUND;
    mf_r : Forall R (requests s);
    mf_c : Forall C (confirmations s);
    mf_q : Forall Q (num_requests_pk s);
    mf_l : active_requests_limit s < U32_BOUND }.

  Lemma ms_new b k s : k < U32_BOUND -> new b k = Ok s -> ms_fits s.
  Proof. intros K H. unfold new in H. inv_res. constructor; cbn; try constructor; auto; reflexivity. Qed.

  Lemma num_fits s pk : Forall Q (num_requests_pk s) -> num_requests_of s pk < U32_BOUND.
  Proof.
    intros F. unfold num_requests_of. destruct (mget pk (num_requests_pk s)) as [n|] eqn:G; [|reflexivity].
    now apply (all_get _ _ _ _ F) in G.
  Qed.
  Lemma ms_add c s r s' id : ms_fits s -> typed c_bytes (ctx_signer_pk c) -> ctx_timestamp c < U64_BOUND ->
    typed c_request r -> add_request c s r = Ok (s', id) -> ms_fits s'.
  Proof.
    intros [K NN RR CC QQ LL] PK TS TR H. unfold add_request in H. inv_res. constructor; cbn; auto.
    - apply all_insert; [|exact RR]. cbn [fst snd]. split; [lia|]. split; [exact TR|]. split; [exact PK|exact TS].
    - apply all_insert; [|exact CC]. cbn [fst snd]. split; [lia|]. split; [reflexivity|constructor].
    - apply all_insert; [|exact QQ]. split; assumption.
  Qed.
  Lemma ms_remove s id s' r : ms_fits s -> remove_request s id = Ok (s', r) -> ms_fits s' /\ typed c_request r.
  Proof.
    intros [K NN RR CC QQ LL] H. unfold remove_request in H. inv_res.
    match goal with E : mget id _ = Some ?x |- _ => apply (all_get _ _ _ _ RR) in E; cbn [fst snd] in E; destruct E as (_ & T1 & T2 & _) end.
    split; [|exact T1]. constructor; cbn [MM.num_confirmations MM.request_nonce MM.requests MM.confirmations MM.num_requests_pk MM.active_requests_limit]; auto;
      try (apply all_remove; assumption).
    apply all_insert; [|exact QQ]. split; [exact T2|]. cbn [snd].
    pose proof (num_fits s (signer_pk x) QQ). destruct (0 <? _); lia.
  Qed.
  Lemma ms_drop s pk : ms_fits s -> ms_fits (drop_requests_of s pk).
  Proof. intros [K NN RR CC QQ LL]. constructor; cbn [drop_requests_of MM.num_confirmations MM.request_nonce MM.requests MM.confirmations MM.num_requests_pk MM.active_requests_limit]; auto; try (apply all_fold_remove; assumption); apply all_remove; assumption. Qed.
  Lemma ms_actions c rc n l : forall s acc s' acts, ms_fits s -> Forall (typed c_action) l ->
    execute_actions c rc n l s acc = Ok (s', acts) -> ms_fits s'.
  Proof.
    induction l as [|a l IH]; intros s acc s' acts F T H; cbn [execute_actions] in H; [inv_res; exact F|].
    inversion T; subst. destruct a; try (inv_res; eapply IH; [|eassumption|eassumption]; auto using ms_drop; fail).
    - inv_res. destruct perm; eapply IH; eauto.
    - inv_res. destruct F. constructor; auto. exact (proj1 H2).
    - inv_res. destruct F. constructor; auto. exact (proj1 H2).
  Qed.
  Lemma ms_execute c s r s' p : ms_fits s -> typed c_request r -> execute_request c s r = Ok (s', p) -> ms_fits s'.
  Proof.
    intros F T H. unfold execute_request in H. inv_res. destruct x as [s1 a]. inv_res.
    eapply ms_actions; [exact F| |eassumption]. destruct T as (_ & _ & T). exact T.
  Qed.
  Lemma ms_confirm c s id s' p : ms_fits s -> typed c_bytes (ctx_signer_pk c) -> confirm c s id = Ok (s', p) -> ms_fits s'.
  Proof.
    intros F PK H. unfold confirm in H. inv_res.
    match goal with E : mget id _ = Some ?x |- _ => pose proof (all_get _ _ _ _ (mf_c _ F) E) as (I1 & I3 & I2) end.
    destruct (_ <=? _).
    - opn.
      match goal with E : remove_request _ _ = _ |- _ => apply ms_remove in E; [|exact F]; destruct E as (F1 & T1) end.
      eapply ms_execute; eauto.
    - inv_res. destruct F as [K NN RR CC QQ LL]. constructor; cbn; auto. apply all_insert; [|exact CC]. cbn [fst snd] in *.
      split; [exact I1|]. unfold sinsert. destruct (smem _ _); [now split|]. split.
      + rewrite app_length. cbn [List.length]. unfold slength in *. cbn in I3.
        rewrite N.mod_small in * by exact I3. lia.
      + apply Forall_app. split; [exact I2|]. constructor; [exact PK|constructor].
  Qed.
  Lemma ms_step self s e : ms_fits s -> typed_event e -> ms_fits (step self s e).
  Proof.
    intros F (PK & TS & TR). unfold step. destruct (exec _ _ _) as [[s' o]|] eqn:H; [|exact F].
    unfold exec in H. inv_res. destruct (e_call e) as [r|r|id|id].
    - opn. eapply (ms_add (ctx_of self e)); [exact F|exact PK|exact TS|exact TR|eassumption].
    - opn. unfold add_request_and_confirm in *. opn.
      match goal with E : add_request _ _ _ = _ |- _ => apply ms_add in E; [|exact F|exact PK|exact TS|exact TR] end.
      eapply (ms_confirm (ctx_of self e)); [eassumption|exact PK|eassumption].
    - opn. unfold delete_request in *. opn. eapply ms_remove; eauto.
    - opn. eapply (ms_confirm (ctx_of self e)); [exact F|exact PK|eassumption].
  Qed.
  Lemma ms_final self evs : forall s, ms_fits s -> Forall typed_event evs -> ms_fits (final self s evs).
  Proof.
    induction evs as [|e evs IH]; intros s F T; [exact F|]. inversion T; subst. cbn [final]. apply IH; [|assumption].
    now apply ms_step.
  Qed.
End Multisig.

(** * Multisig2 *)
Section Multisig2.
  Import Multisig2Model Multisig2Spec.
  Local Notation R := (fun e : N * signed_request => fst e < U32_BOUND /\ typed c_signed_request2 (snd e) /\ typed_member (the_member (snd e)) /\ typed_request2 (the_request (snd e))).
  Local Notation C := (fun e : N * uset string => fst e < U32_BOUND /\ typed c_confirmations (snd e)).
  Local Notation Q := (fun e : string * N => typed c_bytes (fst e) /\ snd e < U32_BOUND).
  Record m2_fits (s : contract) : Prop := {
    nf_m : Forall typed_member (members s);
    nf_k : num_confirmations s < U32_BOUND;
    nf_n : request_nonce s < U32_BOUND;
    nf_r : Forall R (requests s);
    nf_c : Forall C (confirmations s);
    nf_q : Forall Q (num_requests_pk s);
    nf_l : active_requests_limit s < U32_BOUND }.

  Ltac m2_cbn := cbn [M2.members M2.num_confirmations M2.request_nonce M2.requests M2.confirmations M2.num_requests_pk
    M2.active_requests_limit].
  Lemma members_insert m l : typed_member m -> Forall typed_member l -> Forall typed_member (sinsert m l).
  Proof. intros T F. unfold sinsert. destruct (smem m l); [exact F|]. apply Forall_app. split; [exact F|]. constructor; [exact T|constructor]. Qed.
  Lemma m2_member c s m : m2_fits s -> typed_member m -> m2_fits (fst (add_member c s m)).
  Proof. intros [M K NN RR CC QQ LL] T. constructor; cbn [add_member fst]; m2_cbn; auto using members_insert. Qed.
  Lemma m2_new cur b ms k s p : k < U32_BOUND -> Forall typed_member ms -> new cur b ms k = Ok (s, p) -> m2_fits s.
  Proof.
    intros K T H. unfold new in H. inv_res.
    set (s0 := mkContract [] k 0 [] [] [] ACTIVE_REQUESTS_LIMIT) in *.
    assert (F0 : m2_fits s0) by (constructor; cbn; try constructor; auto; reflexivity).
    clearbody s0. clear E E0. match type of H with context [fold_left ?f ms (s0, ?a)] =>
      enough (G : forall l acc s1, Forall typed_member l -> m2_fits s1 -> m2_fits (fst (fold_left f l (s1, acc)))) end.
    - specialize (G ms [] s0 T F0). destruct (fold_left _ _ _) as [s1 acts]. inv_res. exact G.
    - clear. induction l as [|m l IH]; intros acc s1 T F; [exact F|]. inversion T; subst. cbn [fold_left].
      pose proof (m2_member (mkCtx cur cur "" 0 0) s1 m F) as G. destruct (add_member _ s1 m) as [s2 bb]. apply IH; auto.
  Qed.

  Lemma num_fits2 s m : Forall Q (num_requests_pk s) -> num_requests_of s m < U32_BOUND.
  Proof.
    intros F. unfold num_requests_of. destruct (mget (text m) (num_requests_pk s)) as [n|] eqn:G; [|reflexivity].
    now apply (all_get _ _ _ _ F) in G.
  Qed.
  Lemma m2_current c s m : m2_fits s -> current_member c s = Some m -> typed_member m.
  Proof.
    intros F H. unfold current_member in H. cbv zeta in H.
    match type of H with (if smem ?x _ then _ else _) = _ => destruct (smem x (members s)) eqn:S; [|discriminate] end.
    injection H as <-. apply smem_in in S. exact (proj1 (Forall_forall _ _) (nf_m _ F) _ S).
  Qed.
  Lemma m2_add c s r s' id : m2_fits s -> ctx_timestamp c < U64_BOUND ->
    typed_request2 r -> add_request c s r = Ok (s', id) -> m2_fits s'.
  Proof.
    intros F TS TR H. unfold add_request in H. inv_res.
    assert (TM : typed_member x) by (eapply m2_current; eassumption).
    destruct F as [M K NN RR CC QQ LL]. constructor; m2_cbn; auto.
    - apply all_insert; [|exact RR]. cbn [fst snd]. split; [lia|].
      split; [split; [exact (proj1 TR)|split; [exact (proj1 TM)|exact TS]]|]. split; [exact TM|exact TR].
    - apply all_insert; [|exact CC]. cbn [fst snd]. split; [lia|]. split; [reflexivity|constructor].
    - apply all_insert; [|exact QQ]. cbn [fst snd]. split; [exact (proj2 TM)|lia].
  Qed.
  Lemma m2_remove s id s' r : m2_fits s -> remove_request s id = Ok (s', r) -> m2_fits s' /\ typed_request2 r.
  Proof.
    intros [M K NN RR CC QQ LL] H. unfold remove_request in H. inv_res.
    match goal with E : mget id _ = Some ?x |- _ => apply (all_get _ _ _ _ RR) in E; cbn [fst snd] in E; destruct E as (_ & _ & T1 & T2) end.
    split; [|exact T2]. constructor; m2_cbn; auto;
      try (apply all_remove; assumption).
    apply all_insert; [|exact QQ]. cbn [fst snd]. split; [exact (proj2 T1)|].
    pose proof (num_fits2 s (the_member x) QQ). destruct (0 <? _); lia.
  Qed.
  Lemma members_remove m l : Forall typed_member l -> Forall typed_member (sremove m l).
  Proof. intros F. apply Forall_forall. intros x I. apply (proj1 (Forall_forall _ _) F). now apply sremove_in in I. Qed.
  Lemma m2_drop s m : m2_fits s -> m2_fits (drop_member s m).
  Proof.
    intros [M K NN RR CC QQ LL]. constructor; unfold drop_member; cbv zeta; m2_cbn; try assumption; try (apply members_remove; assumption);
      try (apply all_fold_remove; assumption); apply all_remove; assumption.
  Qed.
  Lemma m2_actions c rc n l : forall s acc s' acts, m2_fits s -> Forall (typed c_action2) l ->
    Forall (fun a => match a with AddMember m => typed_member m | _ => True end) l ->
    execute_actions c rc n l s acc = Ok (s', acts) -> m2_fits s'.
  Proof.
    induction l as [|a l IH]; intros s acc s' acts F T TM H; cbn [execute_actions] in H; [inv_res; exact F|].
    inversion T; subst. inversion TM; subst.
    destruct a; try (inv_res; eapply IH; [|eassumption|eassumption|eassumption]; assumption).
    - inv_res. pose proof (m2_member c s m F ltac:(assumption)) as G. destruct (add_member c s m) as [s1 b]. eapply IH; eauto.
    - inv_res. destruct x0 as [s1 b]. unfold delete_member in *. inv_res. eapply IH; [apply m2_drop; exact F|eassumption..].
    - inv_res. destruct perm; eapply IH; eauto.
    - inv_res. destruct F. constructor; auto. exact (proj1 H2).
    - inv_res. destruct F. constructor; auto. exact (proj1 H2).
  Qed.
  Lemma m2_execute c s r s' p : m2_fits s -> typed_request2 r -> execute_request c s r = Ok (s', p) -> m2_fits s'.
  Proof.
    intros F (T & TM) H. unfold execute_request in H. inv_res. destruct x as [s1 a]. inv_res.
    eapply m2_actions; [exact F| |exact TM|eassumption]. destruct T as (_ & _ & T). exact T.
  Qed.
  Lemma m2_confirm c s id s' p : m2_fits s -> confirm c s id = Ok (s', p) -> m2_fits s'.
  Proof.
    intros F H. unfold confirm in H. inv_res.
    match goal with E : current_member _ _ = Some ?m |- _ => pose proof (m2_current _ _ _ F E) as TM end.
    match goal with E : mget id _ = Some ?x |- _ => pose proof (all_get _ _ _ _ (nf_c _ F) E) as (I1 & I3 & I2) end.
    destruct (_ <=? _).
    - opn.
      match goal with E : remove_request _ _ = _ |- _ => apply m2_remove in E; [|exact F]; destruct E as (F1 & T1) end.
      eapply m2_execute; eauto.
    - inv_res. destruct F as [M K NN RR CC QQ LL]. constructor; m2_cbn; auto. apply all_insert; [|exact CC]. cbn [fst snd] in *.
      split; [exact I1|]. unfold sinsert. destruct (smem _ _); [now split|]. split.
      + rewrite app_length. cbn [List.length]. unfold slength in *. cbn in I3.
        rewrite N.mod_small in * by exact I3. lia.
      + apply Forall_app. split; [exact I2|]. constructor; [exact (proj2 TM)|constructor].
  Qed.
  Lemma m2_step self s e : m2_fits s -> typed_event2 e -> m2_fits (step self s e).
  Proof.
    intros F (TS & TR). unfold step. destruct (exec _ _ _) as [[s' o]|] eqn:H; [|exact F].
    unfold exec in H. inv_res. destruct (e_call e) as [r|r|id|id].
    - opn. eapply (m2_add (ctx_of self e)); [exact F|exact TS|exact TR|eassumption].
    - opn. unfold add_request_and_confirm in *. opn.
      match goal with E : add_request _ _ _ = _ |- _ => apply m2_add in E; [|exact F|exact TS|exact TR] end.
      eapply (m2_confirm (ctx_of self e)); eassumption.
    - opn. unfold delete_request in *. opn. eapply m2_remove; eauto.
    - opn. eapply (m2_confirm (ctx_of self e)); [exact F|eassumption].
  Qed.
  Lemma m2_final self evs : forall s, m2_fits s -> Forall typed_event2 evs -> m2_fits (final self s evs).
  Proof.
    induction evs as [|e evs IH]; intros s F T; [exact F|]. inversion T; subst. cbn [final]. apply IH; [|assumption].
    now apply m2_step.
  Qed.
End Multisig2.

(** * Voting *)
Section Voting.
  Import VotingModel VotingSpec.
  Local Notation T := (fun e : account_id * N => typed c_bytes (fst e) /\ snd e < U128_BOUND).
  (** The accounts that voted were validators of one epoch, of the current one if the votes were counted in it. *)
  Definition from (vs : validators) (s : contract) : Prop :=
    validators_ok vs /\ few vs /\ incl (mkeys (votes s)) (mkeys vs).
  Record vo_fits (s : contract) : Prop := {
    vf_v : Forall T (votes s);
    vf_d : NoDup (mkeys (votes s));
    vf_t : total_voted_stake s < U128_BOUND;
    vf_r : match result s with Some t => t < U64_BOUND | None => True end }.
  Record vo_inv (w : world) : Prop := {
    vi_f : vo_fits (w_contract w);
    vi_e : last_epoch_height (w_contract w) <= w_epoch w;
    vi_w : validators_ok (w_validators w) /\ few (w_validators w);
    vi_o : exists vs, from vs (w_contract w);
    vi_n : last_epoch_height (w_contract w) = w_epoch w -> incl (mkeys (votes (w_contract w))) (mkeys (w_validators w)) }.

  Lemma stake_fits c a : validators_ok (ctx_validators c) -> validator_stake c a < U128_BOUND.
  Proof.
    intros (D & B). unfold validator_stake. destruct (mget a _) as [x|] eqn:G; [|reflexivity].
    apply (msum_ge (fun s => s)) in G. lia.
  Qed.
  Lemma stake_in c a : 0 < validator_stake c a -> In a (mkeys (ctx_validators c)).
  Proof.
    unfold validator_stake. destruct (mget a _) as [x|] eqn:G; [|lia]. intros _. apply mget_in in G.
    apply (in_map fst) in G. exact G.
  Qed.
  Lemma check_fits c s s' : vo_fits s -> ctx_timestamp c < U64_BOUND -> check_result c s = Ok s' ->
    vo_fits s' /\ votes s' = votes s /\ last_epoch_height s' = last_epoch_height s.
  Proof.
    intros F TS H. unfold check_result in H. inv_res. destruct (_ <? _); inv_res; [|split; [exact F|now split]].
    destruct F. split; [|now split]. constructor; auto.
  Qed.
  Lemma retally_fits c old : forall acc t acc' t', validators_ok (ctx_validators c) -> Forall T old -> Forall T acc ->
    NoDup (mkeys acc) -> incl (mkeys acc) (mkeys (ctx_validators c)) -> t < U128_BOUND -> retally c old acc t = Ok (acc', t') ->
    Forall T acc' /\ NoDup (mkeys acc') /\ incl (mkeys acc') (mkeys (ctx_validators c)) /\ t' < U128_BOUND.
  Proof.
    induction old as [|[a b] old IH]; intros acc t acc' t' V F G D I B H; cbn [retally] in H; inv_res; [now repeat split|].
    inversion F; subst. destruct (0 <? validator_stake c a) eqn:P.
    - apply N.ltb_lt in P. eapply (IH _ _ _ _ V ltac:(assumption)); [| | |  |eassumption].
      + apply all_insert; [|exact G]. cbn [fst snd]. split; [tauto|now apply stake_fits].
      + now apply NoDup_minsert.
      + intros x Hx. apply mkeys_minsert_in in Hx. destruct Hx as [->|Hx]; [now apply stake_in|auto].
      + assumption.
    - eapply (IH acc); eassumption.
  Qed.
  Lemma ping_fits w who att ts s : vo_inv w -> ts < U64_BOUND -> ping (call_ctx w who att ts) (w_contract w) = Ok s ->
    vo_inv (mkWorld s (w_epoch w) (w_validators w)) /\ last_epoch_height s = w_epoch w.
  Proof.
    intros [F E W O NN] TS H. unfold ping in H. inv_res. cbn [call_ctx ctx_epoch] in H.
    destruct (N.eqb_spec (w_epoch w) (last_epoch_height (w_contract w))) as [Q|Q]; inv_res.
    - split; [|now symmetry]. now constructor.
    - destruct x0 as [vs t]. inv_res.
      match goal with R : retally _ _ _ _ = _ |- _ =>
        apply retally_fits in R; [|exact (proj1 W)|exact (vf_v _ F)|constructor|constructor|intros ? []|reflexivity] end.
      destruct E1 as (A1 & A2 & A3 & A4).
      match goal with R : check_result _ _ = _ |- _ => apply check_fits in R; [| |exact TS] end.
      + destruct E2 as (B1 & B2 & B3). cbn [votes] in B2. split; [|reflexivity]. constructor; cbn [w_contract w_epoch w_validators].
        * destruct B1. constructor; auto.
        * cbn. lia.
        * exact W.
        * exists (w_validators w). repeat split; cbn [votes]; try apply W. rewrite B2. exact A3.
        * intros _. cbn [votes]. rewrite B2. exact A3.
      + constructor; auto. exact (vf_r _ F).
  Qed.
  Lemma vo_step w e : vo_inv w -> typed_voting_event e -> vo_inv (step w e).
  Proof.
    intros I TE. destruct e as [who att ts m|k vs]; cbn [step].
    2:{ destruct I as [F E W O NN]. constructor; cbn [w_contract w_epoch w_validators]; auto; lia. }
    destruct TE as (TW & TS). destruct (exec _ _ _) as [s|] eqn:H; [|exact I].
    unfold exec in H. inv_res. destruct m as [|b]; [now apply ping_fits in H|].
    unfold vote in H. inv_res. match goal with R : ping _ _ = Ok ?y |- _ => rename y into z, R into PG; apply ping_fits in PG; [|exact I|exact TS] end.
    destruct PG as ([F E' W O NN] & L). cbn [w_contract w_epoch w_validators] in *. specialize (NN L).
    destruct (result z) eqn:RZ; inv_res; [now constructor|].
    cbn [call_ctx ctx_predecessor] in *.
    assert (KR : forall y, In y (mkeys (mremove who (votes z))) -> In y (mkeys (w_validators w))).
    { intros y Hy. apply NN. apply in_map_iff in Hy. destruct Hy as (e & <- & Hy).
      pose proof (all_remove (fun e => In (fst e) (mkeys (votes z))) who (votes z)) as A.
      refine (proj1 (Forall_forall _ _) (A _) _ Hy). apply Forall_forall. intros y0 Hy0. now apply in_map. }
    destruct F as [FV FD FT FR].
    assert (G : forall s0, vo_fits s0 -> incl (mkeys (votes s0)) (mkeys (w_validators w)) ->
      last_epoch_height s0 = last_epoch_height z -> vo_inv (mkWorld s0 (w_epoch w) (w_validators w))).
    { intros s0 Q1 Q2 Q3. constructor; cbn [w_contract w_epoch w_validators]; auto.
      - lia.
      - exists (w_validators w). split; [apply W|]. split; [apply W|exact Q2]. }
    assert (KF : Forall T (mremove who (votes z))) by (now apply all_remove).
    assert (KD : NoDup (mkeys (mremove who (votes z)))) by (now apply NoDup_mremove).
    match type of H with (if 0 <? ?st then _ else _) = _ => rename st into st1; destruct (N.ltb_spec 0 st1) as [P|P] end; inv_res.
    - assert (ST : st1 = validator_stake (call_ctx w who att ts) who) by (destruct b; inv_res; [reflexivity|lia]).
      apply check_fits in H; [|constructor; cbn [votes total_voted_stake result]|exact TS].
      + destruct H as (Q1 & Q2 & Q3). apply G; [exact Q1| |exact Q3]. rewrite Q2. cbn [votes].
        intros y Hy. apply mkeys_minsert_in in Hy. destruct Hy as [->|Hy]; [|auto].
        rewrite ST in P. exact (stake_in _ _ P).
      + apply all_insert; [|exact KF]. cbn [fst snd]. split; [exact TW|]. rewrite ST. now apply stake_fits.
      + now apply NoDup_minsert.
      + lia.
      + exact Logic.I.
    - apply G; [constructor; cbn [votes total_voted_stake result]|exact KR|reflexivity]; auto. lia.
  Qed.
  Lemma vo_final evs : forall w, vo_inv w -> Forall typed_voting_event evs -> vo_inv (final w evs).
  Proof.
    induction evs as [|e evs IH]; intros w F T; [exact F|]. inversion T; subst. cbn [final]. apply IH; [|assumption].
    now apply vo_step.
  Qed.
  Lemma vo_initial w : initial w -> few (w_validators w) -> vo_inv w.
  Proof.
    intros (H & V) W. unfold new in H. cbn in H. injection H as H. constructor; rewrite <- ?H; cbn.
    - constructor; cbn; try constructor; reflexivity.
    - lia.
    - now split.
    - exists (w_validators w). split; [exact V|]. split; [exact W|]. intros ? [].
    - intros _ ? [].
  Qed.
  Lemma vo_typed w : vo_inv w -> w_epoch w < U64_BOUND -> typed c_voting (w_contract w).
  Proof.
    intros [F E W (vs & V & L & I) NN] B. destruct F as [FV FD FT FR].
    split; [split|].
    - unfold few in L. apply (NoDup_incl_length FD) in I. unfold mkeys in I. rewrite !map_length in I.
      change (N.of_nat (List.length (votes (w_contract w))) < U32_BOUND). lia.
    - exact FV.
    - split; [exact FT|]. split; [|change (last_epoch_height (w_contract w) < U64_BOUND); lia].
      change (match result (w_contract w) with Some t => t < U64_BOUND | None => True end). destruct (result (w_contract w)); [exact FR|exact Logic.I].
  Qed.
End Voting.

(** * Wrapped NEAR *)
Section WNear.
  Import WNearModel WNearSpec.
  Local Notation T := (fun e : account_id * N => typed c_bytes (fst e) /\ snd e < U128_BOUND).
  Record wn_fits (t : token) : Prop := {
    wf_a : Forall T (accounts t);
    wf_s : total_supply t < U128_BOUND;
    wf_u : account_storage_usage t = 125 }.

  Lemma valid_typed a : is_valid_account_id a = true -> typed c_bytes a.
  Proof. intros H. apply valid_name in H. unfold name_ok in H. apply (N.le_lt_trans _ _ _ H). reflexivity. Qed.
  Lemma wn_deposit t a x t' : wn_fits t -> internal_deposit t a x = Ok t' -> wn_fits t'.
  Proof.
    intros [A S U] H. unfold internal_deposit, unwrap_balance_of in H. inv_res.
    match goal with E : mget a _ = Some _ |- _ => apply (all_get _ _ _ _ A) in E; destruct E as (E1 & _) end.
    constructor; cbn [accounts total_supply account_storage_usage]; auto. apply all_insert; [|exact A]. now split.
  Qed.
  Lemma wn_withdraw t a x t' : wn_fits t -> internal_withdraw t a x = Ok t' -> wn_fits t'.
  Proof.
    intros [A S U] H. unfold internal_withdraw, unwrap_balance_of in H. inv_res.
    match goal with E : mget a _ = Some _ |- _ => apply (all_get _ _ _ _ A) in E; destruct E as (E1 & E2); cbn [fst snd] in * end.
    constructor; cbn [accounts total_supply account_storage_usage]; auto; [|lia]. apply all_insert; [|exact A]. cbn [fst snd]. split; [exact E1|lia].
  Qed.
  Lemma wn_transfer t a b x t' : wn_fits t -> internal_transfer t a b x = Ok t' -> wn_fits t'.
  Proof. intros F H. unfold internal_transfer in H. inv_res. eapply wn_deposit; [|eassumption]. eapply wn_withdraw; eassumption. Qed.
  Lemma wn_register t a t' : wn_fits t -> typed c_bytes a -> internal_register_account t a = Ok t' -> wn_fits t'.
  Proof.
    intros [A S U] N H. unfold internal_register_account in H. inv_res. constructor; cbn [accounts total_supply account_storage_usage]; auto.
    apply all_insert; [|exact A]. split; [exact N|reflexivity].
  Qed.
  Lemma wn_resolve t r s d x t' u : wn_fits t -> internal_resolve t r s d x = Ok (t', u) -> wn_fits t'.
  Proof.
    intros F H. unfold internal_resolve in H. cbv zeta in H. destruct (0 <? match r with Unused _ => _ | _ => _ end); inv_res; [|exact F].
    destruct (mget d (accounts t)) as [bd|] eqn:D; [|cbn in H; inv_res; exact F].
    destruct (0 <? bd); inv_res; [|exact F]. destruct F as [A S U].
    pose proof (all_get _ _ _ _ A D) as (D1 & D2). cbn [fst snd] in *.
    match type of H with context [minsert d ?y (accounts t)] =>
      assert (A1 : Forall T (minsert d y (accounts t))) by (apply all_insert; [|exact A]; cbn [fst snd]; split; [exact D1|lia]) end.
    match type of H with context [mget s ?m] => destruct (mget s m) as [bs|] eqn:B end; inv_res;
      constructor; cbn [accounts total_supply account_storage_usage]; auto; [|lia].
    apply (all_get _ _ _ _ A1) in B. destruct B as (B1 & _). apply all_insert; [|exact A1]. now split.
  Qed.
  Lemma wn_exec c t cl t' ps v : wn_fits t -> typed c_bytes (ctx_predecessor c) -> exec c t cl = Ok (t', ps, v) -> wn_fits t'.
  Proof.
    intros F P H. unfold exec in H. inv_res. destruct cl.
    - discriminate.
    - unfold near_deposit in H. inv_res.
      match goal with y : (token * N)%type |- _ => destruct y as [t1 u] end. inv_res. eapply wn_deposit; [|eassumption].
      destruct (negb _); inv_res; [|assumption]. eapply wn_register; eassumption.
    - unfold near_withdraw in H. inv_res. eapply wn_withdraw; eassumption.
    - unfold ft_transfer in H. inv_res. eapply wn_transfer; eassumption.
    - unfold ft_transfer_call in H. inv_res. eapply wn_transfer; eassumption.
    - unfold ft_resolve_transfer in H. inv_res.
      match goal with y : (token * N)%type |- _ => destruct y as [t1 u] end. inv_res. eapply wn_resolve; eassumption.
    - unfold storage_deposit in H. inv_res. destruct (mmem _ _); inv_res; [exact F|].
      eapply wn_register; [exact F| |eassumption]. destruct account as [a|]; [|exact P].
      now apply valid_typed.
    - unfold storage_withdraw in H. inv_res. exact F.
    - unfold storage_unregister in H. inv_res. destruct (mget _ _) eqn:G; inv_res; [|exact F]. destruct F as [A S U].
      constructor; cbn [accounts total_supply account_storage_usage]; auto; [|lia]. now apply all_remove.
  Qed.
  Lemma wn_step self w ev : is_valid_account_id self = true -> wn_fits (w_token w) -> wn_fits (w_token (step self w ev)).
  Proof.
    intros V F. unfold step, step_obs. destruct ev; try destruct (nth_error _ _) as [[]|]; cbn [fst w_token]; try exact F.
    - destruct (String.eqb who self || negb _) eqn:N; [exact F|]. apply orb_false_elim in N. destruct N as (_ & N).
      destruct (exec _ _ _) as [[[t ps] v]|] eqn:H; [|exact F]. destruct (_ <=? _); [|exact F].
      eapply wn_exec in H; [exact H|exact F|]. apply valid_typed. now apply negb_false_iff.
    - destruct ok; exact F.
    - destruct (exec _ _ _) as [[[t ps] []]|] eqn:H; try exact F. destruct (_ && _); [|exact F].
      eapply wn_exec in H; [exact H|exact F|]. now apply valid_typed.
  Qed.
  Lemma wn_final self evs : forall w, is_valid_account_id self = true -> wn_fits (w_token w) -> wn_fits (w_token (final self w evs)).
  Proof.
    induction evs as [|e evs IH]; intros w V F; [exact F|]. cbn [final]. apply IH; [exact V|]. now apply wn_step.
  Qed.
  Lemma wn_start b : wn_fits (w_token (start b)).
  Proof. constructor; [constructor|reflexivity|reflexivity]. Qed.
End WNear.

(** * Reading back *)
Lemma ms_reads s : ms_fits s -> multisig_reads s.
Proof.
  intros [K NN RR CC QQ LL]. split; [|split; [|split]].
  - intros r c n R C Q. rewrite (reads_back _ good_multisig_fields); [now destruct s|].
    exact (conj K (conj NN (conj R (conj C (conj Q LL))))).
  - eapply Forall_impl; [|exact RR]. intros e (A & B). split; [now apply (reads_back _ (good_uint 4))|now apply (reads_back _ good_signed_request)].
  - eapply Forall_impl; [|exact CC]. intros e (A & B). split; [now apply (reads_back _ (good_uint 4))|now apply (reads_back _ good_confirmations)].
  - eapply Forall_impl; [|exact QQ]. intros e (A & B). split; [now apply (reads_back _ good_bytes)|now apply (reads_back _ (good_uint 4))].
Qed.
Lemma m2_reads s : m2_fits s -> multisig2_reads s.
Proof.
  intros [M K NN RR CC QQ LL]. split; [|split; [|split; [|split]]].
  - intros m r c n A R C Q. rewrite (reads_back _ good_multisig2_fields); [now destruct s|].
    exact (conj A (conj K (conj NN (conj R (conj C (conj Q LL)))))).
  - eapply Forall_impl; [|exact M]. intros e (A & B). now apply (reads_back _ good_member).
  - eapply Forall_impl; [|exact RR]. intros e (A & B & _). split; [now apply (reads_back _ (good_uint 4))|now apply (reads_back _ good_signed_request2)].
  - eapply Forall_impl; [|exact CC]. intros e (A & B). split; [now apply (reads_back _ (good_uint 4))|now apply (reads_back _ good_confirmations)].
  - eapply Forall_impl; [|exact QQ]. intros e (A & B). split; [now apply (reads_back _ good_bytes)|now apply (reads_back _ (good_uint 4))].
Qed.
Lemma wn_reads t : wn_fits t -> token_reads t.
Proof.
  intros [A S U]. split.
  - intros h H. rewrite (reads_back _ good_token_fields); [now destruct t|]. split; [exact H|]. split; [exact S|].
    change (WM.account_storage_usage t < U64_BOUND). rewrite U. reflexivity.
  - eapply Forall_impl; [|exact A]. intros e (B & C). split; [now apply (reads_back _ good_bytes)|now apply (reads_back _ (good_uint 16))].
Qed.

Lemma multisig_survives b k s self evs : k < U32_BOUND -> Forall typed_event evs -> MM.new b k = Ok s ->
  multisig_reads (MultisigSpec.final self s evs).
Proof. intros K T H. apply ms_reads, ms_final; [|exact T]. eapply ms_new; eassumption. Qed.
Lemma multisig2_survives b ms k s p self evs : k < U32_BOUND -> Forall typed_member ms -> Forall typed_event2 evs ->
  M2.new self b ms k = Ok (s, p) -> multisig2_reads (Multisig2Spec.final self s evs).
Proof. intros K M T H. apply m2_reads, m2_final; [|exact T]. eapply m2_new; eassumption. Qed.
Lemma voting_survives w evs : VotingSpec.initial w -> few (VotingSpec.w_validators w) -> Forall typed_voting_event evs ->
  VotingSpec.w_epoch (VotingSpec.final w evs) < U64_BOUND -> reads c_voting (VotingSpec.w_contract (VotingSpec.final w evs)).
Proof. intros I F T E. apply (reads_back _ good_voting). apply vo_typed; [|exact E]. apply vo_final; [|exact T]. now apply vo_initial. Qed.
Lemma wnear_survives self b evs : is_valid_account_id self = true ->
  token_reads (WNearSpec.w_token (WNearSpec.final self (WNearSpec.start b) evs)).
Proof. intros V. apply wn_reads, wn_final; [exact V|apply wn_start]. Qed.
