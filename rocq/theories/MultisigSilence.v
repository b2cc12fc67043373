(** The account of a multisig some of whose keys refuse (C121). *)
From Coq Require Import NArith List Bool String Lia.
From Verif Require Import Prelude PreludeFacts MapFacts MultisigModel MultisigSpec MultisigProofs MultisigFacts
  MultisigAccount MultisigAccountProofs MultisigVeto.
Import ListNotations.
Open Scope N_scope.

(** A transaction that carries no confirmation. *)
Definition carries_no_confirmation (decode : string -> string -> option call) (acts : list batch_action) : Prop :=
  forall m args deposit gas c, In (BFunctionCall m args deposit gas) acts -> decode m args = Some c ->
    confirms c = false.

Section Silence.
Variables (self : account_id) (decode : string -> string -> option call) (s0 : contract) (a : world).
(** The calls that are made from now on. *)
Variable allowed : event -> Prop.
Hypothesis HV : forall evs, Forall allowed evs -> executions self (final self s0 (w_calls a)) evs = [].
Hypothesis HK : forall pk x, mget pk (w_keys a) = Some x -> limited self x.

Definition fine (h : happening) : Prop :=
  match h with
  | HTx key to acts => forall m args deposit gas c t, In (BFunctionCall m args deposit gas) acts ->
      decode m args = Some c -> allowed (mkEvent self key deposit t c)
  | _ => True
  end.

Definition harmless (rc : receipt) : Prop :=
  p_receiver (rc_batch rc) = self /\
  exists m args deposit gas, p_actions (rc_batch rc) = [BFunctionCall m args deposit gas] /\
    forall c t, decode m args = Some c -> allowed (mkEvent self (rc_key rc) deposit t c).

Record quiet (w : world) : Prop := {
  q_calls : exists evs, w_calls w = (w_calls a ++ evs)%list /\ Forall allowed evs;
  q_contract : w_contract w = final self s0 (w_calls w);
  q_keys : w_keys w = w_keys a;
  q_flight : Forall harmless (w_flight w)
}.

Lemma quiet_invoke w ev w' : quiet w -> allowed ev -> invoke self w ev = Some w' -> quiet w'.
Proof.
  intros [(evs & C & F) HC K L] A V. unfold invoke in V.
  destruct (exec _ _ _) as [[s o]|] eqn:E; [|discriminate]. injection V as <-.
  rewrite HC in E. pose proof (executions_one _ _ _ _ _ E) as X.
  assert (FA : Forall allowed (evs ++ [ev])) by (apply Forall_app; auto).
  pose proof (HV _ FA) as N. rewrite executions_app in N. apply app_eq_nil in N. destruct N as [_ N].
  rewrite <- final_app, <- C, X in N. rewrite N. cbn [map]. rewrite app_nil_r.
  constructor; cbn [w_contract w_keys w_flight w_calls]; auto.
  - exists (evs ++ [ev])%list. rewrite C, app_assoc. auto.
  - symmetry. eapply final_snoc; eauto.
Qed.

Lemma quiet_happen w h : quiet w -> fine h ->
  quiet (happen self decode w h) /\ snd (happen_obs self decode w h) = [].
Proof.
  intros Q F. unfold happen, happen_obs. destruct h as [key to acts|i t|pred key att t m].
  - destruct (mget key (w_keys w)) as [x|] eqn:G; [|now split].
    destruct (permits x to acts) eqn:P; [|now split]. cbn [fst snd]. split; [|reflexivity].
    destruct Q as [QC QS QK QF]. constructor; cbn [w_contract w_keys w_flight w_calls]; auto.
    apply Forall_app. split; auto. constructor; [|constructor].
    rewrite QK in G. pose proof (HK _ _ G) as LX. destruct (permits_limited _ _ _ _ LX P) as [-> _].
    destruct LX as [ms ->]. cbn [permits] in P. destruct acts as [|[] [|]]; try discriminate.
    split; [reflexivity|]. cbn [rc_batch rc_key p_actions]. do 4 eexists. split; [reflexivity|].
    intros c t D. eapply F; [now left|exact D].
  - destruct (nth_error (w_flight w) i) as [rc|] eqn:G; [|now split].
    pose proof (split_nth _ _ _ G) as SP. destruct Q as [QC QS QK QF].
    rewrite SP in QF. apply Forall_app in QF. destruct QF as [F1 F2]. apply Forall_cons_iff in F2.
    destruct F2 as [(R & mm & args & dep & gas & AC & AL) F2].
    set (w1 := mkWorld _ _ _ _).
    assert (Q1 : quiet w1) by (constructor; auto; cbn [w_flight w1]; apply Forall_app; auto).
    rewrite (proj2 (String.eqb_eq _ _) R). cbn [fst snd]. split; [|reflexivity].
    rewrite AC. cbn [apply]. destruct (decode mm args) as [c|] eqn:D; [|exact Q1].
    destruct (invoke self w1 _) as [w2|] eqn:V; [|exact Q1].
    eapply quiet_invoke; eauto.
  - destruct (String.eqb_spec pred self) as [Y|Y]; [now split|]. cbn [fst snd]. split; [|reflexivity].
    destruct (strangers_rejected self (w_contract w) (mkEvent pred key att t m) Y) as [O _].
    unfold invoke. unfold outcome in O. destruct (exec _ _ _) as [[? ?]|]; [discriminate|exact Q].
Qed.

Lemma quiet_run hs : forall w, quiet w -> Forall fine hs ->
  quiet (run self decode w hs) /\ departures self decode w hs = [].
Proof.
  induction hs as [|h hs IH]; intros w Q F; cbn [run departures]; [now split|].
  apply Forall_cons_iff in F. destruct F as [F1 F2]. destruct (quiet_happen _ _ Q F1) as [Q1 D].
  destruct (IH _ Q1 F2) as [Q2 D2]. split; auto. now rewrite D, D2.
Qed.
End Silence.

Lemma silence self decode k s0 ks hs hs' A : new false k = Ok s0 ->
  NoDup (mkeys ks) -> (forall pk x, mget pk ks = Some x -> limited self x) ->
  let a := run self decode (start s0 ks) hs in
  (forall p, In p (executions self s0 (w_calls a)) -> p_receiver p = self -> keeps_guard self (p_actions p)) ->
  w_flight a = [] ->
  N.of_nat (List.length A) < get_num_confirmations (w_contract a) ->
  (forall id pk, In id (list_request_ids (w_contract a)) -> In pk (confirmers (log self s0 (w_calls a)) id) -> In pk A) ->
  (forall key to acts, In (HTx key to acts) hs' -> ~ In key A -> carries_no_confirmation decode acts) ->
  let b := run self decode a hs' in
  departures self decode a hs' = [] /\ w_keys b = w_keys a /\
  (forall p, In p (map rc_batch (w_flight b)) -> p_receiver p = self) /\
  executions self s0 (w_calls b) = executions self s0 (w_calls a) /\
  get_num_confirmations (w_contract b) = get_num_confirmations (w_contract a) /\
  active_requests_limit (w_contract b) = active_requests_limit (w_contract a).
Proof.
  intros E N K a G FL LA HC HT b.
  destruct (departures_are_executions self decode _ _ _ hs E N K G) as (CT & LM & _). fold a in CT, LM.
  set (allowed := fun ev => confirms (e_call ev) = true -> In (e_key ev) A).
  pose proof (fun evs => veto self k s0 (w_calls a) evs A E) as V. cbv zeta in V. rewrite <- CT in V.
  assert (V1 : forall evs, Forall allowed evs ->
    (forall e id p, In e (log self (w_contract a) evs) -> confirmed e <> Some (id, Some p)) /\
    get_num_confirmations (final self (w_contract a) evs) = get_num_confirmations (w_contract a) /\
    active_requests_limit (final self (w_contract a) evs) = active_requests_limit (w_contract a)).
  { intros evs F. apply V; auto. rewrite Forall_forall in F. exact F. }
  assert (HV : forall evs, Forall allowed evs -> executions self (final self s0 (w_calls a)) evs = []).
  { intros evs F. rewrite <- CT. destruct (V1 evs F) as [X _]. unfold executions.
    induction (log self (w_contract a) evs) as [|e l IH]; [reflexivity|]. cbn [flat_map].
    rewrite IH by (intros; apply X; now right).
    destruct (confirmed e) as [[id [p|]]|] eqn:C; auto. exfalso. apply (X e id p); [now left|exact C]. }
  destruct (quiet_run self decode s0 a allowed HV LM hs' a) as [Q D].
  - constructor; auto.
    + exists []. rewrite app_nil_r. auto.
    + rewrite FL. constructor.
  - apply Forall_forall. intros h I. destruct h as [key to acts| |]; cbn; auto.
    intros m args dep gas c t IA DE C. cbn [e_call e_key] in *.
    destruct (in_dec string_dec key A) as [Y|Y]; auto.
    exfalso. pose proof (HT key to acts I Y) as Z. unfold carries_no_confirmation in Z.
    rewrite (Z _ _ _ _ _ IA DE) in C. discriminate.
  - fold b in Q. destruct Q as [(evs & C & F) QS QK QF]. destruct (V1 evs F) as (_ & M1 & M2).
    assert (CB : w_contract b = final self (w_contract a) evs) by (rewrite QS, C, final_app, <- CT; reflexivity).
    split; [exact D|]. split; [exact QK|]. split; [|split; [|split]].
    + intros p I. apply in_map_iff in I. destruct I as (rc & <- & I). rewrite Forall_forall in QF. now apply (QF rc).
    + rewrite C, executions_app, (HV _ F). apply app_nil_r.
    + now rewrite CB.
    + now rewrite CB.
Qed.
