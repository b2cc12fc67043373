(** Proofs about a lockup owned by a multisig. *)
From Coq Require Import PeanoNat NArith List Bool String Lia.
From Verif Require Import Prelude LockupModel LockupWorld LockupSpec LockupEffects LockupInv LockupFacts LockupBusy OwnedLockup.
From Verif Require MultisigModel MultisigSpec MultisigAccount MultisigAccountProps Multisig2Model Multisig2Spec Multisig2Account
  Multisig2AccountProps.
Import ListNotations.
Open Scope N_scope.

(** * The lockup's payments *)
Definition flying (to : account_id) (x : N) (l : list msg) : nat :=
  List.length (filter (fun o => match o with MCall (RTransfer t a) None => String.eqb t to && (a =? x) | _ => false end) l).

Lemma payouts_app to x a b : payouts to x (a ++ b) = (payouts to x a + payouts to x b)%nat.
Proof. unfold payouts. rewrite filter_app, app_length. reflexivity. Qed.
Lemma orders_app to x a b : orders to x (a ++ b) = (orders to x a + orders to x b)%nat.
Proof. unfold orders. rewrite filter_app, app_length. reflexivity. Qed.
Lemma flying_app to x a b : flying to x (a ++ b) = (flying to x a + flying to x b)%nat.
Proof. unfold flying. rewrite filter_app, app_length. reflexivity. Qed.
Lemma owner_calls_app o a b : owner_calls o (a ++ b) = (owner_calls o a ++ owner_calls o b)%list.
Proof. unfold owner_calls. apply flat_map_app. Qed.

Lemma flying_drop to x n l m : nth_error l n = Some m ->
  flying to x l = (flying to x [m] + flying to x (drop_nth n l))%nat.
Proof.
  revert n. induction l as [|y l IH]; intros [|n] E; cbn in E; try discriminate.
  - injection E as ->. change (m :: l) with ([m] ++ l)%list. rewrite flying_app. reflexivity.
  - change (y :: l) with ([y] ++ l)%list. change (drop_nth (S n) ([y] ++ l)) with ([y] ++ drop_nth n l)%list.
    rewrite !flying_app, (IH n E). lia.
Qed.
Lemma flying_tokens to x a : flying to x (tokens a) = 0%nat.
Proof. unfold tokens. destruct (a =? 0); reflexivity. Qed.
Lemma flying_back to x cb r : flying to x (back cb r) = 0%nat.
Proof. destruct cb; reflexivity. Qed.

Lemma owner_same c s m s' p : exec c s m = Ok (s', p) -> owner_account_id s' = owner_account_id s.
Proof.
  intros H. apply ok_effect in H. destruct H as [_ He].
  inversion He; subst; repeat match goal with |- context [if ?b then _ else _] => destruct b end; reflexivity.
Qed.

(** One call: what it adds in flight. *)
Lemma run_flying g w who att rs m w' l to x :
  run g w who att rs m = (Some w', l) ->
  owner_account_id (w_lockup w') = owner_account_id (w_lockup w) /\ payouts to x l = 0%nat /\
  owner_calls (owner_account_id (w_lockup w)) l = [] /\
  (flying to x (w_msgs w') <= flying to x (w_msgs w) +
     (if String.eqb who (owner_account_id (w_lockup w)) then orders to x [m] else 0))%nat.
Proof.
  unfold run. destruct (exec _ _ _) as [[s [p|]]|] eqn:E; [| |discriminate].
  - destruct (_ <=? _); [|discriminate]. intros H. injection H as <- <-. cbn [w_lockup w_msgs].
    split; [eapply owner_same; eassumption|]. split; [reflexivity|]. split; [reflexivity|]. rewrite flying_app.
    apply Nat.add_le_mono_l.
    assert (C := caller_checked _ _ _ _ _ E). destruct C as [_ C].
    apply ok_effect in E. destruct E as [_ E]. cbn [ctx_predecessor] in *.
    inversion E; subst; try apply Nat.le_0_l.
    cbn [owner_method] in C. rewrite <- C, String.eqb_refl. unfold flying, orders. cbn. destruct (_ && _); cbn; lia.
  - intros H. injection H as <- <-. cbn [w_lockup w_msgs]. split; [eapply owner_same; eassumption|].
    split; [reflexivity|]. split; [reflexivity|]. lia.
Qed.

Lemma execute_flying w r cb o pools new l to x owner : execute w r cb o = Some (pools, new, l) ->
  (payouts to x l + flying to x new <= flying to x [MCall r cb])%nat /\ owner_calls owner l = [].
Proof.
  unfold execute. destruct o; destruct r; try discriminate; try (destruct (is_view op); [|discriminate]);
    try (destruct (pool_keeps _ _ _); [|discriminate]);
    intros H; injection H as <- <- <-; rewrite ?flying_app, ?flying_tokens, ?flying_back;
    (split; [|reflexivity]); try (apply Nat.le_0_l).
  - unfold payouts, flying. cbn. destruct cb; cbn; [lia|]. destruct (_ && _); cbn; lia.
  - destruct op; cbn; rewrite ?flying_app, ?flying_tokens, ?flying_back; try lia; cbn; lia.
Qed.

Ltac none :=
  repeat match goal with
         | |- context [flying ?to ?x [MBack ?a ?b]] => change (flying to x [MBack a b]) with 0%nat
         | |- context [flying ?to ?x [MTokens ?a]] => change (flying to x [MTokens a]) with 0%nat
         end; unfold payouts, orders, owner_calls; cbn [filter flat_map app List.length]; lia.
Lemma step_flying g w ev to x : owner_account_id (w_lockup w) <> g_self g ->
  let w' := step g w ev in
  let l := snd (step_obs g w ev) in
  owner_account_id (w_lockup w') = owner_account_id (w_lockup w) /\
  (payouts to x l + flying to x (w_msgs w') <=
   flying to x (w_msgs w) + orders to x (owner_calls (owner_account_id (w_lockup w)) l))%nat.
Proof.
  intros N. unfold step. destruct ev; cbn [step_obs].
  - destruct (_ && _); cbn [fst snd w_lockup w_msgs]; (split; [reflexivity|none]).
  - cbn [fst snd w_lockup w_msgs]; split; [reflexivity|none].
  - destruct (_ && _); cbn [fst snd w_lockup w_msgs]; (split; [reflexivity|none]).
  - destruct (String.eqb who (g_self g)); [cbn [fst snd w_lockup w_msgs]; split; [reflexivity|none]|].
    destruct (run g w who attached [] m) as [[w'|] l] eqn:E; cbn [fst snd].
    + destruct (run_flying _ _ _ _ _ _ _ _ to x E) as (-> & A & B & C). split; [reflexivity|].
      change (BCalled who m true :: l) with ([BCalled who m true] ++ l)%list.
      rewrite payouts_app, owner_calls_app, A, B, app_nil_r. unfold payouts at 1. unfold owner_calls. cbn [flat_map filter List.length].
      destruct (String.eqb who _); cbn [app] in *; unfold orders in *; cbn [filter List.length] in *; lia.
    + split; [reflexivity|]. none.
  - destruct (nth_error (w_msgs w) n) as [[r cb|cb r|a]|] eqn:En; cbn [fst snd]; try (split; [reflexivity|none]).
    destruct (execute w r cb o) as [[[pools new] l]|] eqn:E; cbn [fst snd]; [|split; [reflexivity|none]].
    destruct (execute_flying _ _ _ _ _ _ _ to x (owner_account_id (w_lockup w)) E) as [A B].
    cbn [w_lockup w_msgs]. split; [reflexivity|]. rewrite flying_app, (flying_drop to x _ _ _ En). lia.
  - destruct (nth_error (w_msgs w) n) as [[r cb|cb r|a]|] eqn:En; cbn [fst snd]; try (split; [reflexivity|none]).
    + destruct (run g _ (g_self g) 0 [r] cb) as [[w'|] l] eqn:E; cbn [fst snd].
      * destruct (run_flying _ _ _ _ _ _ _ _ to x E) as (-> & A & B & C). cbn [w_lockup w_msgs] in *.
        split; [reflexivity|]. change (BCallback cb r true :: l) with ([BCallback cb r true] ++ l)%list.
        rewrite payouts_app, A. destruct (String.eqb_spec (g_self g) (owner_account_id (w_lockup w))) as [e|e]; [congruence|].
        rewrite (flying_drop to x _ _ _ En). none.
      * cbn [w_lockup w_msgs]. split; [reflexivity|]. rewrite (flying_drop to x _ _ _ En). none.
    + cbn [w_lockup w_msgs]. split; [reflexivity|]. rewrite (flying_drop to x _ _ _ En). none.
Qed.

Lemma log_flying g evs to x : forall w, owner_account_id (w_lockup w) <> g_self g ->
  (payouts to x (log g w evs) + flying to x (w_msgs (final g w evs)) <=
   flying to x (w_msgs w) + orders to x (owner_calls (owner_account_id (w_lockup w)) (log g w evs)))%nat.
Proof.
  induction evs as [|ev evs IH]; intros w N; cbn [log final]; [none|].
  destruct (step_flying g w ev to x N) as [A B]. cbv zeta in A, B.
  specialize (IH (step g w ev)). rewrite A in IH. specialize (IH N).
  rewrite payouts_app, owner_calls_app, orders_app. lia.
Qed.

Lemma paid_by_orders g w0 evs to x : starts g w0 -> owner_account_id (w_lockup w0) <> g_self g ->
  (payouts to x (log g w0 evs) <= orders to x (owner_calls (owner_account_id (w_lockup w0)) (log g w0 evs)))%nat.
Proof.
  intros S N. assert (A := log_flying g evs to x w0 N). rewrite (st_msgs _ _ S) in A.
  change (flying to x []) with 0%nat in A. lia.
Qed.

(** * The pair *)
Lemma some_of_refl {B} (l : list B) : some_of l l.
Proof. induction l; constructor; auto. Qed.
Lemma some_of_app {B} (a a' b b' : list B) : some_of a a' -> some_of b b' -> some_of (a ++ b) (a' ++ b').
Proof. induction 1; intros S; cbn; auto; constructor; auto. Qed.
Lemma some_of_nil {B} (l : list B) : some_of [] l.
Proof. induction l; constructor; auto. Qed.
Lemma some_of_in {B} (l l' : list B) x : some_of l l' -> In x l -> In x l'.
Proof. induction 1; cbn; intuition. Qed.

Section Pair.
Context {A H P : Type}.
Variable happens : A -> H -> A * list P.
Variable for_lockup : P -> option (list act).
Variable read : string -> string -> option (option call).
Variable g : genesis.
Variable owner : account_id.
Notation serve := (serve read g owner).
Notation receive := (receive for_lockup read g owner).
Notation receive_all := (receive_all for_lockup read g owner).
Notation jstep_obs := (jstep_obs happens for_lockup read g owner).
Notation jstep := (jstep happens for_lockup read g owner).
Notation jfinal := (jfinal happens for_lockup read g owner).
Notation jlog := (jlog happens for_lockup read g owner).
Notation asks := (asks for_lockup read).

Fixpoint arun (a : A) (hs : list H) : A := match hs with [] => a | h :: r => arun (fst (happens a h)) r end.
Fixpoint adeps (a : A) (hs : list H) : list P :=
  match hs with [] => [] | h :: r => (snd (happens a h) ++ adeps (fst (happens a h)) r)%list end.

Hypothesis apart : owner <> g_self g.

Lemma run_sends w att rs m w' l : run g w owner att rs m = (Some w', l) -> owner_calls owner l = [].
Proof.
  unfold run. destruct (exec _ _ _) as [[s [p|]]|]; [|intros E; injection E as <- <-; reflexivity|discriminate].
  destruct (_ <=? _); [|discriminate]. intros E. injection E as <- <-. reflexivity.
Qed.

Definition wanted (acts : list act) : list call :=
  flat_map (fun a => match a with
                     | ACall name args _ => match read name args with Some (Some m) => [m] | _ => [] end
                     | _ => []
                     end) acts.

Lemma serve_history acts : forall w w' l, serve acts w = Some (w', l) ->
  exists evs, w' = final g w evs /\ l = log g w evs /\ owner_calls owner l = wanted acts.
Proof.
  induction acts as [|[x|name args d|] acts IH]; intros w w' l E; cbn in E; try discriminate.
  - injection E as <- <-. exists []. auto.
  - destruct (IH _ _ _ E) as (evs & -> & -> & C). exists (EIncome x :: evs). auto.
  - cbn [wanted flat_map]. destruct (read name args) as [[m|]|]; [| |discriminate].
    + destruct (run g w owner d [] m) as [[w1|] l1] eqn:R; [|discriminate].
      destruct (serve acts w1) as [[w2 l2]|] eqn:E2; [|discriminate]. injection E as <- <-.
      destruct (IH _ _ _ E2) as (evs & -> & -> & C). exists (ECall owner d m :: evs).
      assert (S : step_obs g w (ECall owner d m) = (w1, BCalled owner m true :: l1)).
      { cbn [step_obs]. apply String.eqb_neq in apart. rewrite apart, R. reflexivity. }
      cbn [final log]. unfold step. rewrite S. cbn [fst snd]. split; [reflexivity|]. split; [reflexivity|].
      change (BCalled owner m true :: l1 ++ log g w1 evs)%list with ([BCalled owner m true] ++ (l1 ++ log g w1 evs))%list.
      rewrite !owner_calls_app, (run_sends _ _ _ _ _ _ R), C. cbn. rewrite String.eqb_refl. reflexivity.
    + destruct (IH _ _ _ E) as (evs & -> & -> & C). exists evs. auto.
Qed.

Lemma receive_history w p : exists evs,
  fst (receive w p) = final g w evs /\ snd (receive w p) = log g w evs /\
  (owner_calls owner (snd (receive w p)) = asks p \/ owner_calls owner (snd (receive w p)) = []).
Proof.
  unfold OwnedLockup.receive, OwnedLockup.asks. destruct (for_lockup p) as [acts|]; [|exists []; auto].
  destruct (serve acts w) as [[w' l]|] eqn:E; [|exists []; auto].
  destruct (serve_history _ _ _ _ E) as (evs & -> & -> & C). exists evs. auto.
Qed.

Lemma receive_all_history ps : forall w, exists evs done,
  fst (receive_all w ps) = final g w evs /\ snd (receive_all w ps) = log g w evs /\
  some_of done ps /\ owner_calls owner (snd (receive_all w ps)) = flat_map asks done.
Proof.
  induction ps as [|p ps IH]; intros w; cbn [OwnedLockup.receive_all fst snd].
  - exists [], []. split; [reflexivity|]. split; [reflexivity|]. split; [constructor|reflexivity].
  - destruct (receive_history w p) as (evs1 & A1 & B1 & C1).
    destruct (IH (fst (receive w p))) as (evs2 & done & A2 & B2 & S & C2).
    exists (evs1 ++ evs2)%list. rewrite final_app, log_app, <- A1, <- B1, A2, B2, owner_calls_app, <- B2, C2.
    destruct C1 as [C1|C1]; rewrite C1.
    + exists (p :: done). split; [reflexivity|]. split; [reflexivity|]. split; [constructor; exact S|reflexivity].
    + exists done. split; [reflexivity|]. split; [reflexivity|]. split; [constructor; exact S|reflexivity].
Qed.

Lemma pair_history js : forall j, exists evs done,
  j_lockup (jfinal j js) = final g (j_lockup j) evs /\ jlog j js = log g (j_lockup j) evs /\
  j_account (jfinal j js) = arun (j_account j) (account_part js) /\
  some_of done (adeps (j_account j) (account_part js)) /\ owner_calls owner (jlog j js) = flat_map asks done.
Proof.
  induction js as [|[h|ev] js IH]; intros j.
  - exists [], []. cbn. repeat split; constructor.
  - destruct (receive_all_history (snd (happens (j_account j) h)) (j_lockup j)) as (evs1 & done1 & A1 & B1 & S1 & C1).
    destruct (IH (jstep j (JAccount h))) as (evs2 & done2 & A2 & B2 & D2 & S2 & C2).
    exists (evs1 ++ evs2)%list, (done1 ++ done2)%list. cbn [OwnedLockup.jfinal OwnedLockup.jlog account_part flat_map app].
    rewrite final_app, log_app, owner_calls_app, flat_map_app.
    unfold jstep, OwnedLockup.jstep in *. cbn [OwnedLockup.jstep_obs fst snd j_lockup j_account] in *.
    rewrite A2, B2, D2. rewrite B2 in C2. rewrite C1, C2, A1, B1. cbn [arun adeps].
    split; [reflexivity|]. split; [reflexivity|]. split; [reflexivity|]. split; [|reflexivity].
    apply some_of_app; assumption.
  - destruct (IH (jstep j (JLockup ev))) as (evs2 & done2 & A2 & B2 & D2 & S2 & C2).
    cbn [OwnedLockup.jfinal OwnedLockup.jlog account_part flat_map app].
    unfold jstep, OwnedLockup.jstep in *. cbn [OwnedLockup.jstep_obs] in *.
    destruct (by_owner owner ev) eqn:Bo; cbn [fst snd j_lockup j_account] in *.
    + exists evs2, done2. auto.
    + exists (ev :: evs2), done2. cbn [final log]. rewrite A2, B2, D2, owner_calls_app.
      split; [reflexivity|]. split; [reflexivity|]. split; [reflexivity|]. split; [exact S2|].
      rewrite <- C2, B2. replace (owner_calls owner (snd (step_obs g (j_lockup j) ev))) with (@nil call); [reflexivity|].
      symmetry. destruct ev as [t|x|q s u|who att m|n o|n]; cbn [step_obs]; try (destruct (_ && _); reflexivity); try reflexivity.
      * cbn in Bo. destruct (String.eqb who (g_self g)); [reflexivity|].
        destruct (run g (j_lockup j) who att [] m) as [[w'|] l] eqn:R; cbn [snd]; [|unfold owner_calls; reflexivity].
        change (BCalled who m true :: l) with ([BCalled who m true] ++ l)%list. rewrite owner_calls_app.
        replace (owner_calls owner l) with (@nil call).
        { unfold owner_calls. cbn [flat_map app]. rewrite Bo. reflexivity. }
        symmetry. revert R. unfold run. destruct (exec _ _ _) as [[s [p|]]|]; [|intros E; injection E as <- <-; reflexivity|discriminate].
        destruct (_ <=? _); [|discriminate]. intros E. injection E as <- <-. reflexivity.
      * destruct (nth_error _ _) as [[r cb|cb r|a]|]; try reflexivity.
        destruct (execute _ r cb o) as [[[pools new] l]|] eqn:E; [|reflexivity]. cbn [snd].
        now destruct (execute_flying _ _ _ _ _ _ _ ""%string 0 owner E).
      * destruct (nth_error _ _) as [[r cb|cb r|a]|]; try reflexivity.
        destruct (run g _ (g_self g) 0 [r] cb) as [[w'|] l] eqn:R; cbn [snd]; [|reflexivity].
        change (BCallback cb r true :: l) with ([BCallback cb r true] ++ l)%list. rewrite owner_calls_app. cbn [owner_calls flat_map app].
        revert R. unfold run. destruct (exec _ _ _) as [[s [p|]]|]; [|intros E; injection E as <- <-; reflexivity|discriminate].
        destruct (_ <=? _); [|discriminate]. intros E. injection E as <- <-. reflexivity.
Qed.

Lemma only_departures a0 w0 js :
  owner_account_id (w_lockup w0) = owner -> starts g w0 ->
  let j0 := mkPair a0 w0 in
  exists done,
    some_of done (adeps a0 (account_part js)) /\
    owner_calls owner (jlog j0 js) = flat_map asks done /\
    forall to x, (payouts to x (jlog j0 js) <= orders to x (flat_map asks done))%nat.
Proof.
  intros O S j0. destruct (pair_history js j0) as (evs & done & _ & B & _ & D & C). exists done.
  split; [exact D|]. split; [exact C|]. intros to x. rewrite <- C, B. cbn [j_lockup j0] in *. rewrite <- O. apply paid_by_orders; [exact S|congruence].
Qed.

(** Things that happen at the account alone. *)
Lemma accounts_only hs : forall j, account_part (map (@JAccount H) hs) = hs /\
  jlog j (map JAccount hs) = snd (receive_all (j_lockup j) (adeps (j_account j) hs)) /\
  j_lockup (jfinal j (map JAccount hs)) = fst (receive_all (j_lockup j) (adeps (j_account j) hs)).
Proof.
  assert (RA : forall a b w, receive_all w (a ++ b) =
            (fst (receive_all (fst (receive_all w a)) b), snd (receive_all w a) ++ snd (receive_all (fst (receive_all w a)) b))%list).
  { induction a as [|p a IH]; intros b w; cbn [app OwnedLockup.receive_all fst snd].
    - now destruct (receive_all w b).
    - rewrite IH. cbn [fst snd]. now rewrite app_assoc. }
  induction hs as [|h hs IH]; intros j; cbn [map]; [auto|].
  destruct (IH (jstep j (JAccount h))) as (E & B & C). cbn [account_part flat_map app].
  unfold account_part in E. rewrite E. split; [reflexivity|].
  cbn [OwnedLockup.jlog OwnedLockup.jfinal adeps]. rewrite B, C, RA. auto.
Qed.
End Pair.

(** * The first multisig *)
Module A1 := MultisigAccount.
Lemma arun1 self decode hs : forall w, arun (A1.happen_obs self decode) w hs = A1.run self decode w hs.
Proof. induction hs; intros w; cbn; auto. Qed.
Lemma adeps1 self decode hs : forall w, adeps (A1.happen_obs self decode) w hs = A1.departures self decode w hs.
Proof. induction hs; intros w; cbn; [reflexivity|]. unfold MultisigAccount.happen, Multisig2Account.happen. now rewrite IHhs. Qed.

Lemma owned1 self decode read k s0 ks g w0 js :
  MultisigModel.new false k = Ok s0 ->
  NoDup (mkeys ks) -> (forall pk a, mget pk ks = Some a -> A1.limited self a) ->
  starts g w0 -> owner_account_id (w_lockup w0) = self -> self <> g_self g ->
  let j0 := mkPair (A1.start s0 ks) w0 in
  let calls := A1.w_calls (j_account (jfinal (A1.happen_obs self decode) (for_lockup1 (g_self g)) read g self j0 js)) in
  let seen := jlog (A1.happen_obs self decode) (for_lockup1 (g_self g)) read g self j0 js in
  (forall p, In p (A1.executions self s0 calls) -> MultisigModel.p_receiver p = self ->
             A1.keeps_guard self (MultisigModel.p_actions p)) ->
  exists done,
    owner_calls self seen = flat_map (asks (for_lockup1 (g_self g)) read) done /\
    some_of done (A1.departures self decode (A1.start s0 ks) (account_part js)) /\
    (forall p, In p done -> by_quorum1 self s0 ks calls p) /\
    forall to x, (payouts to x seen <= orders to x (flat_map (asks (for_lockup1 (g_self g)) read) done))%nat.
Proof.
  intros Hn Hd Hl S O N j0 calls seen G.
  destruct (pair_history (A1.happen_obs self decode) (for_lockup1 (g_self g)) read g self N js j0) as (_ & _ & _ & _ & R & _).
  rewrite arun1 in R. cbn [j_account j0] in R.
  destruct (only_departures (A1.happen_obs self decode) (for_lockup1 (g_self g)) read g self N (A1.start s0 ks) w0 js O S)
    as (done & D & C & Q).
  exists done. rewrite adeps1 in D. split; [exact C|]. split; [exact D|]. split; [|exact Q].
  intros p I. apply (some_of_in _ _ _ D) in I. unfold by_quorum1, calls in *. rewrite R in *.
  now apply (MultisigAccountProps.C92_acts_only_by_quorum self decode k s0 ks (account_part js)).
Qed.

Lemma can_use1 self decode read t k s0 ks g w0 js pk0 cs name args gas m lw l :
  MultisigModel.new false k = Ok s0 -> self <> g_self g ->
  let happens := A1.happen_obs self decode in
  let j := jfinal happens (for_lockup1 (g_self g)) read g self (mkPair (A1.start s0 ks) w0) js in
  let a := j_account j in
  let s := A1.w_contract a in
  let r := MultisigModel.mkRequest (g_self g) [MultisigModel.FunctionCall name args 0 gas] in
  read name args = Some (Some m) -> step_obs g (j_lockup j) (ECall self 0 m) = (lw, BCalled self m true :: l) ->
  (forall pk, In pk (pk0 :: cs) -> A1.can_act self a pk) ->
  NoDup cs ->
  N.of_nat (List.length cs) = N.max 1 (MultisigModel.get_num_confirmations s) ->
  MultisigModel.get_num_confirmations s < U32_BOUND ->
  MultisigModel.get_num_requests_pk s pk0 + 1 <= MultisigModel.active_requests_limit s ->
  MultisigModel.get_num_requests_pk s pk0 + 1 < U32_BOUND -> MultisigModel.get_request_nonce s + 1 < U32_BOUND ->
  (exists args, decode "add_request"%string args = Some (MultisigModel.CAddRequest r)) ->
  (exists args, decode "confirm"%string args = Some (MultisigModel.CConfirm (MultisigModel.get_request_nonce s))) ->
  exists hs, Forall (A1.by_keys (pk0 :: cs) t) hs /\
    jlog happens (for_lockup1 (g_self g)) read g self j (map JAccount hs) = BCalled self m true :: l /\
    j_lockup (jfinal happens (for_lockup1 (g_self g)) read g self j (map JAccount hs)) = lw.
Proof.
  intros Hn N happens j a s r Hr Hs Ha Hd Hc Hk Hq Hq2 Ho Da Dc.
  destruct (pair_history happens (for_lockup1 (g_self g)) read g self N js (mkPair (A1.start s0 ks) w0)) as (_ & _ & _ & _ & R & _).
  unfold happens in R at 2. rewrite arun1 in R. cbn [j_account] in R. fold j in R. fold a in R.
  destruct (MultisigAccountProps.C93_keys_can_act self decode t k s0 ks (account_part js) r pk0 cs) as (hs & F & D);
    rewrite <- ?R; auto.
  { split; discriminate. }
  exists hs. split; [exact F|].
  destruct (accounts_only happens (for_lockup1 (g_self g)) read g self hs j) as (_ & L & W). rewrite L, W.
  fold a. unfold happens. rewrite adeps1. rewrite <- R in D. rewrite D.
  assert (E : receive (for_lockup1 (g_self g)) read g self (j_lockup j) (MultisigSpec.asked r) = (lw, BCalled self m true :: l)).
  { unfold receive, for_lockup1, MultisigSpec.asked, r. cbn. rewrite String.eqb_refl. cbn. rewrite Hr.
    cbn [step_obs] in Hs. apply String.eqb_neq in N. rewrite N in Hs.
    destruct (run g (j_lockup j) self 0 [] m) as [[w'|] l']; [|discriminate]. injection Hs as -> ->. now rewrite app_nil_r. }
  cbn [receive_all fst snd]. rewrite E. cbn. now rewrite app_nil_r.
Qed.

(** * The second multisig *)
Module A2 := Multisig2Account.
Lemma arun2 self decode hs : forall w, arun (A2.happen_obs self decode) w hs = A2.run self decode w hs.
Proof. induction hs; intros w; cbn; auto. Qed.
Lemma adeps2 self decode hs : forall w, adeps (A2.happen_obs self decode) w hs = A2.departures self decode w hs.
Proof. induction hs; intros w; cbn; [reflexivity|]. unfold MultisigAccount.happen, Multisig2Account.happen. now rewrite IHhs. Qed.

Lemma owned2 self decode read ms k s0 p0 ks key g w0 js :
  Multisig2Model.new self false ms k = Ok (s0, p0) ->
  NoDup (mkeys ks) -> (forall pk a, mget pk ks = Some a -> A2.limited self a) ->
  starts g w0 -> owner_account_id (w_lockup w0) = self -> self <> g_self g ->
  let j0 := mkPair (A2.start s0 p0 ks key) w0 in
  let calls := A2.w_calls (j_account (jfinal (A2.happen_obs self decode) (for_lockup2 (g_self g)) read g self j0 js)) in
  let seen := jlog (A2.happen_obs self decode) (for_lockup2 (g_self g)) read g self j0 js in
  (forall p, In p (A2.executions self s0 calls) -> Multisig2Model.p_receiver p = self ->
             A2.keeps_guard self (Multisig2Model.p_actions p)) ->
  exists done,
    owner_calls self seen = flat_map (asks (for_lockup2 (g_self g)) read) done /\
    some_of done (A2.departures self decode (A2.start s0 p0 ks key) (account_part js)) /\
    (forall p, In p done -> by_quorum2 self s0 calls p) /\
    forall to x, (payouts to x seen <= orders to x (flat_map (asks (for_lockup2 (g_self g)) read) done))%nat.
Proof.
  intros Hn Hd Hl S O N j0 calls seen G.
  destruct (pair_history (A2.happen_obs self decode) (for_lockup2 (g_self g)) read g self N js j0) as (_ & _ & _ & _ & R & _).
  rewrite arun2 in R. cbn [j_account j0] in R.
  destruct (only_departures (A2.happen_obs self decode) (for_lockup2 (g_self g)) read g self N (A2.start s0 p0 ks key) w0 js O S)
    as (done & D & C & Q).
  exists done. rewrite adeps2 in D. split; [exact C|]. split; [exact D|]. split; [|exact Q].
  intros p I. apply (some_of_in _ _ _ D) in I. unfold by_quorum2, calls in *. rewrite R in *.
  now apply (Multisig2AccountProps.C90_acts_only_by_quorum self decode ms k s0 p0 ks key (account_part js)).
Qed.

Lemma can_use2 self decode read t ms k s0 p0 ks key g w0 js m0 cs name args gas m lw l :
  Multisig2Model.new self false ms k = Ok (s0, p0) -> self <> g_self g ->
  let happens := A2.happen_obs self decode in
  let j := jfinal happens (for_lockup2 (g_self g)) read g self (mkPair (A2.start s0 p0 ks key) w0) js in
  let a := j_account j in
  let s := A2.w_contract a in
  let r := Multisig2Model.mkRequest (g_self g) [Multisig2Model.FunctionCall name args 0 gas] in
  read name args = Some (Some m) -> step_obs g (j_lockup j) (ECall self 0 m) = (lw, BCalled self m true :: l) ->
  (forall m, In m (m0 :: cs) -> In m (Multisig2Model.get_members s) /\ A2.can_act self a m) ->
  NoDup cs ->
  N.of_nat (List.length cs) = N.max 1 (Multisig2Model.get_num_confirmations s) ->
  Multisig2Model.get_num_confirmations s < U32_BOUND ->
  Multisig2Model.get_num_requests_per_member s m0 + 1 <= Multisig2Model.active_requests_limit s ->
  Multisig2Model.get_num_requests_per_member s m0 + 1 < U32_BOUND -> Multisig2Model.get_request_nonce s + 1 < U32_BOUND ->
  (exists args, decode "add_request"%string args = Some (Multisig2Model.CAddRequest r)) ->
  (exists args, decode "confirm"%string args = Some (Multisig2Model.CConfirm (Multisig2Model.get_request_nonce s))) ->
  exists hs, Forall (A2.by_members (m0 :: cs) t) hs /\
    jlog happens (for_lockup2 (g_self g)) read g self j (map JAccount hs) = BCalled self m true :: l /\
    j_lockup (jfinal happens (for_lockup2 (g_self g)) read g self j (map JAccount hs)) = lw.
Proof.
  intros Hn N happens j a s r Hr Hs Ha Hd Hc Hk Hq Hq2 Ho Da Dc.
  destruct (pair_history happens (for_lockup2 (g_self g)) read g self N js (mkPair (A2.start s0 p0 ks key) w0)) as (_ & _ & _ & _ & R & _).
  unfold happens in R at 2. rewrite arun2 in R. cbn [j_account] in R. fold j in R. fold a in R.
  destruct (Multisig2AccountProps.C91_members_can_act self decode t ms k s0 p0 ks key (account_part js) r m0 cs) as (hs & F & D);
    rewrite <- ?R; auto.
  { split; [discriminate|]. split; [discriminate|]. intros [|b [|c l1]] mm l2 E; discriminate E. }
  exists hs. split; [exact F|].
  destruct (accounts_only happens (for_lockup2 (g_self g)) read g self hs j) as (_ & L & W). rewrite L, W.
  fold a. unfold happens. rewrite adeps2. rewrite <- R in D. rewrite D.
  assert (E : receive (for_lockup2 (g_self g)) read g self (j_lockup j) (Multisig2Spec.asked self r) = (lw, BCalled self m true :: l)).
  { unfold receive, for_lockup2, Multisig2Spec.asked, r. cbn. rewrite String.eqb_refl. cbn. rewrite Hr.
    cbn [step_obs] in Hs. apply String.eqb_neq in N. rewrite N in Hs.
    destruct (run g (j_lockup j) self 0 [] m) as [[w'|] l']; [|discriminate]. injection Hs as -> ->. now rewrite app_nil_r. }
  cbn [receive_all fst snd]. rewrite E. cbn. now rewrite app_nil_r.
Qed.

(** * Payments *)
Lemma paid_counted to x l : In (BPaid to x false) l -> (0 < payouts to x l)%nat.
Proof.
  intros I. unfold payouts. assert (J : In (BPaid to x false) (filter (fun o => match o with BPaid t a false => String.eqb t to && (a =? x) | _ => false end) l)).
  { apply filter_In. split; [exact I|]. now rewrite String.eqb_refl, N.eqb_refl. }
  destruct (filter _ l); [destruct J|cbn; lia].
Qed.
Lemma order_found to x l : (0 < orders to x l)%nat -> In (Transfer x to) l.
Proof.
  unfold orders. intros L. destruct (filter _ l) as [|m r] eqn:E; [cbn in L; lia|].
  assert (I : In m (m :: r)) by now left. rewrite <- E in I. apply filter_In in I. destruct I as [I B].
  destruct m; try discriminate. apply andb_true_iff in B. destruct B as [B1 B2].
  apply String.eqb_eq in B1. apply N.eqb_eq in B2. now subst.
Qed.

Lemma paid_by_quorum1 self decode read k s0 ks g w0 js to x :
  MultisigModel.new false k = Ok s0 ->
  NoDup (mkeys ks) -> (forall pk a, mget pk ks = Some a -> A1.limited self a) ->
  starts g w0 -> owner_account_id (w_lockup w0) = self -> self <> g_self g ->
  let happens := A1.happen_obs self decode in
  let j0 := mkPair (A1.start s0 ks) w0 in
  let calls := A1.w_calls (j_account (jfinal happens (for_lockup1 (g_self g)) read g self j0 js)) in
  (forall p, In p (A1.executions self s0 calls) -> MultisigModel.p_receiver p = self ->
             A1.keeps_guard self (MultisigModel.p_actions p)) ->
  In (BPaid to x false) (jlog happens (for_lockup1 (g_self g)) read g self j0 js) ->
  exists p, by_quorum1 self s0 ks calls p /\ In (Transfer x to) (asks (for_lockup1 (g_self g)) read p).
Proof.
  intros Hn Hd Hl S O N happens j0 calls G I.
  destruct (owned1 self decode read k s0 ks g w0 js Hn Hd Hl S O N G) as (done & _ & _ & Q & B).
  apply paid_counted in I. specialize (B to x). fold happens j0 in B.
  assert (F : In (Transfer x to) (flat_map (asks (for_lockup1 (g_self g)) read) done)) by (apply order_found; lia).
  apply in_flat_map in F. destruct F as (p & Ip & F). exists p. split; [exact (Q p Ip)|exact F].
Qed.
Lemma paid_by_quorum2 self decode read ms k s0 p0 ks key g w0 js to x :
  Multisig2Model.new self false ms k = Ok (s0, p0) ->
  NoDup (mkeys ks) -> (forall pk a, mget pk ks = Some a -> A2.limited self a) ->
  starts g w0 -> owner_account_id (w_lockup w0) = self -> self <> g_self g ->
  let happens := A2.happen_obs self decode in
  let j0 := mkPair (A2.start s0 p0 ks key) w0 in
  let calls := A2.w_calls (j_account (jfinal happens (for_lockup2 (g_self g)) read g self j0 js)) in
  (forall p, In p (A2.executions self s0 calls) -> Multisig2Model.p_receiver p = self ->
             A2.keeps_guard self (Multisig2Model.p_actions p)) ->
  In (BPaid to x false) (jlog happens (for_lockup2 (g_self g)) read g self j0 js) ->
  exists p, by_quorum2 self s0 calls p /\ In (Transfer x to) (asks (for_lockup2 (g_self g)) read p).
Proof.
  intros Hn Hd Hl S O N happens j0 calls G I.
  destruct (owned2 self decode read ms k s0 p0 ks key g w0 js Hn Hd Hl S O N G) as (done & _ & _ & Q & B).
  apply paid_counted in I. specialize (B to x). fold happens j0 in B.
  assert (F : In (Transfer x to) (flat_map (asks (for_lockup2 (g_self g)) read) done)) by (apply order_found; lia).
  apply in_flat_map in F. destruct F as (p & Ip & F). exists p. split; [exact (Q p Ip)|exact F].
Qed.

Lemma lockup_history A H P (happens : A -> H -> A * list P) for_lockup read g owner : owner <> g_self g ->
  forall js j, exists evs,
    j_lockup (jfinal happens for_lockup read g owner j js) = final g (j_lockup j) evs /\
    jlog happens for_lockup read g owner j js = log g (j_lockup j) evs.
Proof.
  intros N js j. destruct (pair_history happens for_lockup read g owner N js j) as (evs & _ & E & L & _). eauto.
Qed.
