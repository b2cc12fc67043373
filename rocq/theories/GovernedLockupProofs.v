(** Proofs about a lockup governed by a multisig whose messages take their time (C100, C106). *)
From Coq Require Import NArith List Bool String Lia Permutation.
From Verif Require Import Prelude PreludeFacts LockupModel LockupWorld LockupSpec LockupEffects LockupInv LockupFacts OwnedLockup
  OwnedLockupProofs FoundationProofs Governed GovernedProofs GovernedLockup.
From Verif Require MultisigModel MultisigSpec MultisigAccount Multisig2Model Multisig2Spec Multisig2Account.
Import ListNotations.
Open Scope N_scope.

Lemma lockup_pays_said gov n e : In e (lockup_pays n) -> lockup_said gov e = None.
Proof. intros [<-|[]]. reflexivity. Qed.
Lemma lockup_calls_said gov x d m : lockup_said gov (lockup_calls gov x d m) = Some m.
Proof. cbn. now rewrite String.eqb_refl. Qed.
Lemma lockup_run g evs : forall w, Governed.run (step g) w evs = final g w evs.
Proof. induction evs as [|e evs IH]; intros w; [reflexivity|]. exact (IH (step g w e)). Qed.

Lemma run_unseen g w who att rs m w' l gov : LockupWorld.run g w who att rs m = (w', l) -> owner_calls gov l = [].
Proof.
  unfold LockupWorld.run. destruct (exec _ _ _) as [[s [p|]]|]; [|intros E; injection E as <- <-; reflexivity..].
  destruct (_ <=? _); intros E; injection E as <- <-; reflexivity.
Qed.
Lemma lockup_made g gov evs : gov <> g_self g -> forall w,
  owner_calls gov (log g w evs) = made (step g) (lockup_accepted g) (lockup_said gov) w evs.
Proof.
  intros N. induction evs as [|e evs IH]; intros w; cbn [log made]; [reflexivity|].
  rewrite owner_calls_app, IH. f_equal. unfold lockup_accepted, lockup_said.
  destruct e as [t|x|q st u|who att m|n o|n]; cbn [step_obs].
  - now destruct (_ && _).
  - reflexivity.
  - now destruct (_ && _).
  - destruct (String.eqb_spec who (g_self g)) as [->|Q].
    + cbn [snd owner_calls flat_map]. destruct (String.eqb_spec (g_self g) gov); [congruence|reflexivity].
    + destruct (LockupWorld.run g w who att [] m) as [[w'|] l] eqn:R; cbn [snd].
      * change (BCalled who m true :: l) with ([BCalled who m true] ++ l)%list. rewrite owner_calls_app, (run_unseen _ _ _ _ _ _ _ _ _ R), app_nil_r.
        cbn [owner_calls flat_map app]. now destruct (String.eqb who gov).
      * cbn. now destruct (String.eqb who gov).
  - destruct (nth_error (w_msgs w) n) as [[r cb|cb r|a]|]; try reflexivity.
    destruct (execute w r cb o) as [[[pools new] l]|] eqn:E; [|reflexivity]. cbn [snd].
    exact (proj2 (execute_flying _ _ _ _ _ _ _ gov 0 gov E)).
  - destruct (nth_error (w_msgs w) n) as [[r cb|cb r|a]|]; try reflexivity.
    destruct (LockupWorld.run g _ (g_self g) 0 [r] cb) as [[w'|] l] eqn:R; [|reflexivity]. cbn [snd].
    change (BCallback cb r true :: l) with ([BCallback cb r true] ++ l)%list. now rewrite owner_calls_app, (run_unseen _ _ _ _ _ _ _ _ _ R).
Qed.

(** What a history of the lockup shows of its owner and of its foundation. *)
Lemma owner_shown {P} g w0 evs gov (done : list P) (wanted : P -> list call) :
  starts g w0 -> owner_account_id (w_lockup w0) = gov -> gov <> g_self g ->
  owner_calls gov (log g w0 evs) = flat_map wanted done ->
  forall to x, (payouts to x (log g w0 evs) <= orders to x (flat_map wanted done))%nat.
Proof. intros S O N E to x. rewrite <- E, <- O. apply paid_by_orders; [exact S|congruence]. Qed.
Lemma foundation_shown g w0 evs gov :
  starts g w0 -> foundation_account_id (w_lockup w0) = Some gov -> gov <> g_self g ->
  let asked m := In m (owner_calls gov (log g w0 evs)) in
  (forall who m, In (BCalled who m true) (log g w0 evs) -> foundation_method m = true -> who = gov /\ asked m) /\
  (get_termination_status (w_lockup (final g w0 evs)) <> None -> exists o, asked (TerminateVesting o)) /\
  (forall to x, In (BPaid to x true) (log g w0 evs) -> asked (TerminationWithdraw to)).
Proof.
  intros S F N asked. pose proof (foundation_kept g gov N w0 evs S F) as [K1 K2 K3 K4 K5].
  assert (Q : forall m, asked_for gov m (log g w0 evs) -> asked m).
  { intros m I. unfold asked, owner_calls. apply in_flat_map. exists (BCalled gov m true). split; [exact I|].
    rewrite String.eqb_refl. now left. }
  split; [|split].
  - intros who m I Fm. pose proof (K5 who m I Fm). subst who. split; [reflexivity|]. now apply Q.
  - intros T. destruct K2 as (o & I).
    { unfold terminating. unfold get_termination_status in T. now destruct (vesting_information _). }
    exists o. now apply Q.
  - intros to x I. apply Q. eapply K4. exact I.
Qed.

Lemma owned_late1 self decode read k s0 ks g w0 js :
  MultisigModel.new false k = Ok s0 ->
  NoDup (mkeys ks) -> (forall pk a, mget pk ks = Some a -> A1.limited self a) ->
  starts g w0 -> owner_account_id (w_lockup w0) = self -> self <> g_self g ->
  let happens := A1.happen_obs self decode in
  let j0 := mkState (A1.start s0 ks) [] w0 in
  let fin := gfinal happens (for_lockup1 (g_self g)) read (step g) (lockup_accepted g) lockup_pays (lockup_calls self) (lockup_said self) in
  let evs := gevents happens (for_lockup1 (g_self g)) read (step g) (lockup_accepted g) lockup_pays (lockup_calls self) (lockup_said self) in
  let seen := log g w0 (evs j0 js) in
  let calls := A1.w_calls (g_account (fin j0 js)) in
  let wanted := asking (for_lockup1 (g_self g)) read in
  (forall p, In p (A1.executions self s0 calls) -> MultisigModel.p_receiver p = self ->
             A1.keeps_guard self (MultisigModel.p_actions p)) ->
  g_contract (fin j0 js) = final g w0 (evs j0 js) /\
  exists done rest,
    owner_calls self seen = flat_map wanted done /\
    Permutation (done ++ rest)%list (A1.departures self decode (A1.start s0 ks) (at_account js)) /\
    (forall p, In p done -> by_quorum1 self s0 ks calls p) /\
    (forall to x, (payouts to x seen <= orders to x (flat_map wanted done))%nat) /\
    forall to x, In (BPaid to x false) seen -> exists p, by_quorum1 self s0 ks calls p /\ In (Transfer x to) (wanted p).
Proof.
  intros Hn Hd Hl S O N happens j0 fin evs seen calls wanted G.
  destruct (governed1 (g_self g) read (step g) (lockup_accepted g) lockup_pays (lockup_calls self) (lockup_said self)
              (lockup_pays_said self) (lockup_calls_said self) self decode k s0 ks w0 js Hn Hd Hl G) as (Wd & done & rest & Ma & Pe & Q).
  rewrite lockup_run in Wd. rewrite <- lockup_made in Ma by exact N. split; [exact Wd|]. exists done, rest.
  assert (Po := owner_shown g w0 (evs j0 js) self done wanted S O N Ma).
  split; [exact Ma|]. split; [exact Pe|]. split; [exact Q|]. split; [exact Po|].
  intros to x I. assert (J : In (Transfer x to) (flat_map wanted done)).
  { apply order_found. eapply PeanoNat.Nat.lt_le_trans; [|apply Po]. now apply paid_counted. }
  apply in_flat_map in J. destruct J as (p & J1 & J2). exists p. auto.
Qed.
Lemma owned_late2 self decode read ms k s0 p0 ks key g w0 js :
  Multisig2Model.new self false ms k = Ok (s0, p0) ->
  NoDup (mkeys ks) -> (forall pk a, mget pk ks = Some a -> A2.limited self a) ->
  starts g w0 -> owner_account_id (w_lockup w0) = self -> self <> g_self g ->
  let happens := A2.happen_obs self decode in
  let j0 := mkState (A2.start s0 p0 ks key) [] w0 in
  let fin := gfinal happens (for_lockup2 (g_self g)) read (step g) (lockup_accepted g) lockup_pays (lockup_calls self) (lockup_said self) in
  let evs := gevents happens (for_lockup2 (g_self g)) read (step g) (lockup_accepted g) lockup_pays (lockup_calls self) (lockup_said self) in
  let seen := log g w0 (evs j0 js) in
  let calls := A2.w_calls (g_account (fin j0 js)) in
  let wanted := asking (for_lockup2 (g_self g)) read in
  (forall p, In p (A2.executions self s0 calls) -> Multisig2Model.p_receiver p = self ->
             A2.keeps_guard self (Multisig2Model.p_actions p)) ->
  g_contract (fin j0 js) = final g w0 (evs j0 js) /\
  exists done rest,
    owner_calls self seen = flat_map wanted done /\
    Permutation (done ++ rest)%list (A2.departures self decode (A2.start s0 p0 ks key) (at_account js)) /\
    (forall p, In p done -> by_quorum2 self s0 calls p) /\
    (forall to x, (payouts to x seen <= orders to x (flat_map wanted done))%nat) /\
    forall to x, In (BPaid to x false) seen -> exists p, by_quorum2 self s0 calls p /\ In (Transfer x to) (wanted p).
Proof.
  intros Hn Hd Hl S O N happens j0 fin evs seen calls wanted G.
  destruct (governed2 (g_self g) read (step g) (lockup_accepted g) lockup_pays (lockup_calls self) (lockup_said self)
              (lockup_pays_said self) (lockup_calls_said self) self decode ms k s0 p0 ks key w0 js Hn Hd Hl G) as (Wd & done & rest & Ma & Pe & Q).
  rewrite lockup_run in Wd. rewrite <- lockup_made in Ma by exact N. split; [exact Wd|]. exists done, rest.
  assert (Po := owner_shown g w0 (evs j0 js) self done wanted S O N Ma).
  split; [exact Ma|]. split; [exact Pe|]. split; [exact Q|]. split; [exact Po|].
  intros to x I. assert (J : In (Transfer x to) (flat_map wanted done)).
  { apply order_found. eapply PeanoNat.Nat.lt_le_trans; [|apply Po]. now apply paid_counted. }
  apply in_flat_map in J. destruct J as (p & J1 & J2). exists p. auto.
Qed.

Lemma foundation_late1 self decode read k s0 ks g w0 js :
  MultisigModel.new false k = Ok s0 ->
  NoDup (mkeys ks) -> (forall pk a, mget pk ks = Some a -> A1.limited self a) ->
  starts g w0 -> foundation_account_id (w_lockup w0) = Some self -> self <> g_self g ->
  let happens := A1.happen_obs self decode in
  let j0 := mkState (A1.start s0 ks) [] w0 in
  let fin := gfinal happens (for_lockup1 (g_self g)) read (step g) (lockup_accepted g) lockup_pays (lockup_calls self) (lockup_said self) in
  let evs := gevents happens (for_lockup1 (g_self g)) read (step g) (lockup_accepted g) lockup_pays (lockup_calls self) (lockup_said self) in
  let seen := log g w0 (evs j0 js) in
  let calls := A1.w_calls (g_account (fin j0 js)) in
  let quorum_asked m := exists p, by_quorum1 self s0 ks calls p /\ In m (asking (for_lockup1 (g_self g)) read p) in
  (forall p, In p (A1.executions self s0 calls) -> MultisigModel.p_receiver p = self ->
             A1.keeps_guard self (MultisigModel.p_actions p)) ->
  (forall who m, In (BCalled who m true) seen -> foundation_method m = true -> who = self /\ quorum_asked m) /\
  (get_termination_status (w_lockup (g_contract (fin j0 js))) <> None -> exists o, quorum_asked (TerminateVesting o)) /\
  (forall to x, In (BPaid to x true) seen -> quorum_asked (TerminationWithdraw to)).
Proof.
  intros Hn Hd Hl S F N happens j0 fin evs seen calls quorum_asked G.
  destruct (governed1 (g_self g) read (step g) (lockup_accepted g) lockup_pays (lockup_calls self) (lockup_said self)
              (lockup_pays_said self) (lockup_calls_said self) self decode k s0 ks w0 js Hn Hd Hl G) as (Wd & done & rest & Ma & _ & Q).
  rewrite lockup_run in Wd. rewrite <- lockup_made in Ma by exact N. fold happens j0 fin evs in Wd. fold happens j0 evs seen in Ma.
  destruct (foundation_shown g w0 (evs j0 js) self S F N) as (B1 & B2 & B3). fold seen in B1, B2, B3. rewrite Ma in B1, B2, B3. rewrite Wd.
  assert (X : forall m, In m (flat_map (asking (for_lockup1 (g_self g)) read) done) -> quorum_asked m).
  { intros m J. apply in_flat_map in J. destruct J as (p & J1 & J2). exists p. split; [now apply Q|exact J2]. }
  split; [|split].
  - intros who m I Fm. destruct (B1 who m I Fm) as (E & Y). split; [exact E|now apply X].
  - intros T. destruct (B2 T) as (o & Y). exists o. now apply X.
  - intros to x I. now apply X, (B3 to x).
Qed.
Lemma foundation_late2 self decode read ms k s0 p0 ks key g w0 js :
  Multisig2Model.new self false ms k = Ok (s0, p0) ->
  NoDup (mkeys ks) -> (forall pk a, mget pk ks = Some a -> A2.limited self a) ->
  starts g w0 -> foundation_account_id (w_lockup w0) = Some self -> self <> g_self g ->
  let happens := A2.happen_obs self decode in
  let j0 := mkState (A2.start s0 p0 ks key) [] w0 in
  let fin := gfinal happens (for_lockup2 (g_self g)) read (step g) (lockup_accepted g) lockup_pays (lockup_calls self) (lockup_said self) in
  let evs := gevents happens (for_lockup2 (g_self g)) read (step g) (lockup_accepted g) lockup_pays (lockup_calls self) (lockup_said self) in
  let seen := log g w0 (evs j0 js) in
  let calls := A2.w_calls (g_account (fin j0 js)) in
  let quorum_asked m := exists p, by_quorum2 self s0 calls p /\ In m (asking (for_lockup2 (g_self g)) read p) in
  (forall p, In p (A2.executions self s0 calls) -> Multisig2Model.p_receiver p = self ->
             A2.keeps_guard self (Multisig2Model.p_actions p)) ->
  (forall who m, In (BCalled who m true) seen -> foundation_method m = true -> who = self /\ quorum_asked m) /\
  (get_termination_status (w_lockup (g_contract (fin j0 js))) <> None -> exists o, quorum_asked (TerminateVesting o)) /\
  (forall to x, In (BPaid to x true) seen -> quorum_asked (TerminationWithdraw to)).
Proof.
  intros Hn Hd Hl S F N happens j0 fin evs seen calls quorum_asked G.
  destruct (governed2 (g_self g) read (step g) (lockup_accepted g) lockup_pays (lockup_calls self) (lockup_said self)
              (lockup_pays_said self) (lockup_calls_said self) self decode ms k s0 p0 ks key w0 js Hn Hd Hl G) as (Wd & done & rest & Ma & _ & Q).
  rewrite lockup_run in Wd. rewrite <- lockup_made in Ma by exact N. fold happens j0 fin evs in Wd. fold happens j0 evs seen in Ma.
  destruct (foundation_shown g w0 (evs j0 js) self S F N) as (B1 & B2 & B3). fold seen in B1, B2, B3. rewrite Ma in B1, B2, B3. rewrite Wd.
  assert (X : forall m, In m (flat_map (asking (for_lockup2 (g_self g)) read) done) -> quorum_asked m).
  { intros m J. apply in_flat_map in J. destruct J as (p & J1 & J2). exists p. split; [now apply Q|exact J2]. }
  split; [|split].
  - intros who m I Fm. destruct (B1 who m I Fm) as (E & Y). split; [exact E|now apply X].
  - intros T. destruct (B2 T) as (o & Y). exists o. now apply X.
  - intros to x I. now apply X, (B3 to x).
Qed.

(** The quorum has its way, whatever is still on its way. *)
Lemma can_use_late1 self decode read t k s0 ks g w0 js pk0 cs name args gas m :
  MultisigModel.new false k = Ok s0 -> self <> g_self g ->
  let happens := A1.happen_obs self decode in
  let fin := gfinal happens (for_lockup1 (g_self g)) read (step g) (lockup_accepted g) lockup_pays (lockup_calls self) (lockup_said self) in
  let evs := gevents happens (for_lockup1 (g_self g)) read (step g) (lockup_accepted g) lockup_pays (lockup_calls self) (lockup_said self) in
  let j := fin (mkState (A1.start s0 ks) [] w0) js in
  let a := g_account j in
  let s := A1.w_contract a in
  let r := MultisigModel.mkRequest (g_self g) [MultisigModel.FunctionCall name args 0 gas] in
  read name args = Some (Some m) -> lockup_accepted g (g_contract j) (ECall self 0 m) = true ->
  (forall pk, In pk (pk0 :: cs) -> A1.can_act self a pk) ->
  NoDup cs ->
  N.of_nat (List.length cs) = N.max 1 (MultisigModel.get_num_confirmations s) ->
  MultisigModel.get_num_confirmations s < U32_BOUND ->
  MultisigModel.get_num_requests_pk s pk0 + 1 <= MultisigModel.active_requests_limit s ->
  MultisigModel.get_num_requests_pk s pk0 + 1 < U32_BOUND -> MultisigModel.get_request_nonce s + 1 < U32_BOUND ->
  (exists args, decode "add_request"%string args = Some (MultisigModel.CAddRequest r)) ->
  (exists args, decode "confirm"%string args = Some (MultisigModel.CConfirm (MultisigModel.get_request_nonce s))) ->
  exists hs n, Forall (A1.by_keys (pk0 :: cs) t) hs /\
    evs j (map GAccount hs ++ [GDeliver n tt])%list = [ECall self 0 m].
Proof. intros Hn N happens fin evs j a s r Hr Hs. exact (can_govern1 (g_self g) read (step g) (lockup_accepted g) lockup_pays (lockup_calls self) (lockup_said self)
  (lockup_pays_said self) (lockup_calls_said self) self decode t k s0 ks w0 js pk0 cs name args gas m tt Hn N Hr Hs). Qed.
Lemma can_use_late2 self decode read t ms k s0 p0 ks key g w0 js m0 cs name args gas m :
  Multisig2Model.new self false ms k = Ok (s0, p0) -> self <> g_self g ->
  let happens := A2.happen_obs self decode in
  let fin := gfinal happens (for_lockup2 (g_self g)) read (step g) (lockup_accepted g) lockup_pays (lockup_calls self) (lockup_said self) in
  let evs := gevents happens (for_lockup2 (g_self g)) read (step g) (lockup_accepted g) lockup_pays (lockup_calls self) (lockup_said self) in
  let j := fin (mkState (A2.start s0 p0 ks key) [] w0) js in
  let a := g_account j in
  let s := A2.w_contract a in
  let r := Multisig2Model.mkRequest (g_self g) [Multisig2Model.FunctionCall name args 0 gas] in
  read name args = Some (Some m) -> lockup_accepted g (g_contract j) (ECall self 0 m) = true ->
  (forall m, In m (m0 :: cs) -> In m (Multisig2Model.get_members s) /\ A2.can_act self a m) ->
  NoDup cs ->
  N.of_nat (List.length cs) = N.max 1 (Multisig2Model.get_num_confirmations s) ->
  Multisig2Model.get_num_confirmations s < U32_BOUND ->
  Multisig2Model.get_num_requests_per_member s m0 + 1 <= Multisig2Model.active_requests_limit s ->
  Multisig2Model.get_num_requests_per_member s m0 + 1 < U32_BOUND -> Multisig2Model.get_request_nonce s + 1 < U32_BOUND ->
  (exists args, decode "add_request"%string args = Some (Multisig2Model.CAddRequest r)) ->
  (exists args, decode "confirm"%string args = Some (Multisig2Model.CConfirm (Multisig2Model.get_request_nonce s))) ->
  exists hs n, Forall (A2.by_members (m0 :: cs) t) hs /\
    evs j (map GAccount hs ++ [GDeliver n tt])%list = [ECall self 0 m].
Proof. intros Hn N happens fin evs j a s r Hr Hs. exact (can_govern2 (g_self g) read (step g) (lockup_accepted g) lockup_pays (lockup_calls self) (lockup_said self)
  (lockup_pays_said self) (lockup_calls_said self) self decode t ms k s0 p0 ks key w0 js m0 cs name args gas m tt Hn N Hr Hs). Qed.
