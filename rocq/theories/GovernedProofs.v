(** Proofs about a staking pool and a whitelist governed by a multisig (C107, C108). *)
From Coq Require Import NArith List Bool String Lia Permutation.
From Verif Require Import Prelude PreludeFacts OwnedLockup OwnedLockupProofs Governed.
From Verif Require StakingPoolModel StakingPoolSpec StakingPoolProofs StakingPoolHistory StakingPoolFacts WhitelistModel WhitelistSpec WhitelistProofs.
From Verif Require MultisigModel MultisigSpec MultisigAccount MultisigAccountProps Multisig2Model Multisig2Spec Multisig2Account
  Multisig2AccountProps.
Import ListNotations.
Open Scope N_scope.

Section Any.
Context {A H P W C E X : Type}.
Variable happens : A -> H -> A * list P.
Variable for_contract : P -> option (list act).
Variable read : string -> string -> option (option C).
Variable step : W -> E -> W.
Variable accepted : W -> E -> bool.
Variable pays : N -> list E.
Variable calls : X -> N -> C -> E.
Variable said : E -> option C.
Notation serve := (serve read step accepted pays calls).
Notation arrive := (arrive for_contract read step accepted pays calls).
Notation gstep := (gstep happens for_contract read step accepted pays calls said).
Notation gfinal := (gfinal happens for_contract read step accepted pays calls said).
Notation gevents := (gevents happens for_contract read step accepted pays calls said).
Notation asking := (asking for_contract read).
Notation run := (run step).

Hypothesis pays_said : forall n e, In e (pays n) -> said e = None.
Hypothesis calls_said : forall x d m, said (calls x d m) = Some m.

(** The accepted calls of the governing account among these events. *)
Fixpoint made (w : W) (es : list E) : list C :=
  match es with
  | [] => []
  | e :: r => (match said e with Some m => if accepted w e then [m] else [] | None => [] end ++ made (step w e) r)%list
  end.
Lemma made_app a b : forall w, made w (a ++ b) = (made w a ++ made (run w a) b)%list.
Proof. induction a as [|e a IH]; intros w; cbn; [reflexivity|]. rewrite IH. now rewrite app_assoc. Qed.
Lemma made_none es : forall w, (forall e, In e es -> said e = None) -> made w es = [].
Proof. induction es as [|e es IH]; intros w N; cbn; [reflexivity|]. rewrite (N e (or_introl eq_refl)). apply IH. intros; apply N; now right. Qed.
Lemma run_app w a b : run w (a ++ b) = run (run w a) b.
Proof. apply fold_left_app. Qed.

Definition wants (acts : list act) : list C :=
  flat_map (fun a => match a with
                     | ACall name args _ => match read name args with Some (Some m) => [m] | _ => [] end
                     | _ => []
                     end) acts.
Lemma serve_made x acts : forall w es, serve x acts w = Some es -> made w es = wants acts.
Proof.
  induction acts as [|[n|name args d|] acts IH]; intros w es S; cbn in S; try discriminate.
  - injection S as <-. reflexivity.
  - destruct (Governed.serve read step accepted pays calls x acts (run w (pays n))) as [es'|] eqn:S'; [|discriminate].
    injection S as <-. rewrite made_app, (IH _ _ S'), made_none; [reflexivity|apply pays_said].
  - cbn [wants flat_map]. destruct (read name args) as [[m|]|]; [| |discriminate].
    + destruct (accepted w (calls x d m)) eqn:Ac; [|discriminate].
      destruct (Governed.serve read step accepted pays calls x acts (step w (calls x d m))) as [es'|] eqn:S'; [|discriminate].
      injection S as <-. cbn [made]. now rewrite calls_said, Ac, (IH _ _ S').
    + now apply IH.
Qed.

Lemma arrive_made x p w : made w (arrive x p w) = asking p \/ made w (arrive x p w) = [].
Proof.
  unfold Governed.arrive, Governed.asking. destruct (for_contract p) as [acts|]; [|now right].
  destruct (serve x acts w) as [es|] eqn:S; [|now right]. left. exact (serve_made _ _ _ _ S).
Qed.

Lemma without_perm {T} n (l : list T) p : nth_error l n = Some p -> Permutation (p :: without n l) l.
Proof.
  revert n. induction l as [|y l IH]; intros [|n] E0; cbn in *; try discriminate.
  - injection E0 as ->. apply Permutation_refl.
  - eapply perm_trans; [apply perm_swap|]. apply perm_skip. now apply IH.
Qed.

Lemma governed js : forall j, exists done rest,
  g_contract (gfinal j js) = run (g_contract j) (gevents j js) /\
  g_account (gfinal j js) = arun happens (g_account j) (at_account js) /\
  Permutation (done ++ rest) (g_flying j ++ adeps happens (g_account j) (at_account js)) /\
  made (g_contract j) (gevents j js) = flat_map asking done.
Proof.
  induction js as [|ev js IH]; intros j.
  - exists [], (g_flying j). cbn. rewrite app_nil_r. repeat split. apply Permutation_refl.
  - destruct (IH (fst (gstep j ev))) as (done & rest & Wd & Ac & Pe & Ma). cbn [Governed.gfinal Governed.gevents].
    rewrite made_app, run_app. unfold at_account in *. cbn [flat_map].
    destruct ev as [h|n x|e]; cbn [Governed.gstep fst snd app g_account g_flying g_contract] in *.
    + exists done, rest. split; [exact Wd|]. split; [exact Ac|]. split; [|exact Ma].
      eapply perm_trans; [exact Pe|]. cbn [adeps]. rewrite app_assoc. apply Permutation_refl.
    + destruct (nth_error (g_flying j) n) as [p|] eqn:N; cbn [fst snd app g_account g_flying g_contract] in *.
      * apply without_perm in N. destruct (arrive_made x p (g_contract j)) as [D|D]; rewrite D.
        -- exists (p :: done), rest. split; [exact Wd|]. split; [exact Ac|]. split; [|now rewrite Ma].
           eapply perm_trans; [cbn; apply perm_skip, Pe|].
           change (p :: without n (g_flying j) ++ adeps happens (g_account j) (flat_map (fun ev : gevent => match ev with GAccount h => [h] | _ => [] end) js))%list
             with ((p :: without n (g_flying j)) ++ adeps happens (g_account j) (flat_map (fun ev : gevent => match ev with GAccount h => [h] | _ => [] end) js))%list.
           now apply Permutation_app_tail.
        -- exists done, (p :: rest). split; [exact Wd|]. split; [exact Ac|]. split; [|now rewrite Ma].
           eapply perm_trans; [apply Permutation_sym, Permutation_middle|].
           eapply perm_trans; [apply perm_skip, Pe|].
           change (p :: without n (g_flying j) ++ adeps happens (g_account j) (flat_map (fun ev : gevent => match ev with GAccount h => [h] | _ => [] end) js))%list
             with ((p :: without n (g_flying j)) ++ adeps happens (g_account j) (flat_map (fun ev : gevent => match ev with GAccount h => [h] | _ => [] end) js))%list.
           now apply Permutation_app_tail.
      * exists done, rest. auto.
    + destruct (said e) eqn:S; cbn [fst snd app g_account g_flying g_contract] in *; exists done, rest; [auto|].
      cbn [made]. rewrite S. auto.
Qed.

(** Things that happen at the account alone, then the delivery of the last thing it sent. *)
Lemma accounts_alone hs : forall j,
  gevents j (map GAccount hs) = [] /\ g_contract (gfinal j (map GAccount hs)) = g_contract j /\
  g_flying (gfinal j (map GAccount hs)) = (g_flying j ++ adeps happens (g_account j) hs)%list.
Proof.
  induction hs as [|h hs IH]; intros j; cbn [map Governed.gevents Governed.gfinal adeps].
  - now rewrite app_nil_r.
  - destruct (IH (fst (gstep j (GAccount h)))) as (Q1 & Q2 & Q3). rewrite Q1, Q2, Q3.
    cbn [Governed.gstep fst snd app g_flying g_contract g_account]. rewrite app_assoc. auto.
Qed.
Lemma events_app a b : forall j, gevents j (a ++ b) = (gevents j a ++ gevents (gfinal j a) b)%list.
Proof. induction a as [|e a IH]; intros j; cbn; [reflexivity|]. rewrite IH. now rewrite app_assoc. Qed.
Lemma delivered j hs p x name args m d :
  adeps happens (g_account j) hs = [p] -> for_contract p = Some [ACall name args d] -> read name args = Some (Some m) ->
  accepted (g_contract j) (calls x d m) = true ->
  gevents j (map GAccount hs ++ [GDeliver (List.length (g_flying j)) x]) = [calls x d m].
Proof.
  intros D F R Ac. rewrite events_app. destruct (accounts_alone hs j) as (Q1 & Q2 & Q3). rewrite Q1.
  cbn [Governed.gevents app]. rewrite app_nil_r. cbn [Governed.gstep]. rewrite Q3, D, Q2.
  rewrite nth_error_app2 by lia. rewrite PeanoNat.Nat.sub_diag. cbn [nth_error snd].
  unfold Governed.arrive. rewrite F. cbn. now rewrite R, Ac.
Qed.
End Any.

(** * The governing account: both multisigs *)
Module A1 := MultisigAccount.
Module A2 := Multisig2Account.
Section Both.
Context {W C E X : Type}.
Variable target : account_id.
Variable read : string -> string -> option (option C).
Variable step : W -> E -> W.
Variable accepted : W -> E -> bool.
Variable pays : N -> list E.
Variable calls : X -> N -> C -> E.
Variable said : E -> option C.
Hypothesis pays_said : forall n e, In e (pays n) -> said e = None.
Hypothesis calls_said : forall x d m, said (calls x d m) = Some m.

Lemma governed1 self decode k s0 ks w0 js :
  MultisigModel.new false k = Ok s0 ->
  NoDup (mkeys ks) -> (forall pk a, mget pk ks = Some a -> A1.limited self a) ->
  let fin := gfinal (A1.happen_obs self decode) (for_lockup1 target) read step accepted pays calls said in
  let evs := gevents (A1.happen_obs self decode) (for_lockup1 target) read step accepted pays calls said in
  let j0 := mkState (A1.start s0 ks) [] w0 in
  let cs := A1.w_calls (g_account (fin j0 js)) in
  (forall p, In p (A1.executions self s0 cs) -> MultisigModel.p_receiver p = self ->
             A1.keeps_guard self (MultisigModel.p_actions p)) ->
  g_contract (fin j0 js) = Governed.run step w0 (evs j0 js) /\
  exists done rest,
    made step accepted said w0 (evs j0 js) = flat_map (asking (for_lockup1 target) read) done /\
    Permutation (done ++ rest) (A1.departures self decode (A1.start s0 ks) (at_account js)) /\
    (forall p, In p done -> by_quorum1 self s0 ks cs p).
Proof.
  intros Hn Hd Hl fin evs j0 cs G.
  destruct (governed (A1.happen_obs self decode) (for_lockup1 target) read step accepted pays calls said pays_said calls_said js j0)
    as (done & rest & Wd & Ac & Pe & Ma).
  fold (fin j0 js) (evs j0 js) in *. split; [exact Wd|]. exists done, rest. cbn [g_flying g_account g_contract j0 app] in *.
  rewrite arun1 in Ac. rewrite adeps1 in Pe.
  split; [exact Ma|]. split; [exact Pe|]. intros p I.
  assert (J : In p (A1.departures self decode (A1.start s0 ks) (at_account js))).
  { eapply Permutation_in; [exact Pe|]. apply in_or_app. now left. }
  unfold by_quorum1, cs in *. rewrite Ac in *.
  now apply (MultisigAccountProps.C92_acts_only_by_quorum self decode k s0 ks (at_account js)).
Qed.
Lemma governed2 self decode ms k s0 p0 ks key w0 js :
  Multisig2Model.new self false ms k = Ok (s0, p0) ->
  NoDup (mkeys ks) -> (forall pk a, mget pk ks = Some a -> A2.limited self a) ->
  let fin := gfinal (A2.happen_obs self decode) (for_lockup2 target) read step accepted pays calls said in
  let evs := gevents (A2.happen_obs self decode) (for_lockup2 target) read step accepted pays calls said in
  let j0 := mkState (A2.start s0 p0 ks key) [] w0 in
  let cs := A2.w_calls (g_account (fin j0 js)) in
  (forall p, In p (A2.executions self s0 cs) -> Multisig2Model.p_receiver p = self ->
             A2.keeps_guard self (Multisig2Model.p_actions p)) ->
  g_contract (fin j0 js) = Governed.run step w0 (evs j0 js) /\
  exists done rest,
    made step accepted said w0 (evs j0 js) = flat_map (asking (for_lockup2 target) read) done /\
    Permutation (done ++ rest) (A2.departures self decode (A2.start s0 p0 ks key) (at_account js)) /\
    (forall p, In p done -> by_quorum2 self s0 cs p).
Proof.
  intros Hn Hd Hl fin evs j0 cs G.
  destruct (governed (A2.happen_obs self decode) (for_lockup2 target) read step accepted pays calls said pays_said calls_said js j0)
    as (done & rest & Wd & Ac & Pe & Ma).
  fold (fin j0 js) (evs j0 js) in *. split; [exact Wd|]. exists done, rest. cbn [g_flying g_account g_contract j0 app] in *.
  rewrite arun2 in Ac. rewrite adeps2 in Pe.
  split; [exact Ma|]. split; [exact Pe|]. intros p I.
  assert (J : In p (A2.departures self decode (A2.start s0 p0 ks key) (at_account js))).
  { eapply Permutation_in; [exact Pe|]. apply in_or_app. now left. }
  unfold by_quorum2, cs in *. rewrite Ac in *.
  now apply (Multisig2AccountProps.C90_acts_only_by_quorum self decode ms k s0 p0 ks key (at_account js)).
Qed.

(** The quorum has its way. *)
Lemma can_govern1 self decode t k s0 ks w0 js pk0 cs name args gas m x :
  MultisigModel.new false k = Ok s0 -> self <> target ->
  let happens := A1.happen_obs self decode in
  let j := gfinal happens (for_lockup1 target) read step accepted pays calls said (mkState (A1.start s0 ks) [] w0) js in
  let a := g_account j in
  let s := A1.w_contract a in
  let r := MultisigModel.mkRequest target [MultisigModel.FunctionCall name args 0 gas] in
  read name args = Some (Some m) -> accepted (g_contract j) (calls x 0 m) = true ->
  (forall pk, In pk (pk0 :: cs) -> A1.can_act self a pk) ->
  NoDup cs ->
  N.of_nat (List.length cs) = N.max 1 (MultisigModel.get_num_confirmations s) ->
  MultisigModel.get_num_confirmations s < U32_BOUND ->
  MultisigModel.get_num_requests_pk s pk0 + 1 <= MultisigModel.active_requests_limit s ->
  MultisigModel.get_num_requests_pk s pk0 + 1 < U32_BOUND -> MultisigModel.get_request_nonce s + 1 < U32_BOUND ->
  (exists args, decode "add_request"%string args = Some (MultisigModel.CAddRequest r)) ->
  (exists args, decode "confirm"%string args = Some (MultisigModel.CConfirm (MultisigModel.get_request_nonce s))) ->
  exists hs n, Forall (A1.by_keys (pk0 :: cs) t) hs /\
    gevents happens (for_lockup1 target) read step accepted pays calls said j (map GAccount hs ++ [GDeliver n x]) = [calls x 0 m].
Proof.
  intros Hn N happens j a s r Hr Hs Ha Hd Hc Hk Hq Hq2 Ho Da Dc.
  destruct (governed happens (for_lockup1 target) read step accepted pays calls said pays_said calls_said js (mkState (A1.start s0 ks) [] w0))
    as (_ & _ & _ & R & _ & _).
  unfold happens in R at 2. rewrite arun1 in R. cbn [g_account] in R. fold j in R. fold a in R.
  destruct (MultisigAccountProps.C93_keys_can_act self decode t k s0 ks (at_account js) r pk0 cs) as (hs & F & D);
    rewrite <- ?R; auto.
  { split; discriminate. }
  exists hs, (List.length (g_flying j)). split; [exact F|].
  eapply delivered with (p := MultisigSpec.asked r); [|unfold for_lockup1, MultisigSpec.asked, r; cbn; now rewrite String.eqb_refl|exact Hr|exact Hs].
  fold a. unfold happens. rewrite adeps1. rewrite <- R in D. exact D.
Qed.
Lemma can_govern2 self decode t ms k s0 p0 ks key w0 js m0 cs name args gas m x :
  Multisig2Model.new self false ms k = Ok (s0, p0) -> self <> target ->
  let happens := A2.happen_obs self decode in
  let j := gfinal happens (for_lockup2 target) read step accepted pays calls said (mkState (A2.start s0 p0 ks key) [] w0) js in
  let a := g_account j in
  let s := A2.w_contract a in
  let r := Multisig2Model.mkRequest target [Multisig2Model.FunctionCall name args 0 gas] in
  read name args = Some (Some m) -> accepted (g_contract j) (calls x 0 m) = true ->
  (forall m, In m (m0 :: cs) -> In m (Multisig2Model.get_members s) /\ A2.can_act self a m) ->
  NoDup cs ->
  N.of_nat (List.length cs) = N.max 1 (Multisig2Model.get_num_confirmations s) ->
  Multisig2Model.get_num_confirmations s < U32_BOUND ->
  Multisig2Model.get_num_requests_per_member s m0 + 1 <= Multisig2Model.active_requests_limit s ->
  Multisig2Model.get_num_requests_per_member s m0 + 1 < U32_BOUND -> Multisig2Model.get_request_nonce s + 1 < U32_BOUND ->
  (exists args, decode "add_request"%string args = Some (Multisig2Model.CAddRequest r)) ->
  (exists args, decode "confirm"%string args = Some (Multisig2Model.CConfirm (Multisig2Model.get_request_nonce s))) ->
  exists hs n, Forall (A2.by_members (m0 :: cs) t) hs /\
    gevents happens (for_lockup2 target) read step accepted pays calls said j (map GAccount hs ++ [GDeliver n x]) = [calls x 0 m].
Proof.
  intros Hn N happens j a s r Hr Hs Ha Hd Hc Hk Hq Hq2 Ho Da Dc.
  destruct (governed happens (for_lockup2 target) read step accepted pays calls said pays_said calls_said js (mkState (A2.start s0 p0 ks key) [] w0))
    as (_ & _ & _ & R & _ & _).
  unfold happens in R at 2. rewrite arun2 in R. cbn [g_account] in R. fold j in R. fold a in R.
  destruct (Multisig2AccountProps.C91_members_can_act self decode t ms k s0 p0 ks key (at_account js) r m0 cs) as (hs & F & D);
    rewrite <- ?R; auto.
  { split; [discriminate|]. split; [discriminate|]. intros [|b [|c l1]] mm l2 E0; discriminate E0. }
  exists hs, (List.length (g_flying j)). split; [exact F|].
  eapply delivered with (p := Multisig2Spec.asked self r); [|unfold for_lockup2, Multisig2Spec.asked, r; cbn; now rewrite String.eqb_refl|exact Hr|exact Hs].
  fold a. unfold happens. rewrite adeps2. rewrite <- R in D. exact D.
Qed.
End Both.

(** * The staking pool *)
Section Pool.
Import StakingPoolModel StakingPoolSpec StakingPoolProofs StakingPoolHistory.
Variable pool : account_id.

Lemma pool_run evs : forall w, Governed.run (pool_step pool) w evs = final pool w evs.
Proof. induction evs as [|e evs IH]; intros w; [reflexivity|]. exact (IH (pool_step pool w e)). Qed.
Lemma pool_made owner evs : forall w,
  owners_calls owner (history pool w evs) = made (pool_step pool) (pool_accepted pool) (pool_said owner) w evs.
Proof.
  induction evs as [|e evs IH]; intros w; cbn [history made owners_calls flat_map]; [reflexivity|].
  specialize (IH (pool_step pool w e)). unfold pool_accepted, pool_step in *. destruct (step pool w e) as [w' o] eqn:S. cbn [fst snd] in *.
  cbn [owners_calls flat_map en_event en_promises]. f_equal; [|exact IH].
  unfold pool_said. destruct e as [who a l r m|n|n]; try reflexivity. destruct (String.eqb who owner), o; reflexivity.
Qed.

Lemma no_vote_restake b p v x : ~ In (PVote v x) (restake_if b p).
Proof. unfold restake_if, internal_restake. destruct b; [|auto]. destruct (paused p); cbn; [auto|]. intros [E|[]]. discriminate. Qed.
Lemma no_pay_restake b p u : sent_to u (restake_if b p) = 0.
Proof. unfold restake_if, internal_restake. destruct b; [|reflexivity]. now destruct (paused p). Qed.

Lemma step_steered o w e :
  owner_id (w_pool w) = o ->
  let w' := fst (step pool w e) in
  let ops := snd (step pool w e) in
  steered o (fun m => exists a l r ps, e = EvCall o a l r m /\ ops = Some ps) (mkEntry w e ops w').
Proof.
  intros O. cbv zeta. destruct (step pool w e) as [w' ops] eqn:S. cbn [fst snd]. unfold steered. cbn [en_before en_after en_promises].
  destruct e as [who a l r m|n|n]; cycle 1.
  1-2: cbn in S; injection S as <- <-; cbn [w_pool]; do 4 (split; [auto|]); intros ps E; discriminate.
  destruct ops as [ps|].
  2:{ apply step_call_none in S. subst w'. do 4 (split; [auto|]). intros ps E; discriminate. }
  apply step_call_some in S. destruct S as (_ & _ & p' & E & _ & ->). cbn [w_pool].
  apply exec_ok in E. destruct E as (_ & _ & E).
  assert (Q : forall m', who = o -> m = m' -> exists a0 l0 r0 ps0, EvCall who a l r m = EvCall o a0 l0 r0 m' /\ Some ps = Some ps0).
  { intros m' -> ->. do 4 eexists. split; reflexivity. }
  destruct E as [(_ & -> & E)|(_ & p1 & need & HP & E)].
  - do 4 (split; [auto|]). intros ps' Eq. injection Eq as <-.
    destruct m; cbn in E; try contradiction.
    + destruct E as (_ & x & _ & ->). destruct (_ && _); cbn; (split; [|now left]); intros v b; [intros [F|[]]; discriminate|intros []].
    + destruct E as (E & _ & ->). cbn. split; [|now left]. intros v b [F|[]]. injection F as -> ->. apply Q; congruence.
  - destruct (ping_keeps _ _ _ _ HP) as (K1 & K2 & K3 & K4 & _).
    assert (NV : forall b q v x, ~ In (PVote v x) (restake_if b q)) by (intros; apply no_vote_restake).
    assert (NP : forall b q u, sent_to u (restake_if b q) = 0) by (intros; apply no_pay_restake).
    assert (NV' : forall q v x, ~ In (PVote v x) (internal_restake q)) by (intros q; apply (NV true)).
    assert (NP' : forall q u, sent_to u (internal_restake q) = 0) by (intros q; apply (NP true)).
    destruct m; cbn in E; try contradiction;
      repeat match goal with
             | E : exists _, _ |- _ => destruct E
             | E : _ /\ _ |- _ => destruct E
             | E : deposit_effect _ _ _ |- _ => destruct E
             | E : stake_effect _ _ _ _ _ |- _ => destruct E
             | E : withdraw_effect _ _ _ _ |- _ => destruct E
             | E : unstake_effect _ _ _ _ _ |- _ => destruct E
             end; subst;
      cbn [owner_id reward_fee_fraction stake_public_key paused set_key set_fraction set_paused] in *;
      (split; [congruence|]); (split; [first [left; congruence|right; apply Q; congruence]|]);
      (split; [first [left; congruence|right; apply Q; congruence]|]);
      (split; [first [left; congruence|right; apply Q; congruence]|]);
      intros ps' Eq; injection Eq as <-; (split; [intros v b Iv; exfalso|]);
      try (first [exact (NV _ _ _ _ Iv)|exact (NV' _ _ _ Iv)
                 |destruct Iv as [Iv|Iv]; [discriminate|first [exact (NV _ _ _ _ Iv)|exact (NV' _ _ _ Iv)|exact Iv]]]);
      try (left; first [apply NP|apply NP'|reflexivity]).
    all: assert (NS : forall who n u b q, sent_to u (PTransfer who n :: restake_if b q) = if String.eqb who u then n else 0)
           by (intros who0 n0 u0 b0 q0; cbn [sent_to fold_right]; specialize (NP b0 q0 u0); unfold sent_to in NP; rewrite NP;
               destruct (String.eqb who0 u0); lia).
    all: rewrite NS; destruct (String.eqb_spec who (owner_id (w_pool w))) as [Ew|Ew]; [right|now left].
    + left. now apply Q.
    + right. now apply Q.
Qed.

Lemma all_steered o evs : forall w, owner_id (w_pool w) = o -> forall en, In en (history pool w evs) ->
  steered o (fun m => In m (owners_calls o (history pool w evs))) en.
Proof.
  induction evs as [|e evs IH]; intros w O en I; cbn [history] in *; [destruct I|].
  pose proof (step_steered o w e O) as S. cbv zeta in S. destruct (step pool w e) as [w' ops]. cbn [fst snd] in S.
  assert (O' : owner_id (w_pool w') = o) by (destruct S as (S & _); cbn in S; congruence).
  assert (Mono : forall (f g : call -> Prop) en, (forall m, f m -> g m) -> steered o f en -> steered o g en).
  { intros f g en' F (S1 & S2 & S3 & S4 & S5). split; [exact S1|]. split; [destruct S2; auto|]. split; [destruct S3; auto|].
    split; [destruct S4; auto|]. intros ps Ep. destruct (S5 ps Ep) as (V & T). split; [intros; now apply F, V|].
    destruct T as [T|[T|T]]; auto. }
  destruct I as [<-|I].
  - eapply Mono; [|exact S]. intros m (a & l & r & ps & -> & ->). cbn [owners_calls flat_map en_event en_promises].
    rewrite String.eqb_refl. now left.
  - eapply Mono; [|exact (IH w' O' en I)]. intros m J. cbn [owners_calls flat_map]. apply in_or_app. now right.
Qed.
End Pool.

Lemma pool_pays_said owner n e : In e (pool_pays n) -> pool_said owner e = None.
Proof. intros [<-|[]]. reflexivity. Qed.
Lemma pool_calls_said owner x d m : pool_said owner (pool_calls owner x d m) = Some m.
Proof. cbn. now rewrite String.eqb_refl. Qed.

Lemma steered_mono o (f g : StakingPoolModel.call -> Prop) en : (forall m, f m -> g m) -> steered o f en -> steered o g en.
Proof.
  intros F (S1 & S2 & S3 & S4 & S5). split; [exact S1|]. split; [destruct S2; auto|]. split; [destruct S3; auto|].
  split; [destruct S4; auto|]. intros ps Ep. destruct (S5 ps Ep) as (V & T). split; [intros; now apply F, V|].
  destruct T as [T|[T|T]]; auto.
Qed.

Lemma pool_governed1 self decode read k s0 ks pool w0 js :
  MultisigModel.new false k = Ok s0 ->
  NoDup (mkeys ks) -> (forall pk a, mget pk ks = Some a -> A1.limited self a) ->
  StakingPoolModel.owner_id (StakingPoolSpec.w_pool w0) = self ->
  let happens := A1.happen_obs self decode in
  let j0 := mkState (A1.start s0 ks) [] w0 in
  let fin := gfinal happens (for_lockup1 pool) read (pool_step pool) (pool_accepted pool) pool_pays (pool_calls self) (pool_said self) in
  let evs := gevents happens (for_lockup1 pool) read (pool_step pool) (pool_accepted pool) pool_pays (pool_calls self) (pool_said self) in
  let seen := StakingPoolSpec.history pool w0 (evs j0 js) in
  let cs := A1.w_calls (g_account (fin j0 js)) in
  let wanted := asking (for_lockup1 pool) read in
  (forall p, In p (A1.executions self s0 cs) -> MultisigModel.p_receiver p = self ->
             A1.keeps_guard self (MultisigModel.p_actions p)) ->
  g_contract (fin j0 js) = StakingPoolSpec.final pool w0 (evs j0 js) /\
  (exists done rest,
    owners_calls self seen = flat_map wanted done /\
    Permutation (done ++ rest) (A1.departures self decode (A1.start s0 ks) (at_account js)) /\
    (forall p, In p done -> by_quorum1 self s0 ks cs p)) /\
  forall en, In en seen ->
    steered self (fun m => exists p, by_quorum1 self s0 ks cs p /\ In m (wanted p)) en.
Proof.
  intros Hn Hd Hl O happens j0 fin evs seen cs wanted G.
  destruct (governed1 pool read (pool_step pool) (pool_accepted pool) pool_pays (pool_calls self) (pool_said self)
              (pool_pays_said self) (pool_calls_said self) self decode k s0 ks w0 js Hn Hd Hl G) as (Wd & done & rest & Ma & Pe & Q).
  rewrite pool_run in Wd. rewrite <- pool_made in Ma. split; [exact Wd|]. split; [exists done, rest; auto|].
  intros en I. eapply steered_mono; [|exact (all_steered pool self _ w0 O en I)].
  intros m J. fold evs in J. fold happens j0 evs in Ma. rewrite Ma in J. apply in_flat_map in J. destruct J as (p & J1 & J2). exists p. auto.
Qed.
Lemma pool_governed2 self decode read ms k s0 p0 ks key pool w0 js :
  Multisig2Model.new self false ms k = Ok (s0, p0) ->
  NoDup (mkeys ks) -> (forall pk a, mget pk ks = Some a -> A2.limited self a) ->
  StakingPoolModel.owner_id (StakingPoolSpec.w_pool w0) = self ->
  let happens := A2.happen_obs self decode in
  let j0 := mkState (A2.start s0 p0 ks key) [] w0 in
  let fin := gfinal happens (for_lockup2 pool) read (pool_step pool) (pool_accepted pool) pool_pays (pool_calls self) (pool_said self) in
  let evs := gevents happens (for_lockup2 pool) read (pool_step pool) (pool_accepted pool) pool_pays (pool_calls self) (pool_said self) in
  let seen := StakingPoolSpec.history pool w0 (evs j0 js) in
  let cs := A2.w_calls (g_account (fin j0 js)) in
  let wanted := asking (for_lockup2 pool) read in
  (forall p, In p (A2.executions self s0 cs) -> Multisig2Model.p_receiver p = self ->
             A2.keeps_guard self (Multisig2Model.p_actions p)) ->
  g_contract (fin j0 js) = StakingPoolSpec.final pool w0 (evs j0 js) /\
  (exists done rest,
    owners_calls self seen = flat_map wanted done /\
    Permutation (done ++ rest) (A2.departures self decode (A2.start s0 p0 ks key) (at_account js)) /\
    (forall p, In p done -> by_quorum2 self s0 cs p)) /\
  forall en, In en seen ->
    steered self (fun m => exists p, by_quorum2 self s0 cs p /\ In m (wanted p)) en.
Proof.
  intros Hn Hd Hl O happens j0 fin evs seen cs wanted G.
  destruct (governed2 pool read (pool_step pool) (pool_accepted pool) pool_pays (pool_calls self) (pool_said self)
              (pool_pays_said self) (pool_calls_said self) self decode ms k s0 p0 ks key w0 js Hn Hd Hl G) as (Wd & done & rest & Ma & Pe & Q).
  rewrite pool_run in Wd. rewrite <- pool_made in Ma. split; [exact Wd|]. split; [exists done, rest; auto|].
  intros en I. eapply steered_mono; [|exact (all_steered pool self _ w0 O en I)].
  intros m J. fold evs in J. fold happens j0 evs in Ma. rewrite Ma in J. apply in_flat_map in J. destruct J as (p & J1 & J2). exists p. auto.
Qed.

(** * The whitelist *)
Section Whitelist.
Import WhitelistModel WhitelistSpec WhitelistProofs.
Lemma list_made_in fnd evs1 ev evs2 s0 :
  new false fnd = Ok s0 -> e_who ev = fnd -> in_order ev = true ->
  In (e_call ev) (made step accepted (list_said fnd) s0 (evs1 ++ ev :: evs2)).
Proof.
  intros Hn Ew Hi. rewrite made_app. apply in_or_app. right. cbn [made]. apply in_or_app. left.
  unfold list_said. rewrite Ew, String.eqb_refl. change (Governed.run step s0 evs1) with (final s0 evs1).
  rewrite (accepted_iff_authorised fnd) by assumption. unfold authorised. rewrite Hi, Ew, String.eqb_refl. now left.
Qed.
Lemma listed_by fnd f past : factory_listed fnd past f = true ->
  exists l ev r, past = (l ++ ev :: r)%list /\ e_who ev = fnd /\ in_order ev = true /\ e_call ev = AddFactory f.
Proof.
  induction past as [|ev past IH]; cbn; [discriminate|]. intros L.
  assert (Rest : factory_listed fnd past f = true -> exists l e r, ev :: past = (l ++ e :: r)%list /\ e_who e = fnd /\ in_order e = true /\ e_call e = AddFactory f).
  { intros L'. destruct (IH L') as (l & e & r & -> & X). exists (ev :: l), e, r. auto. }
  destruct (in_order ev && String.eqb (e_who ev) fnd) eqn:B; [|auto]. apply andb_true_iff in B. destruct B as (B1 & B2).
  apply String.eqb_eq in B2. destruct (e_call ev) eqn:Ec; auto; destruct (String.eqb_spec f0 f); auto; try discriminate.
  subst. exists [], ev, past. auto.
Qed.
Lemma list_steered fnd s0 evs evs1 e evs2 : new false fnd = Ok s0 -> evs = (evs1 ++ e :: evs2)%list ->
  steered_list fnd (fun m => In m (made step accepted (list_said fnd) s0 evs)) (final s0 evs1) e.
Proof.
  intros Hn ->. unfold steered_list. destruct (accepted (final s0 evs1) e) eqn:Ac.
  - right. pose proof Ac as Au. rewrite (accepted_iff_authorised fnd) in Au by assumption. unfold authorised in Au.
    apply andb_true_iff in Au. destruct Au as (Hi & Au). destruct (String.eqb_spec (e_who e) fnd) as [Ew|Ew].
    + left. split; [exact Ew|]. now apply list_made_in.
    + right. cbn [orb] in Au. destruct (e_call e) eqn:Ec; try discriminate. exists p. split; [reflexivity|].
      destruct (listed_by _ _ _ Au) as (l & ev & r & Er & Hw & Ho & Hc).
      assert (Ev : evs1 = (rev r ++ ev :: rev l)%list).
      { rewrite <- (rev_involutive evs1), Er, rev_app_distr. cbn. now rewrite <- app_assoc. }
      rewrite Ev, <- app_assoc. cbn [app]. rewrite <- Hc. now apply list_made_in.
  - left. unfold step, accepted in *. now destruct (exec _ _ _) as [[]|].
Qed.
End Whitelist.

Lemma list_pays_said fnd n e : In e (list_pays n) -> list_said fnd e = None.
Proof. intros []. Qed.
Lemma list_calls_said fnd x d m : list_said fnd (list_calls fnd x d m) = Some m.
Proof. unfold list_said, list_calls. cbn. now rewrite String.eqb_refl. Qed.
Lemma steered_list_mono fnd (f g : WhitelistModel.call -> Prop) s e :
  (forall m, f m -> g m) -> steered_list fnd f s e -> steered_list fnd g s e.
Proof. intros F [S|[(S1 & S2)|(q & S1 & S2)]]; [now left|right; left; auto|right; right; exists q; auto]. Qed.

Lemma list_governed1 self decode read k s0 ks target w0 js :
  MultisigModel.new false k = Ok s0 ->
  NoDup (mkeys ks) -> (forall pk a, mget pk ks = Some a -> A1.limited self a) ->
  WhitelistModel.new false self = Ok w0 ->
  let happens := A1.happen_obs self decode in
  let j0 := mkState (A1.start s0 ks) [] w0 in
  let fin := gfinal happens (for_lockup1 target) read WhitelistSpec.step WhitelistSpec.accepted list_pays (list_calls self) (list_said self) in
  let evs := gevents happens (for_lockup1 target) read WhitelistSpec.step WhitelistSpec.accepted list_pays (list_calls self) (list_said self) in
  let cs := A1.w_calls (g_account (fin j0 js)) in
  let wanted := asking (for_lockup1 target) read in
  (forall p, In p (A1.executions self s0 cs) -> MultisigModel.p_receiver p = self ->
             A1.keeps_guard self (MultisigModel.p_actions p)) ->
  g_contract (fin j0 js) = WhitelistSpec.final w0 (evs j0 js) /\
  forall evs1 e evs2, evs j0 js = (evs1 ++ e :: evs2)%list ->
    steered_list self (fun m => exists p, by_quorum1 self s0 ks cs p /\ In m (wanted p)) (WhitelistSpec.final w0 evs1) e.
Proof.
  intros Hn Hd Hl Hw happens j0 fin evs cs wanted G.
  destruct (governed1 target read WhitelistSpec.step WhitelistSpec.accepted list_pays (list_calls self) (list_said self)
              (list_pays_said self) (list_calls_said self) self decode k s0 ks w0 js Hn Hd Hl G) as (Wd & done & rest & Ma & Pe & Q).
  split; [exact Wd|]. intros evs1 e evs2 Ev.
  eapply steered_list_mono; [|exact (list_steered self w0 _ evs1 e evs2 Hw Ev)].
  intros m J. fold happens j0 evs in Ma. rewrite Ma in J. apply in_flat_map in J. destruct J as (p & J1 & J2). exists p. auto.
Qed.
Lemma list_governed2 self decode read ms k s0 p0 ks key target w0 js :
  Multisig2Model.new self false ms k = Ok (s0, p0) ->
  NoDup (mkeys ks) -> (forall pk a, mget pk ks = Some a -> A2.limited self a) ->
  WhitelistModel.new false self = Ok w0 ->
  let happens := A2.happen_obs self decode in
  let j0 := mkState (A2.start s0 p0 ks key) [] w0 in
  let fin := gfinal happens (for_lockup2 target) read WhitelistSpec.step WhitelistSpec.accepted list_pays (list_calls self) (list_said self) in
  let evs := gevents happens (for_lockup2 target) read WhitelistSpec.step WhitelistSpec.accepted list_pays (list_calls self) (list_said self) in
  let cs := A2.w_calls (g_account (fin j0 js)) in
  let wanted := asking (for_lockup2 target) read in
  (forall p, In p (A2.executions self s0 cs) -> Multisig2Model.p_receiver p = self ->
             A2.keeps_guard self (Multisig2Model.p_actions p)) ->
  g_contract (fin j0 js) = WhitelistSpec.final w0 (evs j0 js) /\
  forall evs1 e evs2, evs j0 js = (evs1 ++ e :: evs2)%list ->
    steered_list self (fun m => exists p, by_quorum2 self s0 cs p /\ In m (wanted p)) (WhitelistSpec.final w0 evs1) e.
Proof.
  intros Hn Hd Hl Hw happens j0 fin evs cs wanted G.
  destruct (governed2 target read WhitelistSpec.step WhitelistSpec.accepted list_pays (list_calls self) (list_said self)
              (list_pays_said self) (list_calls_said self) self decode ms k s0 p0 ks key w0 js Hn Hd Hl G) as (Wd & done & rest & Ma & Pe & Q).
  split; [exact Wd|]. intros evs1 e evs2 Ev.
  eapply steered_list_mono; [|exact (list_steered self w0 _ evs1 e evs2 Hw Ev)].
  intros m J. fold happens j0 evs in Ma. rewrite Ma in J. apply in_flat_map in J. destruct J as (p & J1 & J2). exists p. auto.
Qed.

(** * The quorum has both in hand *)
Lemma pool_can_govern1 self decode read t k s0 ks pool w0 js pk0 cs name args gas m locked :
  MultisigModel.new false k = Ok s0 -> self <> pool ->
  let happens := A1.happen_obs self decode in
  let fin := gfinal happens (for_lockup1 pool) read (pool_step pool) (pool_accepted pool) pool_pays (pool_calls self) (pool_said self) in
  let evs := gevents happens (for_lockup1 pool) read (pool_step pool) (pool_accepted pool) pool_pays (pool_calls self) (pool_said self) in
  let j := fin (mkState (A1.start s0 ks) [] w0) js in
  let a := g_account j in
  let s := A1.w_contract a in
  let r := MultisigModel.mkRequest pool [MultisigModel.FunctionCall name args 0 gas] in
  read name args = Some (Some m) ->
  (exists ps, snd (StakingPoolSpec.step pool (g_contract j) (StakingPoolSpec.EvCall self 0 locked [] m)) = Some ps) ->
  (forall pk, In pk (pk0 :: cs) -> A1.can_act self a pk) ->
  NoDup cs ->
  N.of_nat (List.length cs) = N.max 1 (MultisigModel.get_num_confirmations s) ->
  MultisigModel.get_num_confirmations s < U32_BOUND ->
  MultisigModel.get_num_requests_pk s pk0 + 1 <= MultisigModel.active_requests_limit s ->
  MultisigModel.get_num_requests_pk s pk0 + 1 < U32_BOUND -> MultisigModel.get_request_nonce s + 1 < U32_BOUND ->
  (exists args, decode "add_request"%string args = Some (MultisigModel.CAddRequest r)) ->
  (exists args, decode "confirm"%string args = Some (MultisigModel.CConfirm (MultisigModel.get_request_nonce s))) ->
  exists hs n, Forall (A1.by_keys (pk0 :: cs) t) hs /\
    evs j (map GAccount hs ++ [GDeliver n locked])%list = [StakingPoolSpec.EvCall self 0 locked [] m].
Proof.
  intros Hn N happens fin evs j a s r Hr (ps & Hs).
  assert (Ac : pool_accepted pool (g_contract j) (pool_calls self locked 0 m) = true).
  { unfold pool_accepted. change (pool_calls self locked 0 m) with (StakingPoolSpec.EvCall self 0 locked [] m). now rewrite Hs. }
  exact (can_govern1 pool read (pool_step pool) (pool_accepted pool) pool_pays (pool_calls self) (pool_said self)
           (pool_pays_said self) (pool_calls_said self) self decode t k s0 ks w0 js pk0 cs name args gas m locked Hn N Hr Ac).
Qed.
Lemma pool_can_govern2 self decode read t ms k s0 p0 ks key pool w0 js m0 cs name args gas m locked :
  Multisig2Model.new self false ms k = Ok (s0, p0) -> self <> pool ->
  let happens := A2.happen_obs self decode in
  let fin := gfinal happens (for_lockup2 pool) read (pool_step pool) (pool_accepted pool) pool_pays (pool_calls self) (pool_said self) in
  let evs := gevents happens (for_lockup2 pool) read (pool_step pool) (pool_accepted pool) pool_pays (pool_calls self) (pool_said self) in
  let j := fin (mkState (A2.start s0 p0 ks key) [] w0) js in
  let a := g_account j in
  let s := A2.w_contract a in
  let r := Multisig2Model.mkRequest pool [Multisig2Model.FunctionCall name args 0 gas] in
  read name args = Some (Some m) ->
  (exists ps, snd (StakingPoolSpec.step pool (g_contract j) (StakingPoolSpec.EvCall self 0 locked [] m)) = Some ps) ->
  (forall m, In m (m0 :: cs) -> In m (Multisig2Model.get_members s) /\ A2.can_act self a m) ->
  NoDup cs ->
  N.of_nat (List.length cs) = N.max 1 (Multisig2Model.get_num_confirmations s) ->
  Multisig2Model.get_num_confirmations s < U32_BOUND ->
  Multisig2Model.get_num_requests_per_member s m0 + 1 <= Multisig2Model.active_requests_limit s ->
  Multisig2Model.get_num_requests_per_member s m0 + 1 < U32_BOUND -> Multisig2Model.get_request_nonce s + 1 < U32_BOUND ->
  (exists args, decode "add_request"%string args = Some (Multisig2Model.CAddRequest r)) ->
  (exists args, decode "confirm"%string args = Some (Multisig2Model.CConfirm (Multisig2Model.get_request_nonce s))) ->
  exists hs n, Forall (A2.by_members (m0 :: cs) t) hs /\
    evs j (map GAccount hs ++ [GDeliver n locked])%list = [StakingPoolSpec.EvCall self 0 locked [] m].
Proof.
  intros Hn N happens fin evs j a s r Hr (ps & Hs).
  assert (Ac : pool_accepted pool (g_contract j) (pool_calls self locked 0 m) = true).
  { unfold pool_accepted. change (pool_calls self locked 0 m) with (StakingPoolSpec.EvCall self 0 locked [] m). now rewrite Hs. }
  exact (can_govern2 pool read (pool_step pool) (pool_accepted pool) pool_pays (pool_calls self) (pool_said self)
           (pool_pays_said self) (pool_calls_said self) self decode t ms k s0 p0 ks key w0 js m0 cs name args gas m locked Hn N Hr Ac).
Qed.
Lemma list_can_govern1 self decode read t k s0 ks target w0 js pk0 cs name args gas m :
  MultisigModel.new false k = Ok s0 -> self <> target ->
  let happens := A1.happen_obs self decode in
  let fin := gfinal happens (for_lockup1 target) read WhitelistSpec.step WhitelistSpec.accepted list_pays (list_calls self) (list_said self) in
  let evs := gevents happens (for_lockup1 target) read WhitelistSpec.step WhitelistSpec.accepted list_pays (list_calls self) (list_said self) in
  let j := fin (mkState (A1.start s0 ks) [] w0) js in
  let a := g_account j in
  let s := A1.w_contract a in
  let r := MultisigModel.mkRequest target [MultisigModel.FunctionCall name args 0 gas] in
  read name args = Some (Some m) ->
  WhitelistSpec.accepted (g_contract j) (WhitelistSpec.mkEvent self 0 m) = true ->
  (forall pk, In pk (pk0 :: cs) -> A1.can_act self a pk) ->
  NoDup cs ->
  N.of_nat (List.length cs) = N.max 1 (MultisigModel.get_num_confirmations s) ->
  MultisigModel.get_num_confirmations s < U32_BOUND ->
  MultisigModel.get_num_requests_pk s pk0 + 1 <= MultisigModel.active_requests_limit s ->
  MultisigModel.get_num_requests_pk s pk0 + 1 < U32_BOUND -> MultisigModel.get_request_nonce s + 1 < U32_BOUND ->
  (exists args, decode "add_request"%string args = Some (MultisigModel.CAddRequest r)) ->
  (exists args, decode "confirm"%string args = Some (MultisigModel.CConfirm (MultisigModel.get_request_nonce s))) ->
  exists hs n, Forall (A1.by_keys (pk0 :: cs) t) hs /\
    evs j (map GAccount hs ++ [GDeliver n tt])%list = [WhitelistSpec.mkEvent self 0 m].
Proof.
  intros Hn N happens fin evs j a s r Hr Hs.
  exact (can_govern1 target read WhitelistSpec.step WhitelistSpec.accepted list_pays (list_calls self) (list_said self)
           (list_pays_said self) (list_calls_said self) self decode t k s0 ks w0 js pk0 cs name args gas m tt Hn N Hr Hs).
Qed.
Lemma list_can_govern2 self decode read t ms k s0 p0 ks key target w0 js m0 cs name args gas m :
  Multisig2Model.new self false ms k = Ok (s0, p0) -> self <> target ->
  let happens := A2.happen_obs self decode in
  let fin := gfinal happens (for_lockup2 target) read WhitelistSpec.step WhitelistSpec.accepted list_pays (list_calls self) (list_said self) in
  let evs := gevents happens (for_lockup2 target) read WhitelistSpec.step WhitelistSpec.accepted list_pays (list_calls self) (list_said self) in
  let j := fin (mkState (A2.start s0 p0 ks key) [] w0) js in
  let a := g_account j in
  let s := A2.w_contract a in
  let r := Multisig2Model.mkRequest target [Multisig2Model.FunctionCall name args 0 gas] in
  read name args = Some (Some m) ->
  WhitelistSpec.accepted (g_contract j) (WhitelistSpec.mkEvent self 0 m) = true ->
  (forall m, In m (m0 :: cs) -> In m (Multisig2Model.get_members s) /\ A2.can_act self a m) ->
  NoDup cs ->
  N.of_nat (List.length cs) = N.max 1 (Multisig2Model.get_num_confirmations s) ->
  Multisig2Model.get_num_confirmations s < U32_BOUND ->
  Multisig2Model.get_num_requests_per_member s m0 + 1 <= Multisig2Model.active_requests_limit s ->
  Multisig2Model.get_num_requests_per_member s m0 + 1 < U32_BOUND -> Multisig2Model.get_request_nonce s + 1 < U32_BOUND ->
  (exists args, decode "add_request"%string args = Some (Multisig2Model.CAddRequest r)) ->
  (exists args, decode "confirm"%string args = Some (Multisig2Model.CConfirm (Multisig2Model.get_request_nonce s))) ->
  exists hs n, Forall (A2.by_members (m0 :: cs) t) hs /\
    evs j (map GAccount hs ++ [GDeliver n tt])%list = [WhitelistSpec.mkEvent self 0 m].
Proof.
  intros Hn N happens fin evs j a s r Hr Hs.
  exact (can_govern2 target read WhitelistSpec.step WhitelistSpec.accepted list_pays (list_calls self) (list_said self)
           (list_pays_said self) (list_calls_said self) self decode t ms k s0 p0 ks key w0 js m0 cs name args gas m tt Hn N Hr Hs).
Qed.
