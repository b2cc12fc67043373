(** A lockup whose owner is a multisig some of whose members refuse (C121). *)
From Coq Require Import NArith List Bool String Lia.
From Verif Require Import Prelude LockupModel LockupWorld OwnedLockup OwnedLockupProofs.
From Verif Require MultisigModel MultisigSpec MultisigAccount MultisigSilence.
From Verif Require Multisig2Model Multisig2Spec Multisig2Account Multisig2Veto Multisig2Silence.
Import ListNotations.
Open Scope N_scope.

Lemma in_account_part {H : Type} (h : H) (js : list (@jevent H)) : In h (account_part js) -> In (JAccount h) js.
Proof.
  unfold account_part. intros I. apply in_flat_map in I. destruct I as (ev & I & J).
  destruct ev as [h'|]; [|now destruct J]. destruct J as [->|[]]. exact I.
Qed.
Lemma some_of_none {B} (l : list B) : some_of l [] -> l = [].
Proof. inversion 1. reflexivity. Qed.

Lemma silent_pair {A H P : Type} (happens : A -> H -> A * list P) for_lockup read g owner a w js : owner <> g_self g ->
  owner_account_id (w_lockup w) = owner -> w_msgs w = [] -> adeps happens a (account_part js) = [] ->
  let seen := jlog happens for_lockup read g owner (mkPair a w) js in
  owner_calls owner seen = [] /\ forall to x, payouts to x seen = 0%nat.
Proof.
  intros N O M D seen. destruct (pair_history happens for_lockup read g owner N js (mkPair a w)) as (evs & done & _ & B & _ & S & C).
  cbn [j_account j_lockup] in *. rewrite D in S. rewrite (some_of_none _ S) in C. cbn [flat_map] in C. fold seen in C, B.
  split; [exact C|]. intros to x. pose proof (log_flying g evs to x w ltac:(congruence)) as L.
  rewrite M, O, <- B, C in L. change (flying to x []) with 0%nat in L. change (orders to x []) with 0%nat in L. lia.
Qed.

Lemma lockup_silent1 self decode read k s0 ks hs g w js A :
  MultisigModel.new false k = Ok s0 ->
  NoDup (mkeys ks) -> (forall pk x, mget pk ks = Some x -> MultisigAccount.limited self x) ->
  owner_account_id (w_lockup w) = self -> self <> g_self g -> w_msgs w = [] ->
  let a := MultisigAccount.run self decode (MultisigAccount.start s0 ks) hs in
  let s := MultisigAccount.w_contract a in
  let seen := jlog (MultisigAccount.happen_obs self decode) (for_lockup1 (g_self g)) read g self (mkPair a w) js in
  (forall p, In p (MultisigAccount.executions self s0 (MultisigAccount.w_calls a)) -> MultisigModel.p_receiver p = self ->
             MultisigAccount.keeps_guard self (MultisigModel.p_actions p)) ->
  MultisigAccount.w_flight a = [] ->
  N.of_nat (List.length A) < MultisigModel.get_num_confirmations s ->
  (forall id pk, In id (MultisigModel.list_request_ids s) ->
     In pk (MultisigSpec.confirmers (MultisigSpec.log self s0 (MultisigAccount.w_calls a)) id) -> In pk A) ->
  (forall key to acts, In (JAccount (MultisigAccount.HTx key to acts)) js -> ~ In key A ->
     MultisigSilence.carries_no_confirmation decode acts) ->
  owner_calls self seen = [] /\ forall to x, payouts to x seen = 0%nat.
Proof.
  intros Hn Hd Hl O N M a s seen G FL LA HC HT.
  destruct (MultisigSilence.silence self decode k s0 ks hs (account_part js) A Hn Hd Hl G FL LA HC) as (D & _).
  { intros key to acts I. apply HT with (to := to). now apply in_account_part. }
  apply silent_pair; auto; (rewrite adeps1 || rewrite adeps2); exact D.
Qed.

Lemma lockup_silent2 self decode read ms k s0 p0 ks key hs g w js B :
  Multisig2Model.new self false ms k = Ok (s0, p0) ->
  NoDup (mkeys ks) -> (forall pk x, mget pk ks = Some x -> Multisig2Account.limited self x) ->
  owner_account_id (w_lockup w) = self -> self <> g_self g -> w_msgs w = [] ->
  let a := Multisig2Account.run self decode (Multisig2Account.start s0 p0 ks key) hs in
  let s := Multisig2Account.w_contract a in
  let seen := jlog (Multisig2Account.happen_obs self decode) (for_lockup2 (g_self g)) read g self (mkPair a w) js in
  (forall p, In p (Multisig2Account.executions self s0 (Multisig2Account.w_calls a)) -> Multisig2Model.p_receiver p = self ->
             Multisig2Account.keeps_guard self (Multisig2Model.p_actions p)) ->
  Multisig2Account.w_flight a = [] ->
  NoDup B -> incl B (Multisig2Model.get_members s) ->
  N.of_nat (List.length (Multisig2Model.get_members s)) <
    Multisig2Model.get_num_confirmations s + N.of_nat (List.length B) ->
  (forall id m, In id (Multisig2Model.list_request_ids s) ->
     In m (Multisig2Spec.confirmers (Multisig2Spec.log self s0 (Multisig2Account.w_calls a)) id) ->
     In m (Multisig2Model.get_members s) /\ ~ In m B) ->
  (forall key to acts, In (JAccount (Multisig2Account.HTx key to acts)) js -> In (Multisig2Model.AccessKey key) B ->
     Multisig2Silence.carries_no_confirmation decode acts) ->
  (forall pred key attached t m, In (JAccount (Multisig2Account.HCall pred key attached t m)) js ->
     In (Multisig2Model.Account pred) B -> Multisig2Veto.confirms m = false) ->
  owner_calls self seen = [] /\ forall to x, payouts to x seen = 0%nat.
Proof.
  intros Hn Hd Hl O N M a s seen G FL NB IB LB HC HT HH.
  destruct (Multisig2Silence.silence self decode ms k p0 s0 ks key hs (account_part js) B Hn Hd Hl G FL NB IB LB HC) as (D & _).
  { intros key' to acts I. apply HT with (to := to). now apply in_account_part. }
  { intros pred key' att t m I. apply (HH pred key' att t m). now apply in_account_part. }
  apply silent_pair; auto; (rewrite adeps1 || rewrite adeps2); exact D.
Qed.
