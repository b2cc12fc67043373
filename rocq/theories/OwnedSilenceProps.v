(** C121, for a lockup whose owner's account a multisig guards. *)
From Coq Require Import NArith List Bool String.
From Verif Require Import Prelude LockupModel LockupWorld OwnedLockup OwnedSilence.
From Verif Require LockupProps MultisigModel MultisigSpec MultisigAccount MultisigSilence.
From Verif Require Multisig2Model Multisig2Spec Multisig2Account Multisig2Veto Multisig2Silence.
Import ListNotations.
Open Scope string_scope.
Open Scope N_scope.

(** C121. The first multisig guards the owner's account of a lockup in any state, with nothing on its way from either.
    If only keys of [A] confirm from now on, and they are fewer than required, the lockup accepts no call of its owner
    any more, and no payment is made from it but what the foundation takes. [js] is an arbitrary history of both. *)
Theorem C121_lockup_pays_nothing :
  forall self decode read k s0 ks hs g w js A,
  MultisigModel.new false k = Ok s0 ->
  NoDup (mkeys ks) -> (forall pk x, mget pk ks = Some x -> MultisigAccount.limited self x) ->
  owner_account_id (w_lockup w) = self -> self <> g_self g -> w_msgs w = [] ->
  let a := MultisigAccount.run self decode (MultisigAccount.start s0 ks) hs in
  let s := MultisigAccount.w_contract a in
  let seen := jlog (MultisigAccount.happen_obs self decode) (for_lockup1 (g_self g)) read g self (mkPair a w) js in
  (forall p, In p (MultisigAccount.executions self s0 (MultisigAccount.w_calls a)) -> MultisigModel.p_receiver p = self ->
             MultisigAccount.keeps_guard self (MultisigModel.p_actions p)) ->
  MultisigAccount.w_flight a = [] ->
  N.of_nat (List.length A) < MultisigModel.get_num_confirmations s ->
  (forall id pk, In id (MultisigModel.list_request_ids s) ->
     In pk (MultisigSpec.confirmers (MultisigSpec.log self s0 (MultisigAccount.w_calls a)) id) -> In pk A) ->
  (forall key to acts, In (JAccount (MultisigAccount.HTx key to acts)) js -> ~ In key A ->
     MultisigSilence.carries_no_confirmation decode acts) ->
  owner_calls self seen = [] /\ forall to x, payouts to x seen = 0%nat.
Proof. exact lockup_silent1. Qed.
Print Assumptions C121_lockup_pays_nothing.

(** C121. The same for the second multisig. *)
Theorem C121_lockup_pays_nothing2 :
  forall self decode read ms k s0 p0 ks key hs g w js B,
  Multisig2Model.new self false ms k = Ok (s0, p0) ->
  NoDup (mkeys ks) -> (forall pk x, mget pk ks = Some x -> Multisig2Account.limited self x) ->
  owner_account_id (w_lockup w) = self -> self <> g_self g -> w_msgs w = [] ->
  let a := Multisig2Account.run self decode (Multisig2Account.start s0 p0 ks key) hs in
  let s := Multisig2Account.w_contract a in
  let seen := jlog (Multisig2Account.happen_obs self decode) (for_lockup2 (g_self g)) read g self (mkPair a w) js in
  (forall p, In p (Multisig2Account.executions self s0 (Multisig2Account.w_calls a)) -> Multisig2Model.p_receiver p = self ->
             Multisig2Account.keeps_guard self (Multisig2Model.p_actions p)) ->
  Multisig2Account.w_flight a = [] ->
  NoDup B -> incl B (Multisig2Model.get_members s) ->
  N.of_nat (List.length (Multisig2Model.get_members s)) <
    Multisig2Model.get_num_confirmations s + N.of_nat (List.length B) ->
  (forall id m, In id (Multisig2Model.list_request_ids s) ->
     In m (Multisig2Spec.confirmers (Multisig2Spec.log self s0 (Multisig2Account.w_calls a)) id) ->
     In m (Multisig2Model.get_members s) /\ ~ In m B) ->
  (forall key to acts, In (JAccount (Multisig2Account.HTx key to acts)) js -> In (Multisig2Model.AccessKey key) B ->
     Multisig2Silence.carries_no_confirmation decode acts) ->
  (forall pred key attached t m, In (JAccount (Multisig2Account.HCall pred key attached t m)) js ->
     In (Multisig2Model.Account pred) B -> Multisig2Veto.confirms m = false) ->
  owner_calls self seen = [] /\ forall to x, payouts to x seen = 0%nat.
Proof. exact lockup_silent2. Qed.
Print Assumptions C121_lockup_pays_nothing2.

(** A lockup past its time, owned by a 2-of-3 multisig. [k1] has asked for a payment and confirmed it, and goes on
    trying, as does a stranger; [k2] only adds requests. Were [k3] to confirm, the payment would be made. *)
Definition me : account_id := "owner.near".
Definition keys3 : umap public_key MultisigAccount.access :=
  map (fun pk => (pk, MultisigAccount.CallAccess me ["add_request"; "delete_request"; "confirm"])) ["k1"; "k2"; "k3"].
Definition ten : N := 10 * LockupProps.near.
Definition decode (m args : string) : option MultisigModel.call :=
  if String.eqb m "add_request"
  then Some (MultisigModel.CAddRequest (MultisigModel.mkRequest "lock.near" [MultisigModel.FunctionCall "transfer" "" 0 0]))
  else if String.eqb m "confirm" then Some (MultisigModel.CConfirm 0) else None.
Definition read (m args : string) : option (option call) :=
  if String.eqb m "transfer" then Some (Some (Transfer ten "friend.near")) else None.
Definition tx (key m : string) : MultisigAccount.happening :=
  MultisigAccount.HTx key me [MultisigModel.BFunctionCall m "" 0 0].
Definition before : list MultisigAccount.happening :=
  [tx "k1" "add_request"; MultisigAccount.HDeliver 0 1; tx "k1" "confirm"; MultisigAccount.HDeliver 0 2].
Definition after : list (@jevent MultisigAccount.happening) :=
  [JLockup (ETime 60); JAccount (tx "k1" "confirm"); JAccount (MultisigAccount.HDeliver 0 3);
   JLockup (ECall "eve.near" 0 (Transfer ten "eve.near")); JAccount (tx "k2" "add_request");
   JAccount (MultisigAccount.HDeliver 0 4)].
Definition all_sign : list (@jevent MultisigAccount.happening) :=
  [JLockup (ETime 60); JAccount (tx "k3" "confirm"); JAccount (MultisigAccount.HDeliver 0 3);
   JAccount (MultisigAccount.HDeliver 0 4); JLockup (EDeliver 0 ODone)].
Example C121_lockup_applies :
  exists s0, MultisigModel.new false 2 = Ok s0 /\ owner_account_id (w_lockup LockupProps.w3) = me /\
  me <> g_self LockupProps.gen /\ w_msgs LockupProps.w3 = [] /\
  let a := MultisigAccount.run me decode (MultisigAccount.start s0 keys3) before in
  let see := jlog (MultisigAccount.happen_obs me decode) (for_lockup1 "lock.near") read LockupProps.gen me (mkPair a LockupProps.w3) in
  MultisigAccount.executions me s0 (MultisigAccount.w_calls a) = [] /\ MultisigAccount.w_flight a = [] /\
  MultisigModel.get_num_confirmations (MultisigAccount.w_contract a) = 2 /\
  MultisigModel.list_request_ids (MultisigAccount.w_contract a) = [0] /\
  MultisigSpec.confirmers (MultisigSpec.log me s0 (MultisigAccount.w_calls a)) 0 = ["k1"] /\
  (forall key to acts, In (JAccount (MultisigAccount.HTx key to acts)) after -> ~ In key ["k1"] ->
     MultisigSilence.carries_no_confirmation decode acts) /\
  see after = [BCalled "eve.near" (Transfer ten "eve.near") false] /\
  payouts "friend.near" ten (see all_sign) = 1%nat.
Proof.
  eexists. split; [reflexivity|]. split; [reflexivity|]. split; [discriminate|]. split; [reflexivity|]. cbv zeta.
  split; [vm_compute; reflexivity|]. split; [vm_compute; reflexivity|]. split; [vm_compute; reflexivity|].
  split; [vm_compute; reflexivity|]. split; [vm_compute; reflexivity|]. split; [|split; vm_compute; reflexivity].
  intros key to acts I NA. unfold after, tx in I. cbn [In] in I.
  repeat (destruct I as [I|I]; [try discriminate I; injection I as <- <- <-|]); try destruct I;
    try (exfalso; apply NA; now left);
    (intros m args dep gas c J D; destruct J as [J|[]]; injection J as <- <- <- <-; vm_compute in D;
     injection D as <-; reflexivity).
Qed.
