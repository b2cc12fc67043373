(** A lockup whose foundation is an account that a multisig guards (C106). In every statement [js] is an arbitrary
    history of both: transactions and deliveries at the foundation's account, calls of the lockup by anybody else, its
    messages, time. (That the quorum can make the lockup accept what it accepts from the foundation, and the same
    with messages that take their time, is in GovernedLockupProps.) *)
From Coq Require Import NArith List Bool String.
From Verif Require Import Prelude LockupModel LockupWorld LockupSpec LockupEffects LockupFacts OwnedLockup FoundationProofs.
From Verif Require MultisigModel MultisigSpec MultisigAccount Multisig2Model Multisig2Spec Multisig2Account LockupProps.
Import ListNotations.
Open Scope string_scope.
Open Scope N_scope.

(** C106. The multisig guards the foundation's account: its keys can only call the multisig, and no executed request
    changes that. Then every accepted call of a method of the foundation is one that a request asked for which the quorum
    had confirmed; the vesting is being terminated only if such a request asked for it; and unvested tokens are paid to
    nobody but whom such a request named. *)
Theorem C106_multisig :
  forall self decode read k s0 ks g w0 js,
  MultisigModel.new false k = Ok s0 ->
  NoDup (mkeys ks) -> (forall pk a, mget pk ks = Some a -> MultisigAccount.limited self a) ->
  starts g w0 -> foundation_account_id (w_lockup w0) = Some self -> self <> g_self g ->
  let happens := MultisigAccount.happen_obs self decode in
  let j0 := mkPair (MultisigAccount.start s0 ks) w0 in
  let j := jfinal happens (for_lockup1 (g_self g)) read g self j0 js in
  let calls := MultisigAccount.w_calls (j_account j) in
  let seen := jlog happens (for_lockup1 (g_self g)) read g self j0 js in
  let quorum_asked m := exists p, by_quorum1 self s0 ks calls p /\ In m (asks (for_lockup1 (g_self g)) read p) in
  (forall p, In p (MultisigAccount.executions self s0 calls) -> MultisigModel.p_receiver p = self ->
             MultisigAccount.keeps_guard self (MultisigModel.p_actions p)) ->
  (forall who m, In (BCalled who m true) seen -> foundation_method m = true -> who = self /\ quorum_asked m) /\
  (get_termination_status (w_lockup (j_lockup j)) <> None -> exists o, quorum_asked (TerminateVesting o)) /\
  (forall to x, In (BPaid to x true) seen -> quorum_asked (TerminationWithdraw to)).
Proof. exact foundation1. Qed.
Print Assumptions C106_multisig.

(** C106. The same for the second multisig. *)
Theorem C106_multisig2 :
  forall self decode read ms k s0 p0 ks key g w0 js,
  Multisig2Model.new self false ms k = Ok (s0, p0) ->
  NoDup (mkeys ks) -> (forall pk a, mget pk ks = Some a -> Multisig2Account.limited self a) ->
  starts g w0 -> foundation_account_id (w_lockup w0) = Some self -> self <> g_self g ->
  let happens := Multisig2Account.happen_obs self decode in
  let j0 := mkPair (Multisig2Account.start s0 p0 ks key) w0 in
  let j := jfinal happens (for_lockup2 (g_self g)) read g self j0 js in
  let calls := Multisig2Account.w_calls (j_account j) in
  let seen := jlog happens (for_lockup2 (g_self g)) read g self j0 js in
  let quorum_asked m := exists p, by_quorum2 self s0 calls p /\ In m (asks (for_lockup2 (g_self g)) read p) in
  (forall p, In p (Multisig2Account.executions self s0 calls) -> Multisig2Model.p_receiver p = self ->
             Multisig2Account.keeps_guard self (Multisig2Model.p_actions p)) ->
  (forall who m, In (BCalled who m true) seen -> foundation_method m = true -> who = self /\ quorum_asked m) /\
  (get_termination_status (w_lockup (j_lockup j)) <> None -> exists o, quorum_asked (TerminateVesting o)) /\
  (forall to x, In (BPaid to x true) seen -> quorum_asked (TerminationWithdraw to)).
Proof. exact foundation2. Qed.
Print Assumptions C106_multisig2.

(** A vesting of 100 NEAR whose foundation is a 2-of-3 multisig. At half time a stranger, the owner and one key alone try
    to terminate it; then two keys do, and two keys have the unvested half paid to the treasury. *)
Definition me : account_id := "found.near".
Definition keys3 : umap public_key MultisigAccount.access :=
  map (fun pk => (pk, MultisigAccount.CallAccess me ["add_request"; "delete_request"; "confirm"])) ["k1"; "k2"; "k3"].
Definition call_lockup (m : string) : MultisigModel.request :=
  MultisigModel.mkRequest "lock.near" [MultisigModel.FunctionCall m "" 0 0].
Definition decode (m args : string) : option MultisigModel.call :=
  if String.eqb m "add_request" then Some (MultisigModel.CAddRequest (call_lockup args))
  else if String.eqb m "confirm" then Some (MultisigModel.CConfirm (if String.eqb args "first" then 0 else 1)) else None.
Definition read (m args : string) : option (option call) :=
  if String.eqb m "terminate_vesting" then Some (Some (TerminateVesting None))
  else if String.eqb m "termination_withdraw" then Some (Some (TerminationWithdraw "treasury.near")) else None.
Definition tx (pk m args : string) : MultisigAccount.happening :=
  MultisigAccount.HTx pk me [MultisigModel.BFunctionCall m args 0 0].
Definition two_confirm (name which : string) : list MultisigAccount.happening :=
  [tx "k1" "add_request" name; MultisigAccount.HDeliver 0 1; tx "k1" "confirm" which; MultisigAccount.HDeliver 0 2;
   tx "k3" "confirm" which; MultisigAccount.HDeliver 0 3; MultisigAccount.HDeliver 0 4].
Definition story : list jevent :=
  [JLockup (ETime 50); JLockup (ECall "eve.near" 0 (TerminateVesting None));
   JLockup (ECall "owner.near" 0 (TerminateVesting None));
   JAccount (MultisigAccount.HTx "k2" "lock.near" [MultisigModel.BFunctionCall "terminate_vesting" "" 0 0])] ++
  map JAccount (two_confirm "terminate_vesting" "first" ++ two_confirm "termination_withdraw" "second") ++
  [JLockup (EDeliver 0 ODone)].
Example C106_applies :
  exists s0, MultisigModel.new false 2 = Ok s0 /\ NoDup (mkeys keys3) /\
  (forall pk a, mget pk keys3 = Some a -> MultisigAccount.limited me a) /\
  starts LockupProps.gen LockupProps.w1 /\ foundation_account_id (w_lockup LockupProps.w1) = Some me /\
  me <> g_self LockupProps.gen /\
  let happens := MultisigAccount.happen_obs me decode in
  let j0 := mkPair (MultisigAccount.start s0 keys3) LockupProps.w1 in
  let j := jfinal happens (for_lockup1 "lock.near") read LockupProps.gen me j0 story in
  (forall p, In p (MultisigAccount.executions me s0 (MultisigAccount.w_calls (j_account j))) ->
             MultisigModel.p_receiver p = me -> MultisigAccount.keeps_guard me (MultisigModel.p_actions p)) /\
  get_termination_status (w_lockup (j_lockup j)) = Some WithdrawingFromAccountInProgress /\
  jlog happens (for_lockup1 "lock.near") read LockupProps.gen me j0 story =
    [BCalled "eve.near" (TerminateVesting None) false; BCalled "owner.near" (TerminateVesting None) false;
     BCalled me (TerminateVesting None) true; BCalled me (TerminationWithdraw "treasury.near") true;
     BSent (RTransfer "treasury.near" (50 * LockupProps.near)); BPaid "treasury.near" (50 * LockupProps.near) true].
Proof.
  eexists. split; [reflexivity|]. split; [repeat constructor; cbn; intuition discriminate|]. split.
  { intros pk a. cbn [keys3 map mget]. do 3 (destruct (keqb _ _); [intros E; injection E as <-; eexists; reflexivity|]).
    discriminate. }
  split; [exact LockupProps.starts_w1|]. split; [reflexivity|]. split; [discriminate|].
  cbv zeta. split; [|split; vm_compute; reflexivity].
  intros p I. vm_compute in I. destruct I as [<-|[<-|[]]]; discriminate.
Qed.

(** The same with the second multisig, whose third member is an account. *)
Definition call_lockup2 (m : string) : Multisig2Model.request :=
  Multisig2Model.mkRequest "lock.near" [Multisig2Model.FunctionCall m "" 0 0].
Definition ms3 : list Multisig2Model.member :=
  [Multisig2Model.AccessKey "k1"; Multisig2Model.AccessKey "k2"; Multisig2Model.Account "carol.near"].
Definition decode2 (m args : string) : option Multisig2Model.call :=
  if String.eqb m "add_request" then Some (Multisig2Model.CAddRequest (call_lockup2 args))
  else if String.eqb m "confirm" then Some (Multisig2Model.CConfirm (if String.eqb args "first" then 0 else 1)) else None.
Definition tx2 (pk m args : string) : Multisig2Account.happening :=
  Multisig2Account.HTx pk me [Multisig2Model.BFunctionCall m args 0 0].
Definition two_confirm2 (name which : string) (id : N) : list Multisig2Account.happening :=
  [tx2 "k1" "add_request" name; Multisig2Account.HDeliver 0 1; tx2 "k1" "confirm" which; Multisig2Account.HDeliver 0 2;
   Multisig2Account.HCall "carol.near" "kc" 0 3 (Multisig2Model.CConfirm id); Multisig2Account.HDeliver 0 4].
Definition story2 : list jevent :=
  [JAccount (Multisig2Account.HDeliver 0 1); JLockup (ETime 50); JLockup (ECall "eve.near" 0 (TerminateVesting None))] ++
  map JAccount (two_confirm2 "terminate_vesting" "first" 0 ++ two_confirm2 "termination_withdraw" "second" 1) ++
  [JLockup (EDeliver 0 ODone)].
Example C106_applies2 :
  exists s0 p0, Multisig2Model.new me false ms3 2 = Ok (s0, p0) /\
  starts LockupProps.gen LockupProps.w1 /\ foundation_account_id (w_lockup LockupProps.w1) = Some me /\
  me <> g_self LockupProps.gen /\
  let happens := Multisig2Account.happen_obs me decode2 in
  let j0 := mkPair (Multisig2Account.start s0 p0 [] "kd") LockupProps.w1 in
  let j := jfinal happens (for_lockup2 "lock.near") read LockupProps.gen me j0 story2 in
  (forall p, In p (Multisig2Account.executions me s0 (Multisig2Account.w_calls (j_account j))) ->
             Multisig2Model.p_receiver p = me -> Multisig2Account.keeps_guard me (Multisig2Model.p_actions p)) /\
  jlog happens (for_lockup2 "lock.near") read LockupProps.gen me j0 story2 =
    [BCalled "eve.near" (TerminateVesting None) false; BCalled me (TerminateVesting None) true;
     BCalled me (TerminationWithdraw "treasury.near") true; BSent (RTransfer "treasury.near" (50 * LockupProps.near));
     BPaid "treasury.near" (50 * LockupProps.near) true].
Proof.
  do 2 eexists. split; [vm_compute; reflexivity|].
  split; [exact LockupProps.starts_w1|]. split; [reflexivity|]. split; [discriminate|].
  cbv zeta. split; [|vm_compute; reflexivity].
  intros p I. vm_compute in I. destruct I as [<-|[<-|[]]]; discriminate.
Qed.
