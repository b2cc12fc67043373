(** A lockup owned by an account that a multisig guards (C100). In every statement [js] is an arbitrary history of
    both: transactions and deliveries at the owner's account, calls of the lockup by anybody else, its messages, time. *)
From Coq Require Import NArith List Bool String.
From Verif Require Import Prelude LockupModel LockupWorld OwnedLockup OwnedLockupProofs.
From Verif Require MultisigModel MultisigSpec MultisigAccount Multisig2Model Multisig2Spec Multisig2Account LockupProps.
Import ListNotations.
Open Scope string_scope.
Open Scope N_scope.

(** C100. Whatever the owner's account is, the lockup in the pair goes through a history of its own and is observed
    as in it: everything proved about the lockup alone holds of it. *)
Theorem C100_lockup_history :
  forall A H P (happens : A -> H -> A * list P) for_lockup read g owner, owner <> g_self g ->
  forall js j, exists evs,
    j_lockup (jfinal happens for_lockup read g owner j js) = final g (j_lockup j) evs /\
    jlog happens for_lockup read g owner j js = log g (j_lockup j) evs.
Proof. exact lockup_history. Qed.
Print Assumptions C100_lockup_history.

(** C100. The first multisig guards the owner's account: its keys can only call the multisig, and no executed request
    changes that. Then the owner's accepted calls of the lockup are, in order and one for one, the calls of some of
    the batches that left the account, each of which the quorum had confirmed; and each payment out of the lockup is
    covered by one of those calls (what the foundation recovers by terminating a vesting aside). *)
Theorem C100_multisig :
  forall self decode read k s0 ks g w0 js,
  MultisigModel.new false k = Ok s0 ->
  NoDup (mkeys ks) -> (forall pk a, mget pk ks = Some a -> MultisigAccount.limited self a) ->
  starts g w0 -> owner_account_id (w_lockup w0) = self -> self <> g_self g ->
  let happens := MultisigAccount.happen_obs self decode in
  let j0 := mkPair (MultisigAccount.start s0 ks) w0 in
  let calls := MultisigAccount.w_calls (j_account (jfinal happens (for_lockup1 (g_self g)) read g self j0 js)) in
  let seen := jlog happens (for_lockup1 (g_self g)) read g self j0 js in
  let wanted := asks (for_lockup1 (g_self g)) read in
  (forall p, In p (MultisigAccount.executions self s0 calls) -> MultisigModel.p_receiver p = self ->
             MultisigAccount.keeps_guard self (MultisigModel.p_actions p)) ->
  exists done,
    owner_calls self seen = flat_map wanted done /\
    some_of done (MultisigAccount.departures self decode (MultisigAccount.start s0 ks) (account_part js)) /\
    (forall p, In p done -> by_quorum1 self s0 ks calls p) /\
    forall to x, (payouts to x seen <= orders to x (flat_map wanted done))%nat.
Proof. exact owned1. Qed.
Print Assumptions C100_multisig.

(** C100. The same for the second multisig. *)
Theorem C100_multisig2 :
  forall self decode read ms k s0 p0 ks key g w0 js,
  Multisig2Model.new self false ms k = Ok (s0, p0) ->
  NoDup (mkeys ks) -> (forall pk a, mget pk ks = Some a -> Multisig2Account.limited self a) ->
  starts g w0 -> owner_account_id (w_lockup w0) = self -> self <> g_self g ->
  let happens := Multisig2Account.happen_obs self decode in
  let j0 := mkPair (Multisig2Account.start s0 p0 ks key) w0 in
  let calls := Multisig2Account.w_calls (j_account (jfinal happens (for_lockup2 (g_self g)) read g self j0 js)) in
  let seen := jlog happens (for_lockup2 (g_self g)) read g self j0 js in
  let wanted := asks (for_lockup2 (g_self g)) read in
  (forall p, In p (Multisig2Account.executions self s0 calls) -> Multisig2Model.p_receiver p = self ->
             Multisig2Account.keeps_guard self (Multisig2Model.p_actions p)) ->
  exists done,
    owner_calls self seen = flat_map wanted done /\
    some_of done (Multisig2Account.departures self decode (Multisig2Account.start s0 p0 ks key) (account_part js)) /\
    (forall p, In p done -> by_quorum2 self s0 calls p) /\
    forall to x, (payouts to x seen <= orders to x (flat_map wanted done))%nat.
Proof. exact owned2. Qed.
Print Assumptions C100_multisig2.

(** C100. So whatever is paid out of the lockup, a request that the quorum confirmed asked for exactly that. *)
Theorem C100_paid_by_quorum :
  forall self decode read k s0 ks g w0 js to x,
  MultisigModel.new false k = Ok s0 ->
  NoDup (mkeys ks) -> (forall pk a, mget pk ks = Some a -> MultisigAccount.limited self a) ->
  starts g w0 -> owner_account_id (w_lockup w0) = self -> self <> g_self g ->
  let happens := MultisigAccount.happen_obs self decode in
  let j0 := mkPair (MultisigAccount.start s0 ks) w0 in
  let calls := MultisigAccount.w_calls (j_account (jfinal happens (for_lockup1 (g_self g)) read g self j0 js)) in
  (forall p, In p (MultisigAccount.executions self s0 calls) -> MultisigModel.p_receiver p = self ->
             MultisigAccount.keeps_guard self (MultisigModel.p_actions p)) ->
  In (BPaid to x false) (jlog happens (for_lockup1 (g_self g)) read g self j0 js) ->
  exists p, by_quorum1 self s0 ks calls p /\ In (Transfer x to) (asks (for_lockup1 (g_self g)) read p).
Proof. exact paid_by_quorum1. Qed.
Print Assumptions C100_paid_by_quorum.
Theorem C100_paid_by_quorum2 :
  forall self decode read ms k s0 p0 ks key g w0 js to x,
  Multisig2Model.new self false ms k = Ok (s0, p0) ->
  NoDup (mkeys ks) -> (forall pk a, mget pk ks = Some a -> Multisig2Account.limited self a) ->
  starts g w0 -> owner_account_id (w_lockup w0) = self -> self <> g_self g ->
  let happens := Multisig2Account.happen_obs self decode in
  let j0 := mkPair (Multisig2Account.start s0 p0 ks key) w0 in
  let calls := Multisig2Account.w_calls (j_account (jfinal happens (for_lockup2 (g_self g)) read g self j0 js)) in
  (forall p, In p (Multisig2Account.executions self s0 calls) -> Multisig2Model.p_receiver p = self ->
             Multisig2Account.keeps_guard self (Multisig2Model.p_actions p)) ->
  In (BPaid to x false) (jlog happens (for_lockup2 (g_self g)) read g self j0 js) ->
  exists p, by_quorum2 self s0 calls p /\ In (Transfer x to) (asks (for_lockup2 (g_self g)) read p).
Proof. exact paid_by_quorum2. Qed.
Print Assumptions C100_paid_by_quorum2.

(** C100. And the quorum has the use of the lockup: whatever has happened, at any time [t], what the lockup would
    accept now from its owner, one key below its limit that adds the request and as many keys as required that
    confirm it can make it accept, by their own transactions alone. *)
Theorem C100_quorum_can_use :
  forall self decode read t k s0 ks g w0 js pk0 cs name args gas m lw l,
  MultisigModel.new false k = Ok s0 -> self <> g_self g ->
  let happens := MultisigAccount.happen_obs self decode in
  let j := jfinal happens (for_lockup1 (g_self g)) read g self (mkPair (MultisigAccount.start s0 ks) w0) js in
  let a := j_account j in
  let s := MultisigAccount.w_contract a in
  let r := MultisigModel.mkRequest (g_self g) [MultisigModel.FunctionCall name args 0 gas] in
  read name args = Some (Some m) -> step_obs g (j_lockup j) (ECall self 0 m) = (lw, BCalled self m true :: l) ->
  (forall pk, In pk (pk0 :: cs) -> MultisigAccount.can_act self a pk) ->
  NoDup cs ->
  N.of_nat (List.length cs) = N.max 1 (MultisigModel.get_num_confirmations s) ->
  MultisigModel.get_num_confirmations s < U32_BOUND ->
  MultisigModel.get_num_requests_pk s pk0 + 1 <= MultisigModel.active_requests_limit s ->
  MultisigModel.get_num_requests_pk s pk0 + 1 < U32_BOUND -> MultisigModel.get_request_nonce s + 1 < U32_BOUND ->
  (exists args, decode "add_request" args = Some (MultisigModel.CAddRequest r)) ->
  (exists args, decode "confirm" args = Some (MultisigModel.CConfirm (MultisigModel.get_request_nonce s))) ->
  exists hs, Forall (MultisigAccount.by_keys (pk0 :: cs) t) hs /\
    jlog happens (for_lockup1 (g_self g)) read g self j (map JAccount hs) = BCalled self m true :: l /\
    j_lockup (jfinal happens (for_lockup1 (g_self g)) read g self j (map JAccount hs)) = lw.
Proof. exact can_use1. Qed.
Print Assumptions C100_quorum_can_use.
Theorem C100_quorum2_can_use :
  forall self decode read t ms k s0 p0 ks key g w0 js m0 cs name args gas m lw l,
  Multisig2Model.new self false ms k = Ok (s0, p0) -> self <> g_self g ->
  let happens := Multisig2Account.happen_obs self decode in
  let j := jfinal happens (for_lockup2 (g_self g)) read g self (mkPair (Multisig2Account.start s0 p0 ks key) w0) js in
  let a := j_account j in
  let s := Multisig2Account.w_contract a in
  let r := Multisig2Model.mkRequest (g_self g) [Multisig2Model.FunctionCall name args 0 gas] in
  read name args = Some (Some m) -> step_obs g (j_lockup j) (ECall self 0 m) = (lw, BCalled self m true :: l) ->
  (forall m, In m (m0 :: cs) -> In m (Multisig2Model.get_members s) /\ Multisig2Account.can_act self a m) ->
  NoDup cs ->
  N.of_nat (List.length cs) = N.max 1 (Multisig2Model.get_num_confirmations s) ->
  Multisig2Model.get_num_confirmations s < U32_BOUND ->
  Multisig2Model.get_num_requests_per_member s m0 + 1 <= Multisig2Model.active_requests_limit s ->
  Multisig2Model.get_num_requests_per_member s m0 + 1 < U32_BOUND -> Multisig2Model.get_request_nonce s + 1 < U32_BOUND ->
  (exists args, decode "add_request" args = Some (Multisig2Model.CAddRequest r)) ->
  (exists args, decode "confirm" args = Some (Multisig2Model.CConfirm (Multisig2Model.get_request_nonce s))) ->
  exists hs, Forall (Multisig2Account.by_members (m0 :: cs) t) hs /\
    jlog happens (for_lockup2 (g_self g)) read g self j (map JAccount hs) = BCalled self m true :: l /\
    j_lockup (jfinal happens (for_lockup2 (g_self g)) read g self j (map JAccount hs)) = lw.
Proof. exact can_use2. Qed.
Print Assumptions C100_quorum2_can_use.

(** A lockup past its time, owned by a 2-of-3 multisig. A stranger tries to pay themself out of the lockup, one key
    tries alone, then two keys confirm a payment to a friend: it is made. *)
Definition me : account_id := "owner.near".
Definition keys3 : umap public_key MultisigAccount.access :=
  map (fun pk => (pk, MultisigAccount.CallAccess me ["add_request"; "delete_request"; "confirm"])) ["k1"; "k2"; "k3"].
Definition x : N := 10 * LockupProps.near.
Definition gift : MultisigModel.request :=
  MultisigModel.mkRequest "lock.near" [MultisigModel.FunctionCall "transfer" "ten to friend" 0 0].
Definition decode (m args : string) : option MultisigModel.call :=
  if String.eqb m "add_request" then Some (MultisigModel.CAddRequest gift)
  else if String.eqb m "confirm" then Some (MultisigModel.CConfirm 0) else None.
Definition read (m args : string) : option (option call) :=
  if String.eqb m "transfer" then Some (Some (Transfer x "friend.near"))
  else if String.eqb m "get_balance" then Some None else None.
Definition tx (pk m : string) : MultisigAccount.happening :=
  MultisigAccount.HTx pk me [MultisigModel.BFunctionCall m "" 0 0].
Definition before : list jevent :=
  [JLockup (ETime 60); JLockup (ECall "eve.near" 0 (Transfer x "eve.near"));
   JAccount (MultisigAccount.HTx "k2" "lock.near" [MultisigModel.BFunctionCall "transfer" "" 0 0]);
   JLockup (ECall me 0 (Transfer x "eve.near"))].
Definition story : list jevent :=
  before ++
  map JAccount [tx "k1" "add_request"; MultisigAccount.HDeliver 0 1; tx "k1" "confirm"; tx "k3" "confirm";
                MultisigAccount.HDeliver 1 2; MultisigAccount.HDeliver 0 3; MultisigAccount.HDeliver 0 4] ++
  [JLockup (EDeliver 0 ODone)].
Example C100_applies :
  exists s0, MultisigModel.new false 2 = Ok s0 /\ NoDup (mkeys keys3) /\
  (forall pk a, mget pk keys3 = Some a -> MultisigAccount.limited me a) /\
  starts LockupProps.gen LockupProps.w3 /\ owner_account_id (w_lockup LockupProps.w3) = me /\ me <> g_self LockupProps.gen /\
  let happens := MultisigAccount.happen_obs me decode in
  let j0 := mkPair (MultisigAccount.start s0 keys3) LockupProps.w3 in
  let calls := MultisigAccount.w_calls
                 (j_account (jfinal happens (for_lockup1 "lock.near") read LockupProps.gen me j0 story)) in
  (forall p, In p (MultisigAccount.executions me s0 calls) -> MultisigModel.p_receiver p = me ->
             MultisigAccount.keeps_guard me (MultisigModel.p_actions p)) /\
  jlog happens (for_lockup1 "lock.near") read LockupProps.gen me j0 story =
    [BCalled "eve.near" (Transfer x "eve.near") false; BCalled me (Transfer x "friend.near") true;
     BSent (RTransfer "friend.near" x); BPaid "friend.near" x false].
Proof.
  eexists. split; [reflexivity|]. split; [repeat constructor; cbn; intuition discriminate|]. split.
  { intros pk a. cbn [keys3 map mget]. do 3 (destruct (keqb _ _); [intros E; injection E as <-; eexists; reflexivity|]).
    discriminate. }
  split; [apply LockupProps.C47_private_schedule_must_be_covered|]. split; [reflexivity|]. split; [discriminate|].
  cbv zeta. split; [|vm_compute; reflexivity].
  intros p I. vm_compute in I. destruct I as [<-|[]]. discriminate.
Qed.
Example C100_can_use_applies :
  exists s0, MultisigModel.new false 2 = Ok s0 /\
  let j := jfinal (MultisigAccount.happen_obs me decode) (for_lockup1 "lock.near") read LockupProps.gen me
             (mkPair (MultisigAccount.start s0 keys3) LockupProps.w3) before in
  let s := MultisigAccount.w_contract (j_account j) in
  read "transfer" "ten to friend" = Some (Some (Transfer x "friend.near")) /\
  (exists lw, step_obs LockupProps.gen (j_lockup j) (ECall me 0 (Transfer x "friend.near")) =
     (lw, [BCalled me (Transfer x "friend.near") true; BSent (RTransfer "friend.near" x)])) /\
  (forall pk, In pk ["k2"; "k1"; "k3"] -> MultisigAccount.can_act me (j_account j) pk) /\
  N.of_nat (List.length ["k1"; "k3"]) = N.max 1 (MultisigModel.get_num_confirmations s) /\
  MultisigModel.get_num_requests_pk s "k2" + 1 <= MultisigModel.active_requests_limit s /\
  decode "add_request" "" = Some (MultisigModel.CAddRequest gift) /\
  decode "confirm" "" = Some (MultisigModel.CConfirm (MultisigModel.get_request_nonce s)).
Proof.
  eexists. split; [reflexivity|]. cbv zeta. split; [reflexivity|]. split; [eexists; vm_compute; reflexivity|]. split.
  { intros m I. destruct I as [<-|[<-|[<-|[]]]];
      (eexists; split; [vm_compute; reflexivity|intros args; split; reflexivity]). }
  vm_compute. repeat split; try reflexivity; discriminate.
Qed.

(** The same with the second multisig, whose third member is an account. *)
Definition gift2 : Multisig2Model.request :=
  Multisig2Model.mkRequest "lock.near" [Multisig2Model.FunctionCall "transfer" "ten to friend" 0 0].
Definition ms3 : list Multisig2Model.member :=
  [Multisig2Model.AccessKey "k1"; Multisig2Model.AccessKey "k2"; Multisig2Model.Account "carol.near"].
Definition decode2 (m args : string) : option Multisig2Model.call :=
  if String.eqb m "add_request" then Some (Multisig2Model.CAddRequest gift2)
  else if String.eqb m "confirm" then Some (Multisig2Model.CConfirm 0) else None.
Definition tx2 (pk m : string) : Multisig2Account.happening :=
  Multisig2Account.HTx pk me [Multisig2Model.BFunctionCall m "" 0 0].
Definition before2 : list jevent :=
  [JAccount (Multisig2Account.HDeliver 0 1); JLockup (ETime 60); JLockup (ECall "eve.near" 0 (Transfer x "eve.near"));
   JAccount (Multisig2Account.HTx "k2" "lock.near" [Multisig2Model.BFunctionCall "transfer" "" 0 0])].
Definition story2 : list jevent :=
  before2 ++
  map JAccount [tx2 "k1" "add_request"; Multisig2Account.HDeliver 0 2; tx2 "k1" "confirm"; Multisig2Account.HDeliver 0 3;
                Multisig2Account.HCall "carol.near" "kc" 0 4 (Multisig2Model.CConfirm 0); Multisig2Account.HDeliver 0 5] ++
  [JLockup (EDeliver 0 ODone)].
Example C100_applies2 :
  exists s0 p0, Multisig2Model.new me false ms3 2 = Ok (s0, p0) /\
  starts LockupProps.gen LockupProps.w3 /\ owner_account_id (w_lockup LockupProps.w3) = me /\ me <> g_self LockupProps.gen /\
  let happens := Multisig2Account.happen_obs me decode2 in
  let j0 := mkPair (Multisig2Account.start s0 p0 [] "kd") LockupProps.w3 in
  let calls := Multisig2Account.w_calls
                 (j_account (jfinal happens (for_lockup2 "lock.near") read LockupProps.gen me j0 story2)) in
  (forall p, In p (Multisig2Account.executions me s0 calls) -> Multisig2Model.p_receiver p = me ->
             Multisig2Account.keeps_guard me (Multisig2Model.p_actions p)) /\
  jlog happens (for_lockup2 "lock.near") read LockupProps.gen me j0 story2 =
    [BCalled "eve.near" (Transfer x "eve.near") false; BCalled me (Transfer x "friend.near") true;
     BSent (RTransfer "friend.near" x); BPaid "friend.near" x false].
Proof.
  do 2 eexists. split; [vm_compute; reflexivity|].
  split; [apply LockupProps.C47_private_schedule_must_be_covered|]. split; [reflexivity|]. split; [discriminate|].
  cbv zeta. split; [|vm_compute; reflexivity].
  intros p I. vm_compute in I. destruct I as [<-|[]]. discriminate.
Qed.
Example C100_can_use_applies2 :
  exists s0 p0, Multisig2Model.new me false ms3 2 = Ok (s0, p0) /\
  let j := jfinal (Multisig2Account.happen_obs me decode2) (for_lockup2 "lock.near") read LockupProps.gen me
             (mkPair (Multisig2Account.start s0 p0 [] "kd") LockupProps.w3) before2 in
  let s := Multisig2Account.w_contract (j_account j) in
  (exists lw, step_obs LockupProps.gen (j_lockup j) (ECall me 0 (Transfer x "friend.near")) =
     (lw, [BCalled me (Transfer x "friend.near") true; BSent (RTransfer "friend.near" x)])) /\
  (forall m, In m [Multisig2Model.AccessKey "k2"; Multisig2Model.AccessKey "k1"; Multisig2Model.Account "carol.near"] ->
     In m (Multisig2Model.get_members s) /\ Multisig2Account.can_act me (j_account j) m) /\
  N.of_nat (List.length [Multisig2Model.AccessKey "k1"; Multisig2Model.Account "carol.near"]) =
    N.max 1 (Multisig2Model.get_num_confirmations s) /\
  Multisig2Model.get_num_requests_per_member s (Multisig2Model.AccessKey "k2") + 1 <= Multisig2Model.active_requests_limit s /\
  decode2 "add_request" "" = Some (Multisig2Model.CAddRequest gift2) /\
  decode2 "confirm" "" = Some (Multisig2Model.CConfirm (Multisig2Model.get_request_nonce s)).
Proof.
  do 2 eexists. split; [vm_compute; reflexivity|]. cbv zeta. split; [eexists; vm_compute; reflexivity|]. split.
  { intros m I. split; [vm_compute; cbn in I; intuition|].
    destruct I as [<-|[<-|[<-|[]]]]; [| |discriminate];
      (eexists; split; [vm_compute; reflexivity|intros args; split; reflexivity]). }
  vm_compute. repeat split; try reflexivity; discriminate.
Qed.
