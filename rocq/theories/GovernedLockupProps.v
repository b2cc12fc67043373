(** A lockup governed by an account that a multisig guards, as its owner (C100) or as its foundation (C106). In every
    statement [js] is an arbitrary history of both: transactions and deliveries at the governing account, the delivery of
    what it sent in any order or never, calls of the lockup by anybody else, its messages, time. *)
From Coq Require Import NArith List Bool String Permutation.
From Verif Require Import Prelude LockupModel LockupWorld LockupSpec LockupFacts OwnedLockup Governed GovernedLockup GovernedLockupProofs.
From Verif Require MultisigModel MultisigSpec MultisigAccount Multisig2Model Multisig2Spec Multisig2Account LockupProps OwnedLockupProps
  FoundationProps.
Import ListNotations.
Open Scope string_scope.
Open Scope N_scope.

(** C100. As C100_multisig, but what leaves the owner's account is on its way until it reaches the lockup, and may arrive in
    any order or never: the lockup goes through a history of its own; the owner's accepted calls are, in order, the calls
    of batches that left the account, each at most once and each confirmed by the quorum; and each payment out of the
    lockup is covered by one of those calls. *)
Theorem C100_in_flight :
  forall self decode read k s0 ks g w0 js,
  MultisigModel.new false k = Ok s0 ->
  NoDup (mkeys ks) -> (forall pk a, mget pk ks = Some a -> MultisigAccount.limited self a) ->
  starts g w0 -> owner_account_id (w_lockup w0) = self -> self <> g_self g ->
  let happens := MultisigAccount.happen_obs self decode in
  let j0 := mkState (MultisigAccount.start s0 ks) [] w0 in
  let fin := gfinal happens (for_lockup1 (g_self g)) read (step g) (lockup_accepted g) lockup_pays (lockup_calls self) (lockup_said self) in
  let evs := gevents happens (for_lockup1 (g_self g)) read (step g) (lockup_accepted g) lockup_pays (lockup_calls self) (lockup_said self) in
  let seen := log g w0 (evs j0 js) in
  let calls := MultisigAccount.w_calls (g_account (fin j0 js)) in
  let wanted := asking (for_lockup1 (g_self g)) read in
  (forall p, In p (MultisigAccount.executions self s0 calls) -> MultisigModel.p_receiver p = self ->
             MultisigAccount.keeps_guard self (MultisigModel.p_actions p)) ->
  g_contract (fin j0 js) = final g w0 (evs j0 js) /\
  exists done rest,
    owner_calls self seen = flat_map wanted done /\
    Permutation (done ++ rest)%list (MultisigAccount.departures self decode (MultisigAccount.start s0 ks) (at_account js)) /\
    (forall p, In p done -> by_quorum1 self s0 ks calls p) /\
    (forall to x, (payouts to x seen <= orders to x (flat_map wanted done))%nat) /\
    forall to x, In (BPaid to x false) seen -> exists p, by_quorum1 self s0 ks calls p /\ In (Transfer x to) (wanted p).
Proof. exact owned_late1. Qed.
Print Assumptions C100_in_flight.

(** C100. The same for the second multisig. *)
Theorem C100_in_flight2 :
  forall self decode read ms k s0 p0 ks key g w0 js,
  Multisig2Model.new self false ms k = Ok (s0, p0) ->
  NoDup (mkeys ks) -> (forall pk a, mget pk ks = Some a -> Multisig2Account.limited self a) ->
  starts g w0 -> owner_account_id (w_lockup w0) = self -> self <> g_self g ->
  let happens := Multisig2Account.happen_obs self decode in
  let j0 := mkState (Multisig2Account.start s0 p0 ks key) [] w0 in
  let fin := gfinal happens (for_lockup2 (g_self g)) read (step g) (lockup_accepted g) lockup_pays (lockup_calls self) (lockup_said self) in
  let evs := gevents happens (for_lockup2 (g_self g)) read (step g) (lockup_accepted g) lockup_pays (lockup_calls self) (lockup_said self) in
  let seen := log g w0 (evs j0 js) in
  let calls := Multisig2Account.w_calls (g_account (fin j0 js)) in
  let wanted := asking (for_lockup2 (g_self g)) read in
  (forall p, In p (Multisig2Account.executions self s0 calls) -> Multisig2Model.p_receiver p = self ->
             Multisig2Account.keeps_guard self (Multisig2Model.p_actions p)) ->
  g_contract (fin j0 js) = final g w0 (evs j0 js) /\
  exists done rest,
    owner_calls self seen = flat_map wanted done /\
    Permutation (done ++ rest)%list (Multisig2Account.departures self decode (Multisig2Account.start s0 p0 ks key) (at_account js)) /\
    (forall p, In p done -> by_quorum2 self s0 calls p) /\
    (forall to x, (payouts to x seen <= orders to x (flat_map wanted done))%nat) /\
    forall to x, In (BPaid to x false) seen -> exists p, by_quorum2 self s0 calls p /\ In (Transfer x to) (wanted p).
Proof. exact owned_late2. Qed.
Print Assumptions C100_in_flight2.

(** C100. Whatever is still on its way, what the lockup would accept now from its owner, one
    key below its limit that adds the request and as many keys as required that confirm it can make it accept, by their
    own transactions and the delivery of the message that they cause. *)
Theorem C100_in_flight_can_use :
  forall self decode read t k s0 ks g w0 js pk0 cs name args gas m,
  MultisigModel.new false k = Ok s0 -> self <> g_self g ->
  let happens := MultisigAccount.happen_obs self decode in
  let fin := gfinal happens (for_lockup1 (g_self g)) read (step g) (lockup_accepted g) lockup_pays (lockup_calls self) (lockup_said self) in
  let evs := gevents happens (for_lockup1 (g_self g)) read (step g) (lockup_accepted g) lockup_pays (lockup_calls self) (lockup_said self) in
  let j := fin (mkState (MultisigAccount.start s0 ks) [] w0) js in
  let a := g_account j in
  let s := MultisigAccount.w_contract a in
  let r := MultisigModel.mkRequest (g_self g) [MultisigModel.FunctionCall name args 0 gas] in
  read name args = Some (Some m) -> lockup_accepted g (g_contract j) (ECall self 0 m) = true ->
  (forall pk, In pk (pk0 :: cs) -> MultisigAccount.can_act self a pk) ->
  NoDup cs ->
  N.of_nat (List.length cs) = N.max 1 (MultisigModel.get_num_confirmations s) ->
  MultisigModel.get_num_confirmations s < U32_BOUND ->
  MultisigModel.get_num_requests_pk s pk0 + 1 <= MultisigModel.active_requests_limit s ->
  MultisigModel.get_num_requests_pk s pk0 + 1 < U32_BOUND -> MultisigModel.get_request_nonce s + 1 < U32_BOUND ->
  (exists args, decode "add_request" args = Some (MultisigModel.CAddRequest r)) ->
  (exists args, decode "confirm" args = Some (MultisigModel.CConfirm (MultisigModel.get_request_nonce s))) ->
  exists hs n, Forall (MultisigAccount.by_keys (pk0 :: cs) t) hs /\
    evs j (map GAccount hs ++ [GDeliver n tt])%list = [ECall self 0 m].
Proof. exact can_use_late1. Qed.
Print Assumptions C100_in_flight_can_use.

(** C100. The same for the second multisig. *)
Theorem C100_in_flight_can_use2 :
  forall self decode read t ms k s0 p0 ks key g w0 js m0 cs name args gas m,
  Multisig2Model.new self false ms k = Ok (s0, p0) -> self <> g_self g ->
  let happens := Multisig2Account.happen_obs self decode in
  let fin := gfinal happens (for_lockup2 (g_self g)) read (step g) (lockup_accepted g) lockup_pays (lockup_calls self) (lockup_said self) in
  let evs := gevents happens (for_lockup2 (g_self g)) read (step g) (lockup_accepted g) lockup_pays (lockup_calls self) (lockup_said self) in
  let j := fin (mkState (Multisig2Account.start s0 p0 ks key) [] w0) js in
  let a := g_account j in
  let s := Multisig2Account.w_contract a in
  let r := Multisig2Model.mkRequest (g_self g) [Multisig2Model.FunctionCall name args 0 gas] in
  read name args = Some (Some m) -> lockup_accepted g (g_contract j) (ECall self 0 m) = true ->
  (forall m, In m (m0 :: cs) -> In m (Multisig2Model.get_members s) /\ Multisig2Account.can_act self a m) ->
  NoDup cs ->
  N.of_nat (List.length cs) = N.max 1 (Multisig2Model.get_num_confirmations s) ->
  Multisig2Model.get_num_confirmations s < U32_BOUND ->
  Multisig2Model.get_num_requests_per_member s m0 + 1 <= Multisig2Model.active_requests_limit s ->
  Multisig2Model.get_num_requests_per_member s m0 + 1 < U32_BOUND -> Multisig2Model.get_request_nonce s + 1 < U32_BOUND ->
  (exists args, decode "add_request" args = Some (Multisig2Model.CAddRequest r)) ->
  (exists args, decode "confirm" args = Some (Multisig2Model.CConfirm (Multisig2Model.get_request_nonce s))) ->
  exists hs n, Forall (Multisig2Account.by_members (m0 :: cs) t) hs /\
    evs j (map GAccount hs ++ [GDeliver n tt])%list = [ECall self 0 m].
Proof. exact can_use_late2. Qed.
Print Assumptions C100_in_flight_can_use2.

(** C106. As C106_multisig, with the messages of the foundation's account on their way until they arrive, in any order. *)
Theorem C106_in_flight :
  forall self decode read k s0 ks g w0 js,
  MultisigModel.new false k = Ok s0 ->
  NoDup (mkeys ks) -> (forall pk a, mget pk ks = Some a -> MultisigAccount.limited self a) ->
  starts g w0 -> foundation_account_id (w_lockup w0) = Some self -> self <> g_self g ->
  let happens := MultisigAccount.happen_obs self decode in
  let j0 := mkState (MultisigAccount.start s0 ks) [] w0 in
  let fin := gfinal happens (for_lockup1 (g_self g)) read (step g) (lockup_accepted g) lockup_pays (lockup_calls self) (lockup_said self) in
  let evs := gevents happens (for_lockup1 (g_self g)) read (step g) (lockup_accepted g) lockup_pays (lockup_calls self) (lockup_said self) in
  let seen := log g w0 (evs j0 js) in
  let calls := MultisigAccount.w_calls (g_account (fin j0 js)) in
  let quorum_asked m := exists p, by_quorum1 self s0 ks calls p /\ In m (asking (for_lockup1 (g_self g)) read p) in
  (forall p, In p (MultisigAccount.executions self s0 calls) -> MultisigModel.p_receiver p = self ->
             MultisigAccount.keeps_guard self (MultisigModel.p_actions p)) ->
  (forall who m, In (BCalled who m true) seen -> foundation_method m = true -> who = self /\ quorum_asked m) /\
  (get_termination_status (w_lockup (g_contract (fin j0 js))) <> None -> exists o, quorum_asked (TerminateVesting o)) /\
  (forall to x, In (BPaid to x true) seen -> quorum_asked (TerminationWithdraw to)).
Proof. exact foundation_late1. Qed.
Print Assumptions C106_in_flight.

(** C106. The same for the second multisig. *)
Theorem C106_in_flight2 :
  forall self decode read ms k s0 p0 ks key g w0 js,
  Multisig2Model.new self false ms k = Ok (s0, p0) ->
  NoDup (mkeys ks) -> (forall pk a, mget pk ks = Some a -> Multisig2Account.limited self a) ->
  starts g w0 -> foundation_account_id (w_lockup w0) = Some self -> self <> g_self g ->
  let happens := Multisig2Account.happen_obs self decode in
  let j0 := mkState (Multisig2Account.start s0 p0 ks key) [] w0 in
  let fin := gfinal happens (for_lockup2 (g_self g)) read (step g) (lockup_accepted g) lockup_pays (lockup_calls self) (lockup_said self) in
  let evs := gevents happens (for_lockup2 (g_self g)) read (step g) (lockup_accepted g) lockup_pays (lockup_calls self) (lockup_said self) in
  let seen := log g w0 (evs j0 js) in
  let calls := Multisig2Account.w_calls (g_account (fin j0 js)) in
  let quorum_asked m := exists p, by_quorum2 self s0 calls p /\ In m (asking (for_lockup2 (g_self g)) read p) in
  (forall p, In p (Multisig2Account.executions self s0 calls) -> Multisig2Model.p_receiver p = self ->
             Multisig2Account.keeps_guard self (Multisig2Model.p_actions p)) ->
  (forall who m, In (BCalled who m true) seen -> foundation_method m = true -> who = self /\ quorum_asked m) /\
  (get_termination_status (w_lockup (g_contract (fin j0 js))) <> None -> exists o, quorum_asked (TerminateVesting o)) /\
  (forall to x, In (BPaid to x true) seen -> quorum_asked (TerminationWithdraw to)).
Proof. exact foundation_late2. Qed.
Print Assumptions C106_in_flight2.

(** C106. And the quorum has the foundation's powers: what the lockup would accept now from its foundation, it can make it
    accept. (Nothing in this depends on which role the account plays: it is C100_in_flight_can_use.) *)
Theorem C106_quorum_can_act :
  forall self decode read t k s0 ks g w0 js pk0 cs name args gas m,
  MultisigModel.new false k = Ok s0 -> self <> g_self g ->
  let happens := MultisigAccount.happen_obs self decode in
  let fin := gfinal happens (for_lockup1 (g_self g)) read (step g) (lockup_accepted g) lockup_pays (lockup_calls self) (lockup_said self) in
  let evs := gevents happens (for_lockup1 (g_self g)) read (step g) (lockup_accepted g) lockup_pays (lockup_calls self) (lockup_said self) in
  let j := fin (mkState (MultisigAccount.start s0 ks) [] w0) js in
  let a := g_account j in
  let s := MultisigAccount.w_contract a in
  let r := MultisigModel.mkRequest (g_self g) [MultisigModel.FunctionCall name args 0 gas] in
  read name args = Some (Some m) -> lockup_accepted g (g_contract j) (ECall self 0 m) = true ->
  (forall pk, In pk (pk0 :: cs) -> MultisigAccount.can_act self a pk) ->
  NoDup cs ->
  N.of_nat (List.length cs) = N.max 1 (MultisigModel.get_num_confirmations s) ->
  MultisigModel.get_num_confirmations s < U32_BOUND ->
  MultisigModel.get_num_requests_pk s pk0 + 1 <= MultisigModel.active_requests_limit s ->
  MultisigModel.get_num_requests_pk s pk0 + 1 < U32_BOUND -> MultisigModel.get_request_nonce s + 1 < U32_BOUND ->
  (exists args, decode "add_request" args = Some (MultisigModel.CAddRequest r)) ->
  (exists args, decode "confirm" args = Some (MultisigModel.CConfirm (MultisigModel.get_request_nonce s))) ->
  exists hs n, Forall (MultisigAccount.by_keys (pk0 :: cs) t) hs /\
    evs j (map GAccount hs ++ [GDeliver n tt])%list = [ECall self 0 m].
Proof. exact can_use_late1. Qed.
Print Assumptions C106_quorum_can_act.

(** C106. The same for the second multisig. *)
Theorem C106_quorum2_can_act :
  forall self decode read t ms k s0 p0 ks key g w0 js m0 cs name args gas m,
  Multisig2Model.new self false ms k = Ok (s0, p0) -> self <> g_self g ->
  let happens := Multisig2Account.happen_obs self decode in
  let fin := gfinal happens (for_lockup2 (g_self g)) read (step g) (lockup_accepted g) lockup_pays (lockup_calls self) (lockup_said self) in
  let evs := gevents happens (for_lockup2 (g_self g)) read (step g) (lockup_accepted g) lockup_pays (lockup_calls self) (lockup_said self) in
  let j := fin (mkState (Multisig2Account.start s0 p0 ks key) [] w0) js in
  let a := g_account j in
  let s := Multisig2Account.w_contract a in
  let r := Multisig2Model.mkRequest (g_self g) [Multisig2Model.FunctionCall name args 0 gas] in
  read name args = Some (Some m) -> lockup_accepted g (g_contract j) (ECall self 0 m) = true ->
  (forall m, In m (m0 :: cs) -> In m (Multisig2Model.get_members s) /\ Multisig2Account.can_act self a m) ->
  NoDup cs ->
  N.of_nat (List.length cs) = N.max 1 (Multisig2Model.get_num_confirmations s) ->
  Multisig2Model.get_num_confirmations s < U32_BOUND ->
  Multisig2Model.get_num_requests_per_member s m0 + 1 <= Multisig2Model.active_requests_limit s ->
  Multisig2Model.get_num_requests_per_member s m0 + 1 < U32_BOUND -> Multisig2Model.get_request_nonce s + 1 < U32_BOUND ->
  (exists args, decode "add_request" args = Some (Multisig2Model.CAddRequest r)) ->
  (exists args, decode "confirm" args = Some (Multisig2Model.CConfirm (Multisig2Model.get_request_nonce s))) ->
  exists hs n, Forall (Multisig2Account.by_members (m0 :: cs) t) hs /\
    evs j (map GAccount hs ++ [GDeliver n tt])%list = [ECall self 0 m].
Proof. exact can_use_late2. Qed.
Print Assumptions C106_quorum2_can_act.

(** A lockup past its time, owned by a 2-of-3 multisig. Two keys confirm a payment; while the message is on its way a
    stranger tries, the owner's name alone achieves nothing, and time passes; then it arrives and the payment is made. *)
Module O := OwnedLockupProps.
Definition story : list (@gevent MultisigAccount.happening event unit) :=
  map GAccount [O.tx "k1" "add_request"; MultisigAccount.HDeliver 0 1; O.tx "k1" "confirm"; O.tx "k3" "confirm";
                MultisigAccount.HDeliver 1 2; MultisigAccount.HDeliver 0 3; MultisigAccount.HDeliver 0 4] ++
  [GContract (ECall "eve.near" 0 (Transfer O.x "eve.near")); GContract (ECall O.me 0 (Transfer O.x "eve.near"));
   GContract (ETime 60)].
Definition arrival : list (@gevent MultisigAccount.happening event unit) :=
  [GDeliver 0 tt; GContract (EDeliver 0 ODone)].
Example C100_in_flight_applies :
  exists s0, MultisigModel.new false 2 = Ok s0 /\ NoDup (mkeys O.keys3) /\
  (forall pk a, mget pk O.keys3 = Some a -> MultisigAccount.limited O.me a) /\
  starts LockupProps.gen LockupProps.w3 /\ owner_account_id (w_lockup LockupProps.w3) = O.me /\ O.me <> g_self LockupProps.gen /\
  let happens := MultisigAccount.happen_obs O.me O.decode in
  let j0 := mkState (MultisigAccount.start s0 O.keys3) [] LockupProps.w3 in
  let fin := gfinal happens (for_lockup1 "lock.near") O.read (step LockupProps.gen) (lockup_accepted LockupProps.gen) lockup_pays
               (lockup_calls O.me) (lockup_said O.me) in
  let evs := gevents happens (for_lockup1 "lock.near") O.read (step LockupProps.gen) (lockup_accepted LockupProps.gen) lockup_pays
               (lockup_calls O.me) (lockup_said O.me) in
  (forall p, In p (MultisigAccount.executions O.me s0 (MultisigAccount.w_calls (g_account (fin j0 (story ++ arrival)%list)))) ->
             MultisigModel.p_receiver p = O.me -> MultisigAccount.keeps_guard O.me (MultisigModel.p_actions p)) /\
  log LockupProps.gen LockupProps.w3 (evs j0 story) = [BCalled "eve.near" (Transfer O.x "eve.near") false] /\
  log LockupProps.gen LockupProps.w3 (evs j0 (story ++ arrival)%list) =
    [BCalled "eve.near" (Transfer O.x "eve.near") false; BCalled O.me (Transfer O.x "friend.near") true;
     BSent (RTransfer "friend.near" O.x); BPaid "friend.near" O.x false].
Proof.
  eexists. split; [reflexivity|]. split; [repeat constructor; cbn; intuition discriminate|]. split.
  { intros pk a. cbn [O.keys3 map mget]. do 3 (destruct (keqb _ _); [intros E; injection E as <-; eexists; reflexivity|]).
    discriminate. }
  split; [apply LockupProps.C47_private_schedule_must_be_covered|]. split; [reflexivity|]. split; [discriminate|].
  cbv zeta. split; [|split; vm_compute; reflexivity].
  intros p I. vm_compute in I. destruct I as [<-|[]]. discriminate.
Qed.
Example C100_in_flight_can_use_applies :
  exists s0, MultisigModel.new false 2 = Ok s0 /\
  let happens := MultisigAccount.happen_obs O.me O.decode in
  let fin := gfinal happens (for_lockup1 "lock.near") O.read (step LockupProps.gen) (lockup_accepted LockupProps.gen) lockup_pays
               (lockup_calls O.me) (lockup_said O.me) in
  let j := fin (mkState (MultisigAccount.start s0 O.keys3) [] LockupProps.w3) [GContract (ETime 60)] in
  let s := MultisigAccount.w_contract (g_account j) in
  O.read "transfer" "ten to friend" = Some (Some (Transfer O.x "friend.near")) /\
  lockup_accepted LockupProps.gen (g_contract j) (ECall O.me 0 (Transfer O.x "friend.near")) = true /\
  (forall pk, In pk ["k2"; "k1"; "k3"] -> MultisigAccount.can_act O.me (g_account j) pk) /\
  N.of_nat (List.length ["k1"; "k3"]) = N.max 1 (MultisigModel.get_num_confirmations s) /\
  MultisigModel.get_num_requests_pk s "k2" + 1 <= MultisigModel.active_requests_limit s /\
  O.decode "add_request" "" = Some (MultisigModel.CAddRequest O.gift) /\
  O.decode "confirm" "" = Some (MultisigModel.CConfirm (MultisigModel.get_request_nonce s)).
Proof.
  eexists. split; [reflexivity|]. cbv zeta. split; [reflexivity|]. split; [vm_compute; reflexivity|]. split.
  { intros m I. destruct I as [<-|[<-|[<-|[]]]];
      (eexists; split; [vm_compute; reflexivity|intros args; split; reflexivity]). }
  vm_compute. repeat split; try reflexivity; discriminate.
Qed.

(** A vesting whose foundation is a 2-of-3 multisig: the termination and the withdrawal are confirmed and on their way
    together. The withdrawal that overtakes the termination is refused, and lost. *)
Module F := FoundationProps.
Definition story_f : list (@gevent MultisigAccount.happening event unit) :=
  [GContract (ETime 50)] ++ map GAccount (F.two_confirm "terminate_vesting" "first" ++ F.two_confirm "termination_withdraw" "second") ++
  [GDeliver 1 tt; GDeliver 0 tt].
Example C106_in_flight_applies :
  exists s0, MultisigModel.new false 2 = Ok s0 /\ NoDup (mkeys F.keys3) /\
  (forall pk a, mget pk F.keys3 = Some a -> MultisigAccount.limited F.me a) /\
  starts LockupProps.gen LockupProps.w1 /\ foundation_account_id (w_lockup LockupProps.w1) = Some F.me /\
  F.me <> g_self LockupProps.gen /\
  let happens := MultisigAccount.happen_obs F.me F.decode in
  let j0 := mkState (MultisigAccount.start s0 F.keys3) [] LockupProps.w1 in
  let fin := gfinal happens (for_lockup1 "lock.near") F.read (step LockupProps.gen) (lockup_accepted LockupProps.gen) lockup_pays
               (lockup_calls F.me) (lockup_said F.me) in
  let evs := gevents happens (for_lockup1 "lock.near") F.read (step LockupProps.gen) (lockup_accepted LockupProps.gen) lockup_pays
               (lockup_calls F.me) (lockup_said F.me) in
  (forall p, In p (MultisigAccount.executions F.me s0 (MultisigAccount.w_calls (g_account (fin j0 story_f)))) ->
             MultisigModel.p_receiver p = F.me -> MultisigAccount.keeps_guard F.me (MultisigModel.p_actions p)) /\
  get_termination_status (w_lockup (g_contract (fin j0 story_f))) = Some ReadyToWithdraw /\
  log LockupProps.gen LockupProps.w1 (evs j0 story_f) = [BCalled F.me (TerminateVesting None) true].
Proof.
  eexists. split; [reflexivity|]. split; [repeat constructor; cbn; intuition discriminate|]. split.
  { intros pk a. cbn [F.keys3 map mget]. do 3 (destruct (keqb _ _); [intros E; injection E as <-; eexists; reflexivity|]).
    discriminate. }
  split; [exact LockupProps.starts_w1|]. split; [reflexivity|]. split; [discriminate|].
  cbv zeta. split; [|split; vm_compute; reflexivity].
  intros p I. vm_compute in I. destruct I as [<-|[<-|[]]]; discriminate.
Qed.
Definition decode_stop (m args : string) : option MultisigModel.call :=
  if String.eqb m "add_request" then Some (MultisigModel.CAddRequest (F.call_lockup "terminate_vesting"))
  else if String.eqb m "confirm" then Some (MultisigModel.CConfirm 0) else None.
Example C106_can_act_applies :
  exists s0, MultisigModel.new false 2 = Ok s0 /\
  let happens := MultisigAccount.happen_obs F.me decode_stop in
  let fin := gfinal happens (for_lockup1 "lock.near") F.read (step LockupProps.gen) (lockup_accepted LockupProps.gen) lockup_pays
               (lockup_calls F.me) (lockup_said F.me) in
  let j := fin (mkState (MultisigAccount.start s0 F.keys3) [] LockupProps.w1) [GContract (ETime 50)] in
  let s := MultisigAccount.w_contract (g_account j) in
  F.read "terminate_vesting" "" = Some (Some (TerminateVesting None)) /\
  lockup_accepted LockupProps.gen (g_contract j) (ECall F.me 0 (TerminateVesting None)) = true /\
  lockup_accepted LockupProps.gen (g_contract j) (ECall "owner.near" 0 (TerminateVesting None)) = false /\
  (forall pk, In pk ["k2"; "k1"; "k3"] -> MultisigAccount.can_act F.me (g_account j) pk) /\
  N.of_nat (List.length ["k1"; "k3"]) = N.max 1 (MultisigModel.get_num_confirmations s) /\
  MultisigModel.get_num_requests_pk s "k2" + 1 <= MultisigModel.active_requests_limit s /\
  decode_stop "add_request" "" = Some (MultisigModel.CAddRequest (F.call_lockup "terminate_vesting")) /\
  decode_stop "confirm" "" = Some (MultisigModel.CConfirm (MultisigModel.get_request_nonce s)).
Proof.
  eexists. split; [reflexivity|]. cbv zeta. split; [reflexivity|]. split; [vm_compute; reflexivity|].
  split; [vm_compute; reflexivity|]. split.
  { intros m I. destruct I as [<-|[<-|[<-|[]]]];
      (eexists; split; [vm_compute; reflexivity|intros args; split; reflexivity]). }
  vm_compute. repeat split; try reflexivity; discriminate.
Qed.
