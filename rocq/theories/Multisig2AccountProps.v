(** What the account of the second multisig does (C90, C91): access keys and receipts included. In every
    statement [hs] is an arbitrary list of happenings: transactions signed with the account's keys, calls by
    other accounts, deliveries in any order; [decode] is any way of reading the arguments of calls. *)
From Coq Require Import NArith List Bool String Permutation.
From Verif Require Import Prelude Multisig2Model Multisig2Spec Multisig2Account Multisig2AccountProofs.
Import ListNotations.
Open Scope string_scope.
Open Scope N_scope.

(** C90. The account starts with keys that can only call the multisig (none, if the multisig factory created
    it), and no executed request deploys code or adds another kind of key to the account. Then all its keys
    stay such, and what has left or is about to leave the account for others is exactly, one for one, what
    the executed requests asked for. *)
Theorem C90_departures_are_executions :
  forall self decode ms k s0 p0 ks key hs, new self false ms k = Ok (s0, p0) ->
  NoDup (mkeys ks) -> (forall pk a, mget pk ks = Some a -> limited self a) ->
  let w0 := start s0 p0 ks key in
  let w := run self decode w0 hs in
  (forall p, In p (executions self s0 (w_calls w)) -> p_receiver p = self -> keeps_guard self (p_actions p)) ->
  w_contract w = final self s0 (w_calls w) /\
  (forall pk a, mget pk (w_keys w) = Some a -> limited self a) /\
  Permutation
    (departures self decode w0 hs ++
     filter (fun p => negb (String.eqb (p_receiver p) self)) (map rc_batch (w_flight w)))
    (filter (fun p => negb (String.eqb (p_receiver p) self)) (executions self s0 (w_calls w))).
Proof. exact departures_are_executions. Qed.
Print Assumptions C90_departures_are_executions.

(** C90. So nothing leaves the account, be it a transfer or a call, that was not asked for by a request that
    as many different members as required had confirmed, all of them members at that time. *)
Theorem C90_acts_only_by_quorum :
  forall self decode ms k s0 p0 ks key hs, new self false ms k = Ok (s0, p0) ->
  NoDup (mkeys ks) -> (forall pk a, mget pk ks = Some a -> limited self a) ->
  let w0 := start s0 p0 ks key in
  let w := run self decode w0 hs in
  (forall p, In p (executions self s0 (w_calls w)) -> p_receiver p = self -> keeps_guard self (p_actions p)) ->
  forall p, In p (departures self decode w0 hs) ->
  exists evs1 ev evs2 id l1 e0 l2 r,
    w_calls w = (evs1 ++ ev :: evs2)%list /\
    confirmed (entry_of self (final self s0 evs1) ev) = Some (id, Some p) /\
    log self s0 (evs1 ++ [ev]) = (l1 ++ e0 :: l2)%list /\
    added e0 = Some (id, r) /\ p = asked self r /\
    NoDup (confirmers (e0 :: l2) id) /\
    get_num_confirmations (final self s0 evs1) <= N.of_nat (List.length (confirmers (e0 :: l2) id)) /\
    forall e, In e (e0 :: l2) -> confirmed e <> None -> In (l_caller e) (l_members e).
Proof. exact acts_only_by_quorum. Qed.
Print Assumptions C90_acts_only_by_quorum.

(** C91. A multisig created with different members on an account without keys: once its first promise is
    delivered, every member can act. *)
Theorem C91_members_get_keys :
  forall self decode t ms k s0 p0 key m, new self false ms k = Ok (s0, p0) ->
  NoDup ms -> ~ In (Account self) ms -> In m ms ->
  can_act self (run self decode (start s0 p0 [] key) [HDeliver 0 t]) m.
Proof. exact members_get_keys. Qed.
Print Assumptions C91_members_get_keys.

(** C91. Whatever has happened and at any time [t], one member below its limit who adds the request, and as
    many different members as required who confirm it, make the account send exactly what they want, by
    their own transactions and calls alone. *)
Theorem C91_members_can_act :
  forall self decode t ms k s0 p0 ks key hs r m0 cs, new self false ms k = Ok (s0, p0) ->
  let w := run self decode (start s0 p0 ks key) hs in
  let s := w_contract w in
  executable self s r -> receiver_id r <> self ->
  (forall m, In m (m0 :: cs) -> In m (get_members s) /\ can_act self w m) ->
  NoDup cs ->
  N.of_nat (List.length cs) = N.max 1 (get_num_confirmations s) ->
  get_num_confirmations s < U32_BOUND ->
  get_num_requests_per_member s m0 + 1 <= active_requests_limit s ->
  get_num_requests_per_member s m0 + 1 < U32_BOUND -> get_request_nonce s + 1 < U32_BOUND ->
  (exists args, decode "add_request" args = Some (CAddRequest r)) ->
  (exists args, decode "confirm" args = Some (CConfirm (get_request_nonce s))) ->
  exists hs2, Forall (by_members (m0 :: cs) t) hs2 /\ departures self decode w hs2 = [asked self r].
Proof. exact members_can_act. Qed.
Print Assumptions C91_members_can_act.

(** C91: why the members must be different. With one key listed twice the batch that installs the keys
    fails as a whole; if all members are keys, nobody can ever do anything with the account again. *)
Theorem C91_repeated_key_locks_out :
  forall self decode ms k s0 p0 key pk ms1 ms2 ms3, new self false ms k = Ok (s0, p0) ->
  ms = (ms1 ++ AccessKey pk :: ms2 ++ AccessKey pk :: ms3)%list -> (forall a, ~ In (Account a) ms) ->
  forall hs, departures self decode (start s0 p0 [] key) hs = [] /\
             w_contract (run self decode (start s0 p0 [] key) hs) = s0.
Proof. exact repeated_key_locks_out. Qed.
Print Assumptions C91_repeated_key_locks_out.

(** A 2-of-3 multisig: the keys are installed, [k1] adds a payment, [k1] and [carol.near] confirm it, and the
    payment leaves; a key tries to send on its own and cannot. *)
Definition me : account_id := "multi.near".
Definition ms3 : list member := [AccessKey "k1"; AccessKey "k2"; Account "carol.near"].
Definition pay : request := mkRequest "bob.near" [Transfer 5].
Definition read (m args : string) : option call :=
  if String.eqb m "add_request" then Some (CAddRequest pay)
  else if String.eqb m "confirm" then Some (CConfirm 0) else None.
Definition story : list happening :=
  [HDeliver 0 1; HTx "k2" "bob.near" [BTransfer 7]; HTx "k2" me [BFunctionCall "add_request_and_confirm" "" 0 0];
   HTx "k1" me [BFunctionCall "add_request" "" 0 0]; HDeliver 0 2;
   HTx "k1" me [BFunctionCall "confirm" "" 0 0]; HDeliver 0 3; HCall "carol.near" "kc" 0 4 (CConfirm 0);
   HDeliver 0 5].
Example C90_applies :
  exists s0 p0, new me false ms3 2 = Ok (s0, p0) /\
  departures me read (start s0 p0 [] "kd") story = [mkPromise "bob.near" [BTransfer 5]] /\
  executions me s0 (w_calls (run me read (start s0 p0 [] "kd") story)) = [mkPromise "bob.near" [BTransfer 5]] /\
  mkeys (w_keys (run me read (start s0 p0 [] "kd") story)) = ["k1"; "k2"].
Proof. do 2 eexists. split; [vm_compute; reflexivity|]. vm_compute. auto. Qed.
Example C91_applies :
  exists s0 p0, new me false ms3 2 = Ok (s0, p0) /\
  let w := run me read (start s0 p0 [] "kd") (firstn 3 story) in
  executable me (w_contract w) pay /\ receiver_id pay <> me /\
  (forall m, In m [AccessKey "k2"; AccessKey "k1"; Account "carol.near"] ->
     In m (get_members (w_contract w)) /\ can_act me w m) /\
  N.of_nat (List.length [AccessKey "k1"; Account "carol.near"]) = N.max 1 (get_num_confirmations (w_contract w)) /\
  get_num_requests_per_member (w_contract w) (AccessKey "k2") + 1 <= active_requests_limit (w_contract w) /\
  read "add_request" "" = Some (CAddRequest pay) /\
  read "confirm" "" = Some (CConfirm (get_request_nonce (w_contract w))).
Proof.
  do 2 eexists. split; [vm_compute; reflexivity|]. cbv zeta. split.
  { split; [discriminate|]. split; [discriminate|]. intros [|a [|b l1]] m l2 E; discriminate E. }
  split; [discriminate|]. split.
  { intros m I. split; [vm_compute; cbn in I; intuition|].
    destruct I as [<-|[<-|[<-|[]]]]; [| |discriminate];
      (eexists; split; [vm_compute; reflexivity|intros args; split; reflexivity]). }
  vm_compute. repeat split; try reflexivity; discriminate.
Qed.
Example C91_lock_out_applies :
  exists s0 p0, new me false [AccessKey "k1"; AccessKey "k2"; AccessKey "k1"] 2 = Ok (s0, p0) /\
  w_keys (run me read (start s0 p0 [] "kd") [HDeliver 0 1]) = [].
Proof. do 2 eexists. split; [vm_compute; reflexivity|reflexivity]. Qed.
