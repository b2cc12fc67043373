(** What the account of the multisig does (C92, C93): access keys and receipts included. In every statement
    [hs] is an arbitrary list of happenings: transactions signed with the account's keys, calls by other
    accounts, deliveries in any order; [decode] is any way of reading the arguments of calls. *)
From Coq Require Import NArith List Bool String Permutation.
From Verif Require Import Prelude MultisigModel MultisigSpec MultisigAccount MultisigAccountProofs.
Import ListNotations.
Open Scope string_scope.
Open Scope N_scope.

(** C92. The account starts with keys that can only call the multisig, and no executed request deploys code
    or adds another kind of key to the account. Then all its keys stay such, and what has left or is about
    to leave the account for others is exactly, one for one, what the executed requests asked for. *)
Theorem C92_departures_are_executions :
  forall self decode k s0 ks hs, new false k = Ok s0 ->
  NoDup (mkeys ks) -> (forall pk a, mget pk ks = Some a -> limited self a) ->
  let w0 := start s0 ks in
  let w := run self decode w0 hs in
  (forall p, In p (executions self s0 (w_calls w)) -> p_receiver p = self -> keeps_guard self (p_actions p)) ->
  w_contract w = final self s0 (w_calls w) /\
  (forall pk a, mget pk (w_keys w) = Some a -> limited self a) /\
  Permutation
    (departures self decode w0 hs ++
     filter (fun p => negb (String.eqb (p_receiver p) self)) (map rc_batch (w_flight w)))
    (filter (fun p => negb (String.eqb (p_receiver p) self)) (executions self s0 (w_calls w))).
Proof. exact departures_are_executions. Qed.
Print Assumptions C92_departures_are_executions.

(** C92. So nothing leaves the account, be it a transfer or a call, that was not asked for by a request that
    as many different keys as required had confirmed; each of them was on the account from the start or
    was added to it by a request executed before. *)
Theorem C92_acts_only_by_quorum :
  forall self decode k s0 ks hs, new false k = Ok s0 ->
  NoDup (mkeys ks) -> (forall pk a, mget pk ks = Some a -> limited self a) ->
  let w0 := start s0 ks in
  let w := run self decode w0 hs in
  (forall p, In p (executions self s0 (w_calls w)) -> p_receiver p = self -> keeps_guard self (p_actions p)) ->
  forall p, In p (departures self decode w0 hs) ->
  exists evs1 ev evs2 id l1 e0 l2 r,
    w_calls w = (evs1 ++ ev :: evs2)%list /\
    confirmed (ev, outcome self (final self s0 evs1) ev) = Some (id, Some p) /\
    log self s0 (evs1 ++ [ev]) = (l1 ++ e0 :: l2)%list /\
    added e0 = Some (id, r) /\ p = asked r /\
    NoDup (confirmers (e0 :: l2) id) /\
    get_num_confirmations (final self s0 evs1) <= N.of_nat (List.length (confirmers (e0 :: l2) id)) /\
    forall pk, In pk (confirmers (e0 :: l2) id) ->
      In pk (mkeys ks) \/ In pk (added_keys self (executions self s0 evs1)).
Proof. exact acts_only_by_quorum. Qed.
Print Assumptions C92_acts_only_by_quorum.

(** C93. Whatever has happened and at any time [t], one key below its limit that adds the request, and as
    many different keys as required that confirm it, make the account send exactly what they want, by their
    own transactions alone. *)
Theorem C93_keys_can_act :
  forall self decode t k s0 ks hs r pk0 cs, new false k = Ok s0 ->
  let w := run self decode (start s0 ks) hs in
  let s := w_contract w in
  executable self r -> receiver_id r <> self ->
  (forall pk, In pk (pk0 :: cs) -> can_act self w pk) ->
  NoDup cs ->
  N.of_nat (List.length cs) = N.max 1 (get_num_confirmations s) ->
  get_num_confirmations s < U32_BOUND ->
  get_num_requests_pk s pk0 + 1 <= active_requests_limit s ->
  get_num_requests_pk s pk0 + 1 < U32_BOUND -> get_request_nonce s + 1 < U32_BOUND ->
  (exists args, decode "add_request" args = Some (CAddRequest r)) ->
  (exists args, decode "confirm" args = Some (CConfirm (get_request_nonce s))) ->
  exists hs2, Forall (by_keys (pk0 :: cs) t) hs2 /\ departures self decode w hs2 = [asked r].
Proof. exact keys_can_act. Qed.
Print Assumptions C93_keys_can_act.

(** A 2-of-3 multisig: [k1] adds a payment, [k1] and [k3] confirm it, and the payment leaves; [k2] tries to
    send on its own, a stranger calls, and nothing comes of it. *)
Definition me : account_id := "multi.near".
Definition keys3 : umap public_key access :=
  map (fun pk => (pk, CallAccess me ["add_request"; "delete_request"; "confirm"])) ["k1"; "k2"; "k3"].
Definition pay : request := mkRequest "bob.near" [Transfer 5].
Definition read (m args : string) : option call :=
  if String.eqb m "add_request" then Some (CAddRequest pay)
  else if String.eqb m "confirm" then Some (CConfirm 0) else None.
Definition story : list happening :=
  [HTx "k2" "bob.near" [BTransfer 7]; HCall "eve.near" "k1" 0 1 (CAddRequestAndConfirm pay);
   HTx "k1" me [BFunctionCall "add_request" "" 0 0]; HDeliver 0 2;
   HTx "k1" me [BFunctionCall "confirm" "" 0 0]; HTx "k3" me [BFunctionCall "confirm" "" 0 0];
   HDeliver 1 3; HDeliver 0 4; HDeliver 0 5].
Example C92_applies :
  exists s0, new false 2 = Ok s0 /\ NoDup (mkeys keys3) /\
  (forall pk a, mget pk keys3 = Some a -> limited me a) /\
  departures me read (start s0 keys3) story = [mkPromise "bob.near" [BTransfer 5]] /\
  executions me s0 (w_calls (run me read (start s0 keys3) story)) = [mkPromise "bob.near" [BTransfer 5]] /\
  List.length (w_calls (run me read (start s0 keys3) story)) = 3%nat.
Proof.
  eexists. split; [reflexivity|]. split; [repeat constructor; cbn; intuition discriminate|]. split.
  { intros pk a. cbn [keys3 map mget]. do 3 (destruct (keqb _ _); [intros E; injection E as <-; eexists; reflexivity|]).
    discriminate. }
  vm_compute. auto.
Qed.
Example C93_applies :
  exists s0, new false 2 = Ok s0 /\
  let w := run me read (start s0 keys3) (firstn 2 story) in
  executable me pay /\ receiver_id pay <> me /\
  (forall pk, In pk ["k2"; "k1"; "k3"] -> can_act me w pk) /\
  N.of_nat (List.length ["k1"; "k3"]) = N.max 1 (get_num_confirmations (w_contract w)) /\
  get_num_requests_pk (w_contract w) "k2" + 1 <= active_requests_limit (w_contract w) /\
  read "add_request" "" = Some (CAddRequest pay) /\
  read "confirm" "" = Some (CConfirm (get_request_nonce (w_contract w))).
Proof.
  eexists. split; [reflexivity|]. cbv zeta. split; [split; discriminate|]. split; [discriminate|]. split.
  { intros m I. destruct I as [<-|[<-|[<-|[]]]];
      (eexists; split; [vm_compute; reflexivity|intros args; split; reflexivity]). }
  vm_compute. repeat split; try reflexivity; discriminate.
Qed.
