(** The properties of the multisig contract (C29 - C37). In every statement [evs] is an arbitrary list of
    calls, by anyone, at any times; calls that fail are part of it and change nothing. *)
From Coq Require Import NArith List Bool String.
From Verif Require Import Prelude MultisigModel MultisigSpec MultisigFacts MultisigLive.
Import ListNotations.
Open Scope string_scope.
Open Scope N_scope.

(** A concrete history of a 2-of-3 multisig: [k1] asks for a payment, a stranger fails, [k2] confirms. *)
Definition me : account_id := "multi.near".
Definition by_key (k : public_key) (t : N) (m : call) : event := mkEvent me k 0 t m.
Definition pay : request := mkRequest "bob.near" [Transfer 5; FunctionCall "f" "{}" 1 10].
Definition s2of3 : contract := mkContract 2 0 [] [] [] 12.
Definition evs_pay : list event :=
  [by_key "k1" 10 (CAddRequestAndConfirm pay); mkEvent "eve" "kx" 0 11 (CConfirm 0);
   by_key "k1" 12 (CConfirm 0)].
Definition ev_pay : event := by_key "k2" 20 (CConfirm 0).

(** C29. The promise [p] that a call schedules by executing request [id] is what the request asked for
    when it was added (entry [e0]); since then, this call included, the request was confirmed by
    [get_num_confirmations] or more keys, all different, and by at least one. *)
Theorem C29_execution_needs_quorum :
  forall self k s0 evs ev id p, new false k = Ok s0 ->
  let s := final self s0 evs in
  confirmed (ev, outcome self s ev) = Some (id, Some p) ->
  exists l1 e0 l2 r,
    log self s0 (evs ++ [ev]) = (l1 ++ e0 :: l2)%list /\
    added e0 = Some (id, r) /\ p = asked r /\
    confirmers l1 id = [] /\
    NoDup (confirmers (e0 :: l2) id) /\
    In (e_key ev) (confirmers (e0 :: l2) id) /\
    get_num_confirmations s <= N.of_nat (List.length (confirmers (e0 :: l2) id)).
Proof. exact execution_needs_quorum. Qed.
Print Assumptions C29_execution_needs_quorum.
Example C29_applies :
  new false 2 = Ok s2of3 /\
  confirmed (ev_pay, outcome me (final me s2of3 evs_pay) ev_pay) =
    Some (0, Some (mkPromise "bob.near" [BTransfer 5; BFunctionCall "f" "{}" 1 10])) /\
  confirmers (log me s2of3 (evs_pay ++ [ev_pay])) 0 = ["k1"; "k2"].
Proof. vm_compute. auto. Qed.

(** C29, the other way: a confirmation that executes nothing leaves the request short of the quorum. *)
Theorem C29_recorded_below_quorum :
  forall self k s0 evs ev id, new false k = Ok s0 ->
  let s := final self s0 evs in
  confirmed (ev, outcome self s ev) = Some (id, None) ->
  N.of_nat (List.length (confirmers (log self s0 evs) id)) < U32_BOUND ->
  N.of_nat (List.length (confirmers (log self s0 (evs ++ [ev])) id)) < get_num_confirmations s.
Proof. exact recorded_below_quorum. Qed.
Print Assumptions C29_recorded_below_quorum.

(** C29: the first confirmation of an active request by a key is accepted. *)
Theorem C29_confirmation_recorded :
  forall self k s0 evs ev id, new false k = Ok s0 ->
  let s := final self s0 evs in
  let n := N.of_nat (List.length (confirmers (log self s0 evs) id)) in
  e_call ev = CConfirm id -> e_pred ev = self -> e_attached ev = 0 ->
  In id (list_request_ids s) -> ~ In (e_key ev) (confirmers (log self s0 evs) id) ->
  n + 1 < get_num_confirmations s -> n + 1 < U32_BOUND ->
  confirmed (ev, outcome self s ev) = Some (id, None).
Proof. exact confirmation_recorded. Qed.
Print Assumptions C29_confirmation_recorded.
Definition s3of3 : contract := mkContract 3 0 [] [] [] 12.
Example C29_recorded_applies :
  let s := final me s3of3 evs_pay in
  new false 3 = Ok s3of3 /\ In 0 (list_request_ids s) /\
  confirmers (log me s3of3 evs_pay) 0 = ["k1"] /\
  confirmed (ev_pay, outcome me s ev_pay) = Some (0, None).
Proof. vm_compute. auto. Qed.

(** C30. Ids are handed out in the order 0, 1, 2, ... *)
Theorem C30_ids_in_order :
  forall self k s0 evs, new false k = Ok s0 ->
  granted (log self s0 evs) = map N.of_nat (seq 0 (N.to_nat (get_request_nonce (final self s0 evs)))).
Proof. exact ids_in_order. Qed.
Print Assumptions C30_ids_in_order.

(** C30. No id is executed twice, nor executed and deleted; such a request is gone and no call brings it
    back. *)
Theorem C30_executed_at_most_once :
  forall self k s0 evs, new false k = Ok s0 ->
  NoDup (finished (log self s0 evs)) /\
  forall id, In id (finished (log self s0 evs)) ->
    ~ In id (list_request_ids (final self s0 evs)) /\
    is_ok (get_request (final self s0 evs) id) = false /\
    forall ev, e_call ev = CConfirm id \/ e_call ev = CDeleteRequest id ->
      outcome self (final self s0 evs) ev = None.
Proof. exact finished_once. Qed.
Print Assumptions C30_executed_at_most_once.
Definition evs_more : list event :=
  (evs_pay ++ [ev_pay; by_key "k3" 30 (CAddRequest pay); by_key "k3" 31 (CConfirm 0);
               by_key "k1" 900000000031 (CDeleteRequest 1); by_key "k2" 900000000032 (CAddRequest pay)])%list.
Example C30_applies :
  granted (log me s2of3 evs_more) = [0; 1; 2] /\ finished (log me s2of3 evs_more) = [0; 1] /\
  list_request_ids (final me s2of3 evs_more) = [2].
Proof. vm_compute. auto. Qed.

(** C31. The counter of a key is the number of active requests the key created. *)
Theorem C31_counters_exact :
  forall self k s0 evs pk, new false k = Ok s0 ->
  get_num_requests_pk (final self s0 evs) pk =
  N.of_nat (List.length (filter (fun id => match creator (log self s0 evs) id with
                                           | Some pk' => String.eqb pk' pk
                                           | None => false end)
                                (list_request_ids (final self s0 evs)))).
Proof. exact counters_exact. Qed.
Print Assumptions C31_counters_exact.

(** C31. Adding is accepted exactly within the limit in force. *)
Theorem C31_add_accepted_iff :
  forall self s ev r, e_call ev = CAddRequest r ->
  (outcome self s ev <> None <->
   e_pred ev = self /\ e_attached ev = 0 /\
   get_num_requests_pk s (e_key ev) + 1 <= active_requests_limit s /\
   get_num_requests_pk s (e_key ev) + 1 < U32_BOUND /\ get_request_nonce s + 1 < U32_BOUND).
Proof. exact add_accepted_iff. Qed.
Print Assumptions C31_add_accepted_iff.
Definition evs_12 : list event := repeat (by_key "k1" 5 (CAddRequest pay)) 13.
Example C31_applies :
  get_num_requests_pk (final me s2of3 evs_12) "k1" = 12 /\
  outcome me (final me s2of3 evs_12) (by_key "k1" 6 (CAddRequest pay)) = None /\
  outcome me (final me s2of3 evs_12) (by_key "k2" 6 (CAddRequest pay)) = Some (OAdded 12).
Proof. vm_compute. auto. Qed.

(** C32. A request is active exactly when it has a confirmation set, which holds those who confirmed. *)
Theorem C32_requests_and_confirmations :
  forall self k s0 evs id, new false k = Ok s0 ->
  (In id (list_request_ids (final self s0 evs)) <->
   get_confirmations (final self s0 evs) id = Ok (confirmers (log self s0 evs) id)).
Proof. exact requests_and_confirmations. Qed.
Print Assumptions C32_requests_and_confirmations.

(** C32. No call ever fails with an internal error. *)
Theorem C32_no_internal_error :
  forall self k s0 evs ev m, new false k = Ok s0 ->
  exec (ctx_of self ev) (final self s0 evs) (e_call ev) = Panic m -> ~ internal_error m.
Proof. exact no_internal_error. Qed.
Print Assumptions C32_no_internal_error.
Example C32_applies :
  get_confirmations (final me s2of3 evs_pay) 0 = Ok ["k1"] /\
  exec (ctx_of me (by_key "k1" 12 (CConfirm 0))) (final me s2of3 evs_pay) (CConfirm 0) =
    Panic "Already confirmed this request with this key".
Proof. vm_compute. auto. Qed.

(** C33. A call by another account fails and changes nothing, whatever the state. *)
Theorem C33_strangers_rejected :
  forall self s ev, e_pred ev <> self -> outcome self s ev = None /\ step self s ev = s.
Proof. exact strangers_rejected. Qed.
Print Assumptions C33_strangers_rejected.
Example C33_applies :
  outcome me (final me s2of3 evs_pay) (mkEvent "eve" "k2" 0 20 (CConfirm 0)) = None /\
  outcome me (final me s2of3 evs_pay) ev_pay <> None.
Proof. vm_compute. split; [reflexivity|discriminate]. Qed.

(** C34. Deleting is accepted exactly when the request is active and more than 15 minutes old. *)
Theorem C34_delete_accepted_iff :
  forall self k s0 evs ev id, new false k = Ok s0 -> e_call ev = CDeleteRequest id ->
  let s := final self s0 evs in
  (deleted (ev, outcome self s ev) = Some id <->
   e_pred ev = self /\ e_attached ev = 0 /\ In id (list_request_ids s) /\
   exists e0 r, In e0 (log self s0 evs) /\ added e0 = Some (id, r) /\
     e_time (fst e0) + 900000000000 < U64_BOUND /\ e_time (fst e0) + 900000000000 < e_time ev).
Proof. exact delete_accepted_iff. Qed.
Print Assumptions C34_delete_accepted_iff.
Example C34_applies :
  let d t := let ev := by_key "k3" t (CDeleteRequest 0) in deleted (ev, outcome me (final me s2of3 evs_pay) ev) in
  d 900000000010 = None /\ d 900000000011 = Some 0.
Proof. vm_compute. auto. Qed.

(** C35. The settings change only when a request to the account itself, whose only action is that
    change, is executed. *)
Theorem C35_settings_only_by_execution :
  forall self k s0 evs ev, new false k = Ok s0 ->
  let s := final self s0 evs in
  let s' := step self s ev in
  get_num_confirmations s' <> get_num_confirmations s \/
  active_requests_limit s' <> active_requests_limit s ->
  exists id p e0 r, confirmed (ev, outcome self s ev) = Some (id, Some p) /\
    In e0 (log self s0 (evs ++ [ev])) /\ added e0 = Some (id, r) /\ receiver_id r = self /\
    ((exists n, actions r = [SetNumConfirmations n] /\ get_num_confirmations s' = n /\
                active_requests_limit s' = active_requests_limit s) \/
     (exists n, actions r = [SetActiveRequestsLimit n] /\ active_requests_limit s' = n /\
                get_num_confirmations s' = get_num_confirmations s)).
Proof. exact settings_only_by_execution. Qed.
Print Assumptions C35_settings_only_by_execution.

(** C35. An executed request that adds or deletes keys is addressed to the account itself, one that
    changes settings has one action; nothing is scheduled but what the request says. The third part is what
    holds of C36: when a key is deleted, the requests that key created are gone. *)
Theorem C35_executed_requests :
  forall self k s0 evs ev id p, new false k = Ok s0 ->
  let s := final self s0 evs in
  confirmed (ev, outcome self s ev) = Some (id, Some p) ->
  forall e0 r, In e0 (log self s0 (evs ++ [ev])) -> added e0 = Some (id, r) ->
  (existsb key_action (actions r) = true -> receiver_id r = self) /\
  (existsb setting_action (actions r) = true -> receiver_id r = self /\ List.length (actions r) = 1%nat) /\
  (forall pk i, In (DeleteKey pk) (actions r) -> In i (list_request_ids (step self s ev)) ->
     creator (log self s0 (evs ++ [ev])) i <> Some pk) /\
  p = asked r.
Proof. exact executed_key_requests. Qed.
Print Assumptions C35_executed_requests.
Definition evs_set : list event :=
  [by_key "k1" 10 (CAddRequestAndConfirm (mkRequest me [SetNumConfirmations 3]));
   by_key "k2" 11 (CAddRequestAndConfirm (mkRequest me [SetNumConfirmations 1; Transfer 1]));
   by_key "k3" 12 (CAddRequestAndConfirm (mkRequest "bob.near" [DeleteKey "k1"]));
   by_key "k1" 13 (CConfirm 1); by_key "k1" 14 (CConfirm 2)].
Example C35_applies :
  let ev := by_key "k3" 15 (CConfirm 0) in
  get_num_confirmations (final me s2of3 evs_set) = 2 /\
  list_request_ids (final me s2of3 evs_set) = [0; 1; 2] /\
  get_num_confirmations (step me (final me s2of3 evs_set) ev) = 3.
Proof. vm_compute. auto. Qed.

(** C36 is false of the code. [k3] confirms a payment created by [k1]; [k1] and [k2] delete [k3]; then
    [k1]'s confirmation executes the payment, although one key that still exists confirmed it and the
    quorum is two. *)
Definition evs_ghost : list event :=
  [by_key "k1" 10 (CAddRequest pay); by_key "k3" 11 (CConfirm 0);
   by_key "k1" 12 (CAddRequestAndConfirm (mkRequest me [DeleteKey "k3"])); by_key "k2" 13 (CConfirm 1)].
Theorem C36_deleted_key_still_counts_refuted :
  exists self k s0 evs ev id p, new false k = Ok s0 /\
  let s := final self s0 evs in
  confirmed (ev, outcome self s ev) = Some (id, Some p) /\
  N.of_nat (List.length (filter (fun pk => negb (smem pk (deleted_keys self (log self s0 evs))))
                           (confirmers (log self s0 (evs ++ [ev])) id)))
  < get_num_confirmations s.
Proof.
  exists me, 2, s2of3, evs_ghost, (by_key "k1" 14 (CConfirm 0)), 0, (asked pay).
  vm_compute. auto.
Qed.
Print Assumptions C36_deleted_key_still_counts_refuted.

(** C36, the part that holds: deleting a key removes the requests it created. *)
Theorem C36_deleted_key_requests_dropped :
  forall self k s0 evs ev id p pk e0 r, new false k = Ok s0 ->
  let s := final self s0 evs in
  confirmed (ev, outcome self s ev) = Some (id, Some p) ->
  In e0 (log self s0 (evs ++ [ev])) -> added e0 = Some (id, r) -> In (DeleteKey pk) (actions r) ->
  forall i, In i (list_request_ids (step self s ev)) -> creator (log self s0 (evs ++ [ev])) i <> Some pk.
Proof. exact deleted_key_requests_dropped. Qed.
Print Assumptions C36_deleted_key_requests_dropped.
Definition evs_drop : list event :=
  [by_key "k3" 10 (CAddRequest pay); by_key "k1" 11 (CAddRequest pay);
   by_key "k1" 12 (CAddRequestAndConfirm (mkRequest me [DeleteKey "k3"]))].
Example C36_applies :
  list_request_ids (final me s2of3 evs_drop) = [0; 1; 2] /\
  list_request_ids (step me (final me s2of3 evs_drop) (by_key "k2" 13 (CConfirm 2))) = [1].
Proof. vm_compute. auto. Qed.

(** C37 is false of the code: lowering the number of required confirmations leaves requests active that
    already have enough. *)
Definition evs_linger : list event :=
  [by_key "k1" 10 (CAddRequestAndConfirm pay); by_key "k2" 11 (CConfirm 0);
   by_key "k1" 12 (CAddRequestAndConfirm (mkRequest me [SetNumConfirmations 2]));
   by_key "k2" 13 (CConfirm 1); by_key "k3" 14 (CConfirm 1)].
Theorem C37_lingers_refuted :
  exists self k s0 evs id, new false k = Ok s0 /\ 1 <= k /\
  In id (list_request_ids (final self s0 evs)) /\
  get_num_confirmations (final self s0 evs) <= N.of_nat (List.length (confirmers (log self s0 evs) id)).
Proof.
  exists me, 3, s3of3, evs_linger, 0. split; [vm_compute; reflexivity|]. split; [vm_compute; discriminate|].
  split; [vm_compute; auto|vm_compute; discriminate].
Qed.
Print Assumptions C37_lingers_refuted.

(** C37 holds as long as the number of required confirmations was never higher than it is. *)
Theorem C37_no_lingering :
  forall self k s0 evs, new false k = Ok s0 -> 1 <= k ->
  (forall evs1 evs2, evs = (evs1 ++ evs2)%list ->
     get_num_confirmations (final self s0 evs1) <= get_num_confirmations (final self s0 evs)) ->
  forall id, In id (list_request_ids (final self s0 evs)) ->
  N.of_nat (List.length (confirmers (log self s0 evs) id)) < U32_BOUND ->
  N.of_nat (List.length (confirmers (log self s0 evs) id)) < get_num_confirmations (final self s0 evs).
Proof. exact no_lingering. Qed.
Print Assumptions C37_no_lingering.
Example C37_applies :
  (forall evs1 evs2, evs_pay = (evs1 ++ evs2)%list ->
     get_num_confirmations (final me s2of3 evs1) <= get_num_confirmations (final me s2of3 evs_pay)) /\
  In 0 (list_request_ids (final me s2of3 evs_pay)) /\ confirmers (log me s2of3 evs_pay) 0 = ["k1"].
Proof.
  split; [|vm_compute; auto]. intros evs1 evs2 E.
  destruct evs1 as [|a [|b [|c [|d e]]]]; inversion E; subst; vm_compute; discriminate.
Qed.

(** C74. The contract is created once and starts with the given quorum and no request. *)
Theorem C74_multisig_created :
  forall ex k, (is_ok (new ex k) = true <-> ex = false) /\
  forall s0, new ex k = Ok s0 ->
    get_num_confirmations s0 = k /\ list_request_ids s0 = [] /\ get_request_nonce s0 = 0 /\
    active_requests_limit s0 = 12 /\ forall pk, get_num_requests_pk s0 pk = 0.
Proof. exact created. Qed.
Print Assumptions C74_multisig_created.

(** C88. When a confirmation executes the request: it is the first by this key, it completes the number
    required, and the request is well-formed. *)
Theorem C88_executes_iff :
  forall self k s0 evs ev id p, new false k = Ok s0 -> e_call ev = CConfirm id ->
  let s := final self s0 evs in
  let n := N.of_nat (List.length (confirmers (log self s0 evs) id)) in
  n + 1 < U32_BOUND ->
  (confirmed (ev, outcome self s ev) = Some (id, Some p) <->
   e_pred ev = self /\ e_attached ev = 0 /\ In id (list_request_ids s) /\
   ~ In (e_key ev) (confirmers (log self s0 evs) id) /\ get_num_confirmations s <= n + 1 /\
   exists e0 r, In e0 (log self s0 evs) /\ added e0 = Some (id, r) /\ executable self r /\ p = asked r).
Proof. exact executes_iff. Qed.
Print Assumptions C88_executes_iff.

(** C88. Whatever happened before, as many different keys as confirmations are required get any well-formed
    request executed, by their own calls alone and at any times: the first adds and confirms it, the others
    confirm it, and the last confirmation schedules exactly what the request asks for. The first key must be
    below its limit of active requests; the other bounds are those of the 32-bit counters. *)
Theorem C88_quorum_executes :
  forall self k s0 evs r key0 t0 others, new false k = Ok s0 ->
  let s := final self s0 evs in
  let id := get_request_nonce s in
  executable self r ->
  NoDup (key0 :: map fst others) ->
  N.of_nat (List.length (key0 :: map fst others)) = N.max 1 (get_num_confirmations s) ->
  get_num_confirmations s < U32_BOUND ->
  get_num_requests_pk s key0 + 1 <= active_requests_limit s ->
  get_num_requests_pk s key0 + 1 < U32_BOUND -> id + 1 < U32_BOUND ->
  exists l e,
    log self s (mkEvent self key0 0 t0 (CAddRequestAndConfirm r)
                :: map (fun kt => mkEvent self (fst kt) 0 (snd kt) (CConfirm id)) others) = (l ++ [e])%list /\
    confirmed e = Some (id, Some (asked r)) /\ forall e', In e' l -> confirmed e' = Some (id, None).
Proof. exact quorum_executes. Qed.
Print Assumptions C88_quorum_executes.

(** C88, with [add_request] and [confirm] only, the methods that the keys of the README may call: one key
    adds the request, and as many different keys as required confirm it. *)
Theorem C88_quorum_executes_added :
  forall self k s0 evs r key0 t0 others, new false k = Ok s0 ->
  let s := final self s0 evs in
  let id := get_request_nonce s in
  executable self r ->
  NoDup (map fst others) ->
  N.of_nat (List.length others) = N.max 1 (get_num_confirmations s) ->
  get_num_confirmations s < U32_BOUND ->
  get_num_requests_pk s key0 + 1 <= active_requests_limit s ->
  get_num_requests_pk s key0 + 1 < U32_BOUND -> id + 1 < U32_BOUND ->
  exists e0 l e,
    log self s (mkEvent self key0 0 t0 (CAddRequest r)
                :: map (fun kt => mkEvent self (fst kt) 0 (snd kt) (CConfirm id)) others) = (e0 :: l ++ [e])%list /\
    added e0 = Some (id, r) /\
    confirmed e = Some (id, Some (asked r)) /\ forall e', In e' l -> confirmed e' = Some (id, None).
Proof. exact quorum_executes_added. Qed.
Print Assumptions C88_quorum_executes_added.
Example C88_applies :
  let s := final me s3of3 evs_pay in
  let r := mkRequest me [DeleteKey "k1"; Transfer 1] in
  executable me r /\ NoDup ("k4" :: map fst [("k2", 5); ("k1", 7)]) /\
  N.of_nat (List.length ("k4" :: map fst [("k2", 5); ("k1", 7)])) = N.max 1 (get_num_confirmations s) /\
  get_num_requests_pk s "k4" + 1 <= active_requests_limit s /\
  map confirmed (log me s (mkEvent me "k4" 0 3 (CAddRequestAndConfirm r)
                :: map (fun kt => mkEvent me (fst kt) 0 (snd kt) (CConfirm 1)) [("k2", 5); ("k1", 7)]))
  = [Some (1, None); Some (1, None); Some (1, Some (mkPromise me [BDeleteKey "k1"; BTransfer 1]))].
Proof.
  split. { split; intros X; [reflexivity|discriminate X]. }
  split. { repeat constructor; cbn; intuition discriminate. }
  vm_compute. repeat split; discriminate.
Qed.
