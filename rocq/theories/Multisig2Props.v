(** The properties of the second multisig contract (C38 - C44). In every statement [evs] is an arbitrary
    list of calls, by anyone, at any times; calls that fail are part of it and change nothing. *)
From Coq Require Import NArith List Bool String.
From Verif Require Import Prelude Multisig2Model Multisig2Spec Multisig2Proofs Multisig2Facts Multisig2Live.
Import ListNotations.
Open Scope string_scope.
Open Scope N_scope.

(** A concrete history of a 2-of-3 multisig with two keys and one account: [k1] asks for a payment, a
    stranger fails, [k1] fails to confirm again, [carol.near] confirms. *)
Definition me : account_id := "multi.near".
Definition by_key (k : public_key) (t : N) (m : call) : event := mkEvent me k 0 t m.
Definition by_account (a : account_id) (t : N) (m : call) : event := mkEvent a "ky" 0 t m.
Definition pay : request := mkRequest "bob.near" [Transfer 5; FunctionCall "f" "{}" 1 10].
Definition ms3 : list member := [AccessKey "k1"; AccessKey "k2"; Account "carol.near"].
Definition s2of3 : contract := mkContract ms3 2 0 [] [] [] 12.
Definition evs_pay : list event :=
  [by_key "k1" 10 (CAddRequestAndConfirm pay); by_account "eve" 11 (CConfirm 0); by_key "k1" 12 (CConfirm 0)].
Definition ev_pay : event := by_account "carol.near" 20 (CConfirm 0).
Definition p3 : promise := mkPromise me [BAddAccessKey "k1" 0 me MULTISIG_METHOD_NAMES;
                                         BAddAccessKey "k2" 0 me MULTISIG_METHOD_NAMES].

(** C38. The promise [p] that a call schedules by executing request [id] is what the request asked for
    when it was added (entry [e0]); since then, this call included, the request was confirmed by
    [get_num_confirmations] or more members, all different, and by at least one; each of them was a member
    when it confirmed. *)
Theorem C38_execution_needs_quorum :
  forall self ms k p0 s0 evs ev id p, new self false ms k = Ok (s0, p0) ->
  let s := final self s0 evs in
  confirmed (entry_of self s ev) = Some (id, Some p) ->
  exists l1 e0 l2 r,
    log self s0 (evs ++ [ev]) = (l1 ++ e0 :: l2)%list /\
    added e0 = Some (id, r) /\ p = asked self r /\
    confirmers l1 id = [] /\
    NoDup (confirmers (e0 :: l2) id) /\
    In (caller self ev) (confirmers (e0 :: l2) id) /\
    get_num_confirmations s <= N.of_nat (List.length (confirmers (e0 :: l2) id)) /\
    forall e, In e (e0 :: l2) -> confirmed e <> None -> In (l_caller e) (l_members e).
Proof. exact execution_needs_quorum. Qed.
Print Assumptions C38_execution_needs_quorum.
Example C38_applies :
  new me false ms3 2 = Ok (s2of3, p3) /\
  confirmed (entry_of me (final me s2of3 evs_pay) ev_pay) =
    Some (0, Some (mkPromise "bob.near" [BTransfer 5; BFunctionCall "f" "{}" 1 10])) /\
  confirmers (log me s2of3 (evs_pay ++ [ev_pay])) 0 = [AccessKey "k1"; Account "carol.near"].
Proof. vm_compute. auto. Qed.

(** C38, the other way: a confirmation that executes nothing leaves the request short of the quorum. *)
Theorem C38_recorded_below_quorum :
  forall self ms k p0 s0 evs ev id, new self false ms k = Ok (s0, p0) ->
  let s := final self s0 evs in
  confirmed (entry_of self s ev) = Some (id, None) ->
  N.of_nat (List.length (confirmers (log self s0 evs) id)) < U32_BOUND ->
  N.of_nat (List.length (confirmers (log self s0 (evs ++ [ev])) id)) < get_num_confirmations s.
Proof. exact recorded_below_quorum. Qed.
Print Assumptions C38_recorded_below_quorum.

(** C38: the first confirmation of an active request by a member is accepted. *)
Theorem C38_confirmation_recorded :
  forall self ms k p0 s0 evs ev id, new self false ms k = Ok (s0, p0) ->
  let s := final self s0 evs in
  let n := N.of_nat (List.length (confirmers (log self s0 evs) id)) in
  e_call ev = CConfirm id -> In (caller self ev) (get_members s) -> e_attached ev = 0 ->
  In id (list_request_ids s) -> ~ In (caller self ev) (confirmers (log self s0 evs) id) ->
  n + 1 < get_num_confirmations s -> n + 1 < U32_BOUND ->
  confirmed (entry_of self s ev) = Some (id, None).
Proof. exact confirmation_recorded. Qed.
Print Assumptions C38_confirmation_recorded.
Definition s3of3 : contract := mkContract ms3 3 0 [] [] [] 12.
Example C38_recorded_applies :
  let s := final me s3of3 evs_pay in
  new me false ms3 3 = Ok (s3of3, p3) /\ In 0 (list_request_ids s) /\
  confirmers (log me s3of3 evs_pay) 0 = [AccessKey "k1"] /\
  confirmed (entry_of me s ev_pay) = Some (0, None).
Proof. vm_compute. auto. Qed.

(** C39. A call by anyone but a current member fails and changes nothing, whatever the state. *)
Theorem C39_strangers_rejected :
  forall self s ev, ~ In (caller self ev) (get_members s) ->
  outcome self s ev = None /\ step self s ev = s.
Proof. exact strangers_rejected. Qed.
Print Assumptions C39_strangers_rejected.
Example C39_applies :
  outcome me (final me s2of3 evs_pay) (by_account "eve" 20 (CConfirm 0)) = None /\
  outcome me (final me s2of3 evs_pay) (mkEvent "carol.near" "k1" 0 20 (CConfirm 0)) <> None /\
  outcome me (final me s2of3 evs_pay) (by_account "k2" 20 (CConfirm 0)) = None /\
  outcome me (final me s2of3 evs_pay) (by_key "k2" 20 (CConfirm 0)) <> None.
Proof. vm_compute. repeat split; discriminate. Qed.

(** C40. Ids are handed out in the order 0, 1, 2, ... *)
Theorem C40_ids_in_order :
  forall self ms k p0 s0 evs, new self false ms k = Ok (s0, p0) ->
  granted (log self s0 evs) = map N.of_nat (seq 0 (N.to_nat (get_request_nonce (final self s0 evs)))).
Proof. exact ids_in_order. Qed.
Print Assumptions C40_ids_in_order.

(** C40. No id is executed twice, nor executed and deleted; such a request is gone and no call brings it
    back. *)
Theorem C40_executed_at_most_once :
  forall self ms k p0 s0 evs, new self false ms k = Ok (s0, p0) ->
  NoDup (finished (log self s0 evs)) /\
  forall id, In id (finished (log self s0 evs)) ->
    ~ In id (list_request_ids (final self s0 evs)) /\
    is_ok (get_request (final self s0 evs) id) = false /\
    forall ev, e_call ev = CConfirm id \/ e_call ev = CDeleteRequest id ->
      outcome self (final self s0 evs) ev = None.
Proof. exact finished_once. Qed.
Print Assumptions C40_executed_at_most_once.

(** C40. The counter of a member is the number of active requests it created. *)
Theorem C40_counters_exact :
  forall self ms k p0 s0 evs m, new self false ms k = Ok (s0, p0) ->
  get_num_requests_per_member (final self s0 evs) m =
  N.of_nat (List.length (filter (fun id => match creator (log self s0 evs) id with
                                           | Some m' => member_eqb m' m
                                           | None => false end)
                                (list_request_ids (final self s0 evs)))).
Proof. exact counters_exact. Qed.
Print Assumptions C40_counters_exact.

(** C40. Adding is accepted exactly for members within the limit in force. *)
Theorem C40_add_accepted_iff :
  forall self s ev r, e_call ev = CAddRequest r ->
  (outcome self s ev <> None <->
   In (caller self ev) (get_members s) /\ e_attached ev = 0 /\
   get_num_requests_per_member s (caller self ev) + 1 <= active_requests_limit s /\
   get_num_requests_per_member s (caller self ev) + 1 < U32_BOUND /\ get_request_nonce s + 1 < U32_BOUND).
Proof. exact add_accepted_iff. Qed.
Print Assumptions C40_add_accepted_iff.
Definition evs_more : list event :=
  (evs_pay ++ [ev_pay; by_key "k2" 30 (CAddRequest pay); by_key "k2" 31 (CConfirm 0);
               by_key "k1" 900000000031 (CDeleteRequest 1); by_account "carol.near" 900000000032 (CAddRequest pay)])%list.
Definition evs_12 : list event := repeat (by_key "k1" 5 (CAddRequest pay)) 13.
Example C40_applies :
  granted (log me s2of3 evs_more) = [0; 1; 2] /\ finished (log me s2of3 evs_more) = [0; 1] /\
  list_request_ids (final me s2of3 evs_more) = [2] /\
  get_num_requests_per_member (final me s2of3 evs_more) (Account "carol.near") = 1 /\
  get_num_requests_per_member (final me s2of3 evs_12) (AccessKey "k1") = 12 /\
  outcome me (final me s2of3 evs_12) (by_key "k1" 6 (CAddRequest pay)) = None /\
  outcome me (final me s2of3 evs_12) (by_key "k2" 6 (CAddRequest pay)) = Some (OAdded 12).
Proof. vm_compute. repeat split. Qed.

(** C40. Deleting is accepted exactly when the request is active and more than 15 minutes old. *)
Theorem C40_delete_accepted_iff :
  forall self ms k p0 s0 evs ev id, new self false ms k = Ok (s0, p0) -> e_call ev = CDeleteRequest id ->
  let s := final self s0 evs in
  (deleted (entry_of self s ev) = Some id <->
   In (caller self ev) (get_members s) /\ e_attached ev = 0 /\ In id (list_request_ids s) /\
   exists e0 r, In e0 (log self s0 evs) /\ added e0 = Some (id, r) /\
     e_time (l_event e0) + 900000000000 < U64_BOUND /\ e_time (l_event e0) + 900000000000 < e_time ev).
Proof. exact delete_accepted_iff. Qed.
Print Assumptions C40_delete_accepted_iff.
Example C40_delete_applies :
  let d t := deleted (entry_of me (final me s2of3 evs_pay) (by_key "k2" t (CDeleteRequest 0))) in
  d 900000000010 = None /\ d 900000000011 = Some 0.
Proof. vm_compute. auto. Qed.

(** C40. A request is active exactly when it has a confirmation set, which holds those who confirmed; no
    call ever fails with an internal error. *)
Theorem C40_requests_and_confirmations :
  forall self ms k p0 s0 evs id, new self false ms k = Ok (s0, p0) ->
  (In id (list_request_ids (final self s0 evs)) <->
   get_confirmations (final self s0 evs) id = Ok (map text (confirmers (log self s0 evs) id))).
Proof. exact requests_and_confirmations. Qed.
Print Assumptions C40_requests_and_confirmations.
Theorem C40_no_internal_error :
  forall self ms k p0 s0 evs ev m, new self false ms k = Ok (s0, p0) ->
  exec (ctx_of self ev) (final self s0 evs) (e_call ev) = Panic m -> ~ internal_error m.
Proof. exact no_internal_error. Qed.
Print Assumptions C40_no_internal_error.
Example C40_confirmations_applies :
  get_confirmations (final me s2of3 evs_pay) 0 = Ok ["{""public_key"":""k1""}"] /\
  exec (ctx_of me (by_key "k1" 12 (CConfirm 0))) (final me s2of3 evs_pay) (CConfirm 0) =
    Panic "Already confirmed this request with this key".
Proof. vm_compute. auto. Qed.

(** C41 is false of the code, first in [new]: one member listed twice counts as two. *)
Theorem C41_duplicate_members_refuted :
  exists self ms k s0 p0, new self false ms k = Ok (s0, p0) /\
  N.of_nat (List.length (get_members s0)) < get_num_confirmations s0.
Proof.
  exists me, [AccessKey "k1"; AccessKey "k1"], 2. do 2 eexists. split; [vm_compute; reflexivity|].
  vm_compute. reflexivity.
Qed.
Print Assumptions C41_duplicate_members_refuted.

(** C41 is false of the code, second in the settings: the members may raise the quorum above their number,
    after which nothing can be executed. *)
Definition evs_raise : list event :=
  [by_key "k1" 10 (CAddRequestAndConfirm (mkRequest me [SetNumConfirmations 4])); by_key "k2" 11 (CConfirm 0)].
Theorem C41_raised_quorum_refuted :
  exists self ms k s0 p0 evs, new self false ms k = Ok (s0, p0) /\ NoDup ms /\
  N.of_nat (List.length (get_members (final self s0 evs))) < get_num_confirmations (final self s0 evs).
Proof.
  exists me, ms3, 2, s2of3, p3, evs_raise. split; [vm_compute; reflexivity|].
  split; [repeat constructor; cbn; intuition discriminate|vm_compute; reflexivity].
Qed.
Print Assumptions C41_raised_quorum_refuted.

(** C41: what that means. Once the members are fewer than required, and so are, for every active request, they
    together with those who confirmed it before, nothing is ever executed again, whatever anyone calls, and neither
    the members nor the quorum change. *)
Theorem C41_stuck_forever :
  forall self ms k p0 s0 evs evs', new self false ms k = Ok (s0, p0) ->
  let s := final self s0 evs in
  N.of_nat (List.length (get_members s)) < get_num_confirmations s ->
  (forall id u, In id (list_request_ids s) -> NoDup u -> incl u (confirmers (log self s0 evs) id ++ get_members s) ->
     N.of_nat (List.length u) < get_num_confirmations s) ->
  (forall e id p, In e (log self s evs') -> confirmed e <> Some (id, Some p)) /\
  get_members (final self s evs') = get_members s /\
  get_num_confirmations (final self s evs') = get_num_confirmations s.
Proof. exact stuck_forever. Qed.
Print Assumptions C41_stuck_forever.
Example C41_stuck_applies :
  let s := final me s2of3 evs_raise in
  N.of_nat (List.length (get_members s)) < get_num_confirmations s /\ list_request_ids s = [] /\
  let s' := final me s2of3 (evs_raise ++ [by_key "k1" 12 (CAddRequestAndConfirm pay)]) in
  N.of_nat (List.length (get_members s')) < get_num_confirmations s' /\ list_request_ids s' = [1] /\
  forall u, NoDup u -> incl u (confirmers (log me s2of3 (evs_raise ++ [by_key "k1" 12 (CAddRequestAndConfirm pay)])) 1 ++ get_members s') ->
    N.of_nat (List.length u) < get_num_confirmations s'.
Proof.
  do 2 (split; [vm_compute; reflexivity|]). do 2 (split; [vm_compute; reflexivity|]). intros u ND I.
  assert (I' : incl u ms3).
  { intros x J. apply I in J. vm_compute in J. cbn. intuition. }
  pose proof (NoDup_incl_length ND I') as L. change (List.length ms3) with 3%nat in L.
  change (get_num_confirmations _) with 4. Lia.lia.
Qed.

(** C41 holds when the initial members are different and no call raises the quorum above the number of
    members: in particular no removal of members breaks it. *)
Theorem C41_quorum_reachable :
  forall self ms k p0 s0 evs, new self false ms k = Ok (s0, p0) -> NoDup ms ->
  (forall evs1 ev evs2, evs = (evs1 ++ ev :: evs2)%list ->
     let s := final self s0 evs1 in
     get_num_confirmations (step self s ev) <= get_num_confirmations s \/
     get_num_confirmations (step self s ev) <= N.of_nat (List.length (get_members s))) ->
  get_num_confirmations (final self s0 evs) <= N.of_nat (List.length (get_members (final self s0 evs))).
Proof. exact quorum_reachable. Qed.
Print Assumptions C41_quorum_reachable.
Definition remove_two : request := mkRequest me [DeleteMember (AccessKey "k2"); DeleteMember (Account "carol.near")].
Definition evs_remove : list event :=
  [by_key "k1" 10 (CAddRequestAndConfirm (mkRequest me [DeleteMember (AccessKey "k2")]));
   by_key "k1" 11 (CAddRequestAndConfirm remove_two); by_key "k2" 12 (CConfirm 1); by_key "k2" 13 (CConfirm 0)].
Example C41_applies :
  (forall evs1 ev evs2, evs_remove = (evs1 ++ ev :: evs2)%list ->
     let s := final me s2of3 evs1 in
     get_num_confirmations (step me s ev) <= get_num_confirmations s \/
     get_num_confirmations (step me s ev) <= N.of_nat (List.length (get_members s))) /\
  (* removing two of three members of a 2-of-3 multisig fails, removing one works *)
  outcome me (final me s2of3 (firstn 2 evs_remove)) (by_key "k2" 12 (CConfirm 1)) = None /\
  get_members (final me s2of3 evs_remove) = [AccessKey "k1"; Account "carol.near"].
Proof.
  split; [|vm_compute; auto]. intros evs1 ev evs2 E. left.
  destruct evs1 as [|a [|b [|c [|d [|e f]]]]]; inversion E; subst; vm_compute; discriminate.
Qed.

(** C42 is false of the code. [carol.near] confirms a payment created by [k1]; [k1] and [k2] remove
    [carol.near]; then [k1]'s confirmation executes the payment, although only one of those who confirmed
    it is still a member and the quorum is two. *)
Definition evs_ghost : list event :=
  [by_key "k1" 10 (CAddRequest pay); by_account "carol.near" 11 (CConfirm 0);
   by_key "k1" 12 (CAddRequestAndConfirm (mkRequest me [DeleteMember (Account "carol.near")]));
   by_key "k2" 13 (CConfirm 1)].
Theorem C42_removed_member_still_counts_refuted :
  exists self ms k s0 p0 evs ev id p, new self false ms k = Ok (s0, p0) /\
  let s := final self s0 evs in
  confirmed (entry_of self s ev) = Some (id, Some p) /\
  N.of_nat (List.length (filter (fun m => smem m (get_members s)) (confirmers (log self s0 (evs ++ [ev])) id)))
  < get_num_confirmations s.
Proof.
  exists me, ms3, 2, s2of3, p3, evs_ghost, (by_key "k1" 14 (CConfirm 0)), 0, (asked me pay).
  vm_compute. auto.
Qed.
Print Assumptions C42_removed_member_still_counts_refuted.

(** C42, the part that holds: removing a member removes the requests it created. *)
Theorem C42_removed_member_requests_dropped :
  forall self ms k p0 s0 evs ev id p m e0 r, new self false ms k = Ok (s0, p0) ->
  let s := final self s0 evs in
  confirmed (entry_of self s ev) = Some (id, Some p) ->
  In e0 (log self s0 (evs ++ [ev])) -> added e0 = Some (id, r) -> removes m r ->
  forall i, In i (list_request_ids (step self s ev)) -> creator (log self s0 (evs ++ [ev])) i <> Some m.
Proof. exact removed_member_requests_dropped. Qed.
Print Assumptions C42_removed_member_requests_dropped.
Definition evs_drop : list event :=
  [by_account "carol.near" 10 (CAddRequest pay); by_key "k1" 11 (CAddRequest pay);
   by_key "k1" 12 (CAddRequestAndConfirm (mkRequest me [DeleteMember (Account "carol.near")]))].
Example C42_applies :
  list_request_ids (final me s2of3 evs_drop) = [0; 1; 2] /\
  list_request_ids (step me (final me s2of3 evs_drop) (by_key "k2" 13 (CConfirm 2))) = [1].
Proof. vm_compute. auto. Qed.

(** C43 is false of the code: the keys installed at the creation may not call
    [add_request_and_confirm], and may call a method that does not exist. *)
Theorem C43_method_missing_refuted :
  exists self ms k s0 p0 pk, new self false ms k = Ok (s0, p0) /\ In (AccessKey pk) ms /\
  forall allowance receiver methods, In (BAddAccessKey pk allowance receiver methods) (p_actions p0) ->
    (exists c, ~ In (method_name c) (split_names methods)) /\
    (exists name, In name (split_names methods) /\ forall c, method_name c <> name).
Proof.
  exists me, ms3, 2, s2of3, p3, "k1". split; [vm_compute; reflexivity|]. split; [now left|].
  intros a r m [E|[E|[]]]; inversion E; subst. split.
  - exists (CAddRequestAndConfirm pay). vm_compute. intuition discriminate.
  - exists "add_and_confirm_request". split; [vm_compute; tauto|]. intros []; discriminate.
Qed.
Print Assumptions C43_method_missing_refuted.

(** C43, the part that holds: at the creation every key member gets a key that may call the three other
    methods of this contract, and no key is added but for members. *)
Theorem C43_keys_installed :
  forall self ms k s0 p0, new self false ms k = Ok (s0, p0) ->
  p_receiver p0 = self /\
  (forall pk, In (AccessKey pk) ms -> exists methods, In (BAddAccessKey pk 0 self methods) (p_actions p0) /\
     forall c, match c with CAddRequestAndConfirm _ => False | _ => True end ->
       In (method_name c) (split_names methods)) /\
  (forall b, In b (p_actions p0) -> exists pk methods, b = BAddAccessKey pk 0 self methods /\ In (AccessKey pk) ms).
Proof. exact keys_installed. Qed.
Print Assumptions C43_keys_installed.
Example C43_applies : new me false ms3 2 = Ok (s2of3, p3) /\ In (AccessKey "k2") ms3.
Proof. vm_compute. auto. Qed.

(** C44. The text under which confirmations and counters are stored determines the member. *)
Theorem C44_text_injective : forall a b : member, text a = text b -> a = b.
Proof. exact text_inj. Qed.
Print Assumptions C44_text_injective.
Example C44_applies :
  text (AccessKey "k""}") = "{""public_key"":""k\""}""}" /\ text (AccessKey "a") <> text (Account "a").
Proof. vm_compute. split; [reflexivity|discriminate]. Qed.

(** C75. Quorum, limit and members change only when a request to the account itself is executed; a
    setting changes only as the single action of its request, and members change only as the request's
    actions say. *)
Theorem C75_settings_only_by_execution :
  forall self ms k p0 s0 evs ev, new self false ms k = Ok (s0, p0) ->
  let s := final self s0 evs in
  let s' := step self s ev in
  get_num_confirmations s' <> get_num_confirmations s \/
  active_requests_limit s' <> active_requests_limit s \/ get_members s' <> get_members s ->
  exists id p e0 r, confirmed (entry_of self s ev) = Some (id, Some p) /\
    In e0 (log self s0 (evs ++ [ev])) /\ added e0 = Some (id, r) /\ receiver_id r = self /\
    ((exists n, actions r = [SetNumConfirmations n] /\ get_num_confirmations s' = n /\
                active_requests_limit s' = active_requests_limit s) \/
     (exists n, actions r = [SetActiveRequestsLimit n] /\ active_requests_limit s' = n /\
                get_num_confirmations s' = get_num_confirmations s) \/
     (existsb member_action (actions r) = true /\
      (forall m, In m (get_members s') -> In m (get_members s) \/ In (AddMember m) (actions r)) /\
      (forall m, In m (get_members s) -> In m (get_members s') \/ In (DeleteMember m) (actions r)))).
Proof. exact settings_only_by_execution. Qed.
Print Assumptions C75_settings_only_by_execution.

(** C75. An executed request that adds keys or changes members is addressed to the account itself, one
    that changes settings has one action; nothing is scheduled but what the request says. *)
Theorem C75_executed_requests :
  forall self ms k p0 s0 evs ev id p, new self false ms k = Ok (s0, p0) ->
  let s := final self s0 evs in
  confirmed (entry_of self s ev) = Some (id, Some p) ->
  forall e0 r, In e0 (log self s0 (evs ++ [ev])) -> added e0 = Some (id, r) ->
  (existsb key_action (actions r) = true -> receiver_id r = self) /\
  (existsb setting_action (actions r) = true -> receiver_id r = self /\ List.length (actions r) = 1%nat) /\
  (forall m i, removes m r -> In i (list_request_ids (step self s ev)) ->
     creator (log self s0 (evs ++ [ev])) i <> Some m) /\
  p = asked self r.
Proof. exact executed_key_requests. Qed.
Print Assumptions C75_executed_requests.

(** C75. What the members are after a request is executed, member by member and in the order of its
    actions; none of them is listed twice. *)
Theorem C75_members_exact :
  forall self ms k p0 s0 evs ev id p e0 r, new self false ms k = Ok (s0, p0) ->
  let s := final self s0 evs in
  confirmed (entry_of self s ev) = Some (id, Some p) ->
  In e0 (log self s0 (evs ++ [ev])) -> added e0 = Some (id, r) ->
  NoDup (get_members (step self s ev)) /\
  forall m, In m (get_members (step self s ev)) <->
            fold_left (fun is_member a => match a with
                                          | AddMember m' => m' = m \/ is_member
                                          | DeleteMember m' => m' <> m /\ is_member
                                          | _ => is_member
                                          end) (actions r) (In m (get_members s)).
Proof. exact members_exact. Qed.
Print Assumptions C75_members_exact.
Definition evs_set : list event :=
  [by_key "k1" 10 (CAddRequestAndConfirm (mkRequest me [SetNumConfirmations 3]));
   by_key "k2" 11 (CAddRequestAndConfirm (mkRequest me [SetNumConfirmations 1; Transfer 1]));
   by_account "carol.near" 12 (CAddRequestAndConfirm (mkRequest "bob.near" [AddMember (Account "eve")]));
   by_key "k1" 13 (CConfirm 1); by_key "k1" 14 (CConfirm 2)].
Example C75_applies :
  get_num_confirmations (final me s2of3 evs_set) = 2 /\
  list_request_ids (final me s2of3 evs_set) = [0; 1; 2] /\
  get_num_confirmations (step me (final me s2of3 evs_set) (by_key "k2" 15 (CConfirm 0))) = 3 /\
  get_members (final me s2of3
    [by_key "k1" 1 (CAddRequestAndConfirm (mkRequest me [AddMember (Account "dan"); DeleteMember (AccessKey "k1")]));
     by_key "k2" 2 (CConfirm 0)]) = [AccessKey "k2"; Account "carol.near"; Account "dan"].
Proof. vm_compute. repeat split. Qed.

(** C74. The contract is created once; it starts with the given members and quorum and nothing else. *)
Theorem C74_multisig2_created :
  forall self ms k p0 s0, new self false ms k = Ok (s0, p0) ->
  (forall m, In m (get_members s0) <-> In m ms) /\ NoDup (get_members s0) /\
  get_num_confirmations s0 = k /\ list_request_ids s0 = [] /\ get_request_nonce s0 = 0 /\
  active_requests_limit s0 = 12 /\
  p0 = asked self (mkRequest self (map AddMember ms)).
Proof. exact new_members. Qed.
Print Assumptions C74_multisig2_created.
Theorem C74_multisig2_created_iff :
  forall self ex ms k, is_ok (new self ex ms k) = true <-> ex = false /\ k <= N.of_nat (List.length ms).
Proof. exact new_accepted_iff. Qed.
Print Assumptions C74_multisig2_created_iff.
Example C74_multisig2_applies :
  new me false ms3 2 = Ok (s2of3, p3) /\ is_ok (new me true ms3 2) = false /\ is_ok (new me false ms3 4) = false.
Proof. vm_compute. auto. Qed.

(** C89. When a confirmation executes the request: the caller is a member and confirms it for the first
    time, this completes the number required, and the request can be executed. *)
Theorem C89_executes_iff :
  forall self ms k p0 s0 evs ev id p, new self false ms k = Ok (s0, p0) -> e_call ev = CConfirm id ->
  let s := final self s0 evs in
  let n := N.of_nat (List.length (confirmers (log self s0 evs) id)) in
  n + 1 < U32_BOUND ->
  (confirmed (entry_of self s ev) = Some (id, Some p) <->
   In (caller self ev) (get_members s) /\ e_attached ev = 0 /\ In id (list_request_ids s) /\
   ~ In (caller self ev) (confirmers (log self s0 evs) id) /\ get_num_confirmations s <= n + 1 /\
   exists e0 r, In e0 (log self s0 evs) /\ added e0 = Some (id, r) /\ executable self s r /\ p = asked self r).
Proof. exact executes_iff. Qed.
Print Assumptions C89_executes_iff.

(** C89. Whatever happened before, as many different members as confirmations are required get any request
    that can be executed executed, by their own calls alone and at any times: the first adds and confirms
    it, the others confirm it, and the last confirmation schedules exactly what the request asks for. The
    first member must be below its limit of active requests; the other bounds are those of the 32-bit
    counters. *)
Theorem C89_quorum_executes :
  forall self ms k p0 s0 evs r ev0 others, new self false ms k = Ok (s0, p0) ->
  let s := final self s0 evs in
  let id := get_request_nonce s in
  executable self s r ->
  e_call ev0 = CAddRequestAndConfirm r -> (forall ev, In ev others -> e_call ev = CConfirm id) ->
  (forall ev, In ev (ev0 :: others) -> e_attached ev = 0 /\ In (caller self ev) (get_members s)) ->
  NoDup (map (caller self) (ev0 :: others)) ->
  N.of_nat (List.length (ev0 :: others)) = N.max 1 (get_num_confirmations s) ->
  get_num_confirmations s < U32_BOUND ->
  get_num_requests_per_member s (caller self ev0) + 1 <= active_requests_limit s ->
  get_num_requests_per_member s (caller self ev0) + 1 < U32_BOUND -> id + 1 < U32_BOUND ->
  exists l e,
    log self s (ev0 :: others) = (l ++ [e])%list /\
    confirmed e = Some (id, Some (asked self r)) /\ forall e', In e' l -> confirmed e' = Some (id, None).
Proof. exact quorum_executes. Qed.
Print Assumptions C89_quorum_executes.

(** C89, with [add_request] and [confirm] only, the methods that the keys of members may call. *)
Theorem C89_quorum_executes_added :
  forall self ms k p0 s0 evs r ev0 others, new self false ms k = Ok (s0, p0) ->
  let s := final self s0 evs in
  let id := get_request_nonce s in
  executable self s r ->
  e_call ev0 = CAddRequest r -> (forall ev, In ev others -> e_call ev = CConfirm id) ->
  (forall ev, In ev (ev0 :: others) -> e_attached ev = 0 /\ In (caller self ev) (get_members s)) ->
  NoDup (map (caller self) others) ->
  N.of_nat (List.length others) = N.max 1 (get_num_confirmations s) ->
  get_num_confirmations s < U32_BOUND ->
  get_num_requests_per_member s (caller self ev0) + 1 <= active_requests_limit s ->
  get_num_requests_per_member s (caller self ev0) + 1 < U32_BOUND -> id + 1 < U32_BOUND ->
  exists e0 l e,
    log self s (ev0 :: others) = (e0 :: l ++ [e])%list /\ added e0 = Some (id, r) /\
    confirmed e = Some (id, Some (asked self r)) /\ forall e', In e' l -> confirmed e' = Some (id, None).
Proof. exact quorum_executes_added. Qed.
Print Assumptions C89_quorum_executes_added.
Definition replace_k1 : request := mkRequest me [AddMember (AccessKey "k9"); DeleteMember (AccessKey "k1"); Transfer 1].
Example C89_applies :
  let s := final me s2of3 evs_pay in
  let evs := [by_account "carol.near" 30 (CAddRequestAndConfirm replace_k1); by_key "k2" 31 (CConfirm 1)] in
  executable me s replace_k1 /\ NoDup (map (caller me) evs) /\
  N.of_nat (List.length evs) = N.max 1 (get_num_confirmations s) /\
  get_num_requests_per_member s (caller me (by_account "carol.near" 30 (CAddRequestAndConfirm replace_k1))) + 1
    <= active_requests_limit s /\
  map confirmed (log me s evs) =
    [Some (1, None);
     Some (1, Some (mkPromise me [BAddAccessKey "k9" 0 me MULTISIG_METHOD_NAMES; BDeleteKey "k1"; BTransfer 1]))].
Proof.
  split.
  { split; [reflexivity|]. split; [intros X; discriminate X|]. intros l1 m l2 E.
    destruct l1 as [|a [|b [|c [|d l1]]]]; inversion E; subst; vm_compute; reflexivity. }
  split. { repeat constructor; cbn; intuition discriminate. }
  vm_compute. repeat split; discriminate.
Qed.
