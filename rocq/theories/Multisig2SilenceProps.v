(** C121, for the second multisig: the members without whom there is no quorum can silence its account. *)
From Coq Require Import NArith List Bool String.
From Verif Require Import Prelude Multisig2Model Multisig2Spec Multisig2Account Multisig2Veto Multisig2Silence.
Import ListNotations.
Open Scope string_scope.
Open Scope N_scope.

(** C121. The same for the second multisig, whose members are keys and accounts: the members in [B] are so many that
    the others are fewer than are required to confirm, none of them has confirmed a request that is open, and from now
    on they confirm none, be it by a transaction of their key or by a call of their account. *)
Theorem C121_members_can_silence :
  forall self decode ms k p0 s0 ks key hs hs' B, new self false ms k = Ok (s0, p0) ->
  NoDup (mkeys ks) -> (forall pk x, mget pk ks = Some x -> limited self x) ->
  let a := run self decode (start s0 p0 ks key) hs in
  (forall p, In p (executions self s0 (w_calls a)) -> p_receiver p = self -> keeps_guard self (p_actions p)) ->
  w_flight a = [] ->
  NoDup B -> incl B (get_members (w_contract a)) ->
  N.of_nat (List.length (get_members (w_contract a))) <
    get_num_confirmations (w_contract a) + N.of_nat (List.length B) ->
  (forall id m, In id (list_request_ids (w_contract a)) -> In m (confirmers (log self s0 (w_calls a)) id) ->
     In m (get_members (w_contract a)) /\ ~ In m B) ->
  (forall key to acts, In (HTx key to acts) hs' -> In (AccessKey key) B -> carries_no_confirmation decode acts) ->
  (forall pred key attached t m, In (HCall pred key attached t m) hs' -> In (Account pred) B -> confirms m = false) ->
  let b := run self decode a hs' in
  departures self decode a hs' = [] /\ w_keys b = w_keys a /\
  (forall p, In p (map rc_batch (w_flight b)) -> p_receiver p = self) /\
  executions self s0 (w_calls b) = executions self s0 (w_calls a) /\
  get_members (w_contract b) = get_members (w_contract a) /\
  get_num_confirmations (w_contract b) = get_num_confirmations (w_contract a) /\
  active_requests_limit (w_contract b) = active_requests_limit (w_contract a).
Proof. exact silence. Qed.
Print Assumptions C121_members_can_silence.

(** Two of two keys and an account. [k1] has added and confirmed a payment; [k2] and [carol.near] confirm nothing, while
    [k1] and a stranger go on trying. Were [carol.near] to confirm as well, the payment would leave. *)
Definition me : account_id := "multi.near".
Definition ms3 : list member := [AccessKey "k1"; AccessKey "k2"; Account "carol.near"].
Definition refusing : list member := [AccessKey "k2"; Account "carol.near"].
Definition pay : request := mkRequest "bob.near" [Transfer 5].
Definition read (m args : string) : option call :=
  if String.eqb m "add_request" then Some (CAddRequest pay)
  else if String.eqb m "confirm" then Some (CConfirm 0) else None.
Definition tx (key m : string) : happening := HTx key me [BFunctionCall m "" 0 0].
Definition before : list happening :=
  [HDeliver 0 1; tx "k1" "add_request"; HDeliver 0 1; tx "k1" "confirm"; HDeliver 0 2].
Definition after : list happening :=
  [tx "k1" "confirm"; tx "k2" "add_request"; HDeliver 0 3; HDeliver 0 4; HCall "carol.near" "kc" 0 5 (CAddRequest pay);
   HTx "k1" "bob.near" [BTransfer 5]; HCall "eve.near" "k3" 0 6 (CConfirm 0); HDeliver 0 7].
Example C121_members_applies :
  exists s0 p0, new me false ms3 2 = Ok (s0, p0) /\
  let a := run me read (start s0 p0 [] "kd") before in
  executions me s0 (w_calls a) = [] /\ w_flight a = [] /\ get_members (w_contract a) = ms3 /\
  get_num_confirmations (w_contract a) = 2 /\ list_request_ids (w_contract a) = [0] /\
  confirmers (log me s0 (w_calls a)) 0 = [AccessKey "k1"] /\
  N.of_nat (List.length ms3) < 2 + N.of_nat (List.length refusing) /\
  (forall key to acts, In (HTx key to acts) after -> In (AccessKey key) refusing -> carries_no_confirmation read acts) /\
  (forall pred key attached t m, In (HCall pred key attached t m) after -> In (Account pred) refusing -> confirms m = false) /\
  list_request_ids (w_contract (run me read a after)) = [0; 1; 2] /\
  departures me read a [HCall "carol.near" "kc" 0 3 (CConfirm 0); HDeliver 0 4] = [mkPromise "bob.near" [BTransfer 5]].
Proof.
  do 2 eexists. split; [vm_compute; reflexivity|]. cbv zeta.
  split; [vm_compute; reflexivity|]. split; [vm_compute; reflexivity|]. split; [vm_compute; reflexivity|].
  split; [vm_compute; reflexivity|]. split; [vm_compute; reflexivity|]. split; [vm_compute; reflexivity|].
  split; [vm_compute; reflexivity|]. split; [|split; [|split; vm_compute; reflexivity]].
  - intros key to acts I R. unfold after, tx in I. cbn [In] in I.
    repeat (destruct I as [I|I]; [try discriminate I; injection I as <- <- <-|]); try destruct I;
      try (destruct R as [R|[R|[]]]; discriminate R);
      (intros m args dep gas c J D; destruct J as [J|[]]; injection J as <- <- <- <-; vm_compute in D;
       injection D as <-; reflexivity).
  - intros pred key att t m I R. unfold after, tx in I. cbn [In] in I.
    repeat (destruct I as [I|I]; [try discriminate I; injection I as <- <- <- <- <-|]); try destruct I;
      try (destruct R as [R|[R|[]]]; discriminate R); reflexivity.
Qed.
