(** C121, for the first multisig: the keys without which there is no quorum can silence its account. *)
From Coq Require Import NArith List Bool String.
From Verif Require Import Prelude MultisigModel MultisigSpec MultisigAccount MultisigVeto MultisigSilence.
Import ListNotations.
Open Scope string_scope.
Open Scope N_scope.

(** C121. An account guarded by the multisig has been through any history and nothing it sent is on its way. The keys
    in [A] are fewer than are required to confirm, and the requests that are open were confirmed by keys of [A] only.
    From now on every other key sends no confirmation. Then, whatever happens, nothing leaves the account any more,
    nothing is executed, no key is added to the account or taken from it, and nothing is on its way but to the
    account itself; the settings of the multisig stay too. *)
Theorem C121_keys_can_silence :
  forall self decode k s0 ks hs hs' A, new false k = Ok s0 ->
  NoDup (mkeys ks) -> (forall pk x, mget pk ks = Some x -> limited self x) ->
  let a := run self decode (start s0 ks) hs in
  (forall p, In p (executions self s0 (w_calls a)) -> p_receiver p = self -> keeps_guard self (p_actions p)) ->
  w_flight a = [] ->
  N.of_nat (List.length A) < get_num_confirmations (w_contract a) ->
  (forall id pk, In id (list_request_ids (w_contract a)) -> In pk (confirmers (log self s0 (w_calls a)) id) -> In pk A) ->
  (forall key to acts, In (HTx key to acts) hs' -> ~ In key A -> carries_no_confirmation decode acts) ->
  let b := run self decode a hs' in
  departures self decode a hs' = [] /\ w_keys b = w_keys a /\
  (forall p, In p (map rc_batch (w_flight b)) -> p_receiver p = self) /\
  executions self s0 (w_calls b) = executions self s0 (w_calls a) /\
  get_num_confirmations (w_contract b) = get_num_confirmations (w_contract a) /\
  active_requests_limit (w_contract b) = active_requests_limit (w_contract a).
Proof. exact silence. Qed.
Print Assumptions C121_keys_can_silence.

(** A 2-of-3 multisig. [k1] has added and confirmed a payment and goes on trying; [k2] and [k3] add and delete requests
    but confirm none. Were [k3] to confirm as well, the payment would leave. *)
Definition me : account_id := "multi.near".
Definition keys3 : umap public_key access :=
  map (fun pk => (pk, CallAccess me ["add_request"; "delete_request"; "confirm"])) ["k1"; "k2"; "k3"].
Definition pay : request := mkRequest "bob.near" [Transfer 5].
Definition read (m args : string) : option call :=
  if String.eqb m "add_request" then Some (CAddRequest pay)
  else if String.eqb m "confirm" then Some (CConfirm 0) else None.
Definition tx (key m : string) : happening := HTx key me [BFunctionCall m "" 0 0].
Definition before : list happening := [tx "k1" "add_request"; HDeliver 0 1; tx "k1" "confirm"; HDeliver 0 2].
Definition after : list happening :=
  [tx "k1" "confirm"; tx "k2" "add_request"; HDeliver 0 3; HDeliver 0 4; tx "k3" "add_request"; HDeliver 0 5;
   HTx "k1" "bob.near" [BTransfer 5]; HCall "eve.near" "k3" 0 6 (CConfirm 0); HDeliver 0 7].
Example C121_applies :
  exists s0, new false 2 = Ok s0 /\ NoDup (mkeys keys3) /\
  (forall pk x, mget pk keys3 = Some x -> limited me x) /\
  let a := run me read (start s0 keys3) before in
  executions me s0 (w_calls a) = [] /\ w_flight a = [] /\ get_num_confirmations (w_contract a) = 2 /\
  list_request_ids (w_contract a) = [0] /\ confirmers (log me s0 (w_calls a)) 0 = ["k1"] /\
  (forall key to acts, In (HTx key to acts) after -> ~ In key ["k1"] -> carries_no_confirmation read acts) /\
  list_request_ids (w_contract (run me read a after)) = [0; 1; 2] /\
  departures me read a [tx "k3" "confirm"; HDeliver 0 3; HDeliver 0 4] = [mkPromise "bob.near" [BTransfer 5]].
Proof.
  eexists. split; [reflexivity|]. split; [repeat constructor; cbn; intuition discriminate|]. split.
  { intros pk a. cbn [keys3 map mget]. do 3 (destruct (keqb _ _); [intros E; injection E as <-; eexists; reflexivity|]).
    discriminate. }
  cbv zeta. split; [vm_compute; reflexivity|]. split; [vm_compute; reflexivity|]. split; [vm_compute; reflexivity|].
  split; [vm_compute; reflexivity|]. split; [vm_compute; reflexivity|]. split; [|split; vm_compute; reflexivity].
  intros key to acts I NA. unfold after, tx in I. cbn [In] in I.
  repeat (destruct I as [I|I]; [try discriminate I; injection I as <- <- <-|]); try destruct I;
    try (exfalso; apply NA; now left);
    (intros m args dep gas c J D; destruct J as [J|[]]; injection J as <- <- <- <-; vm_compute in D;
     injection D as <-; reflexivity).
Qed.
