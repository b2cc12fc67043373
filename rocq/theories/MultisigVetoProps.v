(** C119 for the multisig contract: keys that refuse. *)
From Coq Require Import NArith List Bool String.
From Verif Require Import Prelude MultisigModel MultisigSpec MultisigVeto MultisigProps.
Import ListNotations.
Open Scope string_scope.
Open Scope N_scope.

(** [A] are the keys that may still confirm, fewer than the required confirmations; the confirmations that active
    requests already have are theirs. Then, whatever else is called by whomever and for however long, no request is
    executed and the settings stay: the keys outside of [A] can stop everything by not confirming. *)
Theorem C119_refusing_keys_stop_everything :
  forall self k s0 evs evs' A, new false k = Ok s0 ->
  let s := final self s0 evs in
  N.of_nat (List.length A) < get_num_confirmations s ->
  (forall id pk, In id (list_request_ids s) -> In pk (confirmers (log self s0 evs) id) -> In pk A) ->
  (forall ev, In ev evs' -> confirms (e_call ev) = true -> In (e_key ev) A) ->
  (forall e id p, In e (log self s evs') -> confirmed e <> Some (id, Some p)) /\
  get_num_confirmations (final self s evs') = get_num_confirmations s /\
  active_requests_limit (final self s evs') = active_requests_limit s.
Proof. exact veto. Qed.
Print Assumptions C119_refusing_keys_stop_everything.
(** [k1] alone of three keys cannot execute its payment, however it tries; [k2] may do anything but confirm. *)
Definition evs_alone : list event :=
  [by_key "k1" 20 (CConfirm 0); by_key "k1" 21 (CAddRequestAndConfirm (mkRequest me [SetNumConfirmations 1]));
   by_key "k2" 22 (CAddRequest pay); by_key "k1" 23 (CConfirm 2)].
Example C119_applies :
  let s := final me s2of3 evs_pay in
  get_num_confirmations s = 2 /\ list_request_ids s = [0] /\ confirmers (log me s2of3 evs_pay) 0 = ["k1"] /\
  map e_key (filter (fun ev => confirms (e_call ev)) evs_alone) = ["k1"; "k1"; "k1"] /\
  map confirmed (log me s evs_alone) = [None; Some (1, None); None; Some (2, None)] /\
  list_request_ids (final me s evs_alone) = [0; 1; 2].
Proof. vm_compute. repeat split. Qed.
