(** C119 for the second multisig contract: members who refuse. *)
From Coq Require Import NArith List Bool String.
From Verif Require Import Prelude Multisig2Model Multisig2Spec Multisig2Veto Multisig2Props.
Import ListNotations.
Open Scope string_scope.
Open Scope N_scope.

(** [B] are members without whom there are fewer members than required confirmations, and the confirmations that active
    requests already have are of other members. As long as [B] do not confirm, whatever they and all others do, no
    request is executed, so the members and the settings stay as they are. *)
Theorem C119_refusing_members_stop_everything :
  forall self ms k p0 s0 evs evs' B, new self false ms k = Ok (s0, p0) ->
  let s := final self s0 evs in
  NoDup B -> incl B (get_members s) ->
  N.of_nat (List.length (get_members s)) < get_num_confirmations s + N.of_nat (List.length B) ->
  (forall id m, In id (list_request_ids s) -> In m (confirmers (log self s0 evs) id) ->
     In m (get_members s) /\ ~ In m B) ->
  (forall ev, In ev evs' -> In (caller self ev) B -> confirms (e_call ev) = false) ->
  (forall e id p, In e (log self s evs') -> confirmed e <> Some (id, Some p)) /\
  get_members (final self s evs') = get_members s /\
  get_num_confirmations (final self s evs') = get_num_confirmations s /\
  active_requests_limit (final self s evs') = active_requests_limit s.
Proof. exact veto. Qed.
Print Assumptions C119_refusing_members_stop_everything.
(** Two of three members refuse: [k1] cannot have its payment executed, nor replace the others. *)
Definition evs_alone : list event :=
  [by_key "k1" 20 (CConfirm 0); by_account "eve" 21 (CConfirm 0);
   by_key "k1" 22 (CAddRequestAndConfirm (mkRequest me [DeleteMember (AccessKey "k2")]));
   by_account "carol.near" 23 (CAddRequest pay); by_key "k1" 24 (CConfirm 2)].
Example C119_multisig2_applies :
  let s := final me s2of3 evs_pay in
  get_num_confirmations s = 2 /\ get_members s = ms3 /\ list_request_ids s = [0] /\
  confirmers (log me s2of3 evs_pay) 0 = [AccessKey "k1"] /\
  map (caller me) (filter (fun ev => confirms (e_call ev)) evs_alone) =
    [AccessKey "k1"; Account "eve"; AccessKey "k1"; AccessKey "k1"] /\
  map confirmed (log me s evs_alone) = [None; None; Some (1, None); None; Some (2, None)].
Proof. vm_compute. repeat split. Qed.
(** That the earlier confirmations are of members is needed: the confirmation of a removed member still counts (C42),
    and makes up for [k2], without whom two confirmations cannot be had. *)
Example C119_removed_member_breaks_the_veto :
  let s := final me s2of3 evs_ghost in
  get_num_confirmations s = 2 /\ get_members s = [AccessKey "k1"; AccessKey "k2"] /\
  confirmers (log me s2of3 evs_ghost) 0 = [Account "carol.near"] /\
  confirmed (entry_of me s (by_key "k1" 14 (CConfirm 0))) = Some (0, Some (asked me pay)).
Proof. vm_compute. repeat split. Qed.
