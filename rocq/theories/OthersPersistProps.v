(** C102 for every state that the multisigs, the voting contract and the wrapped token can reach. The hypotheses only say
    that what the calls bring are values of their Rust types. *)
From Coq Require Import NArith List Bool String.
From Verif Require Import Prelude StorageModel Borsh PersistModel OthersPersistSpec OthersPersist.
From Verif Require MultisigSpec Multisig2Spec VotingSpec WNearSpec MultisigProps Multisig2Props VotingProps WNearProps.
Import ListNotations.
Open Scope string_scope.
Open Scope N_scope.

Theorem C102_multisig_reachable :
  forall b k s self evs, k < U32_BOUND -> Forall typed_event evs -> MM.new b k = Ok s ->
  multisig_reads (MultisigSpec.final self s evs).
Proof. exact multisig_survives. Qed.
Print Assumptions C102_multisig_reachable.
(** Requests were executed and deleted; one is pending, its confirmation recorded. *)
Example C102_multisig_reachable_applies :
  let evs := (MultisigProps.evs_more ++ [MultisigProps.by_key "k3" 900000000033 (MM.CConfirm 2)])%list in
  let s := MultisigSpec.final MultisigProps.me MultisigProps.s2of3 evs in
  MM.new false 2 = Ok MultisigProps.s2of3 /\ Forall typed_event evs /\ MM.list_request_ids s = [2] /\
  MM.get_confirmations s 2 = Ok ["k3"] /\ MM.get_request_nonce s = 3.
Proof.
  cbv zeta. split; [reflexivity|]. split; [repeat constructor|]. split; [vm_compute; reflexivity|].
  split; vm_compute; reflexivity.
Qed.

Theorem C102_multisig2_reachable :
  forall b ms k s p self evs, k < U32_BOUND -> Forall typed_member ms -> Forall typed_event2 evs ->
  M2.new self b ms k = Ok (s, p) -> multisig2_reads (Multisig2Spec.final self s evs).
Proof. exact multisig2_survives. Qed.
Print Assumptions C102_multisig2_reachable.
Example C102_multisig2_reachable_applies :
  let evs := (Multisig2Props.evs_more ++ [Multisig2Props.by_key "k2" 900000000033 (M2.CConfirm 2)])%list in
  let s := Multisig2Spec.final Multisig2Props.me Multisig2Props.s2of3 evs in
  M2.new Multisig2Props.me false Multisig2Props.ms3 2 = Ok (Multisig2Props.s2of3, Multisig2Props.p3) /\
  Forall typed_member Multisig2Props.ms3 /\ Forall typed_event2 evs /\
  M2.list_request_ids s = [2] /\ option_map (@List.length _) (match M2.get_confirmations s 2 with Ok l => Some l | _ => None end) = Some 1%nat.
Proof.
  cbv zeta. split; [vm_compute; reflexivity|]. split; [repeat constructor|]. split; [repeat constructor|].
  split; vm_compute; reflexivity.
Qed.

Theorem C102_voting_reachable :
  forall w evs, VotingSpec.initial w -> few (VotingSpec.w_validators w) -> Forall typed_voting_event evs ->
  VotingSpec.w_epoch (VotingSpec.final w evs) < U64_BOUND -> reads c_voting (VotingSpec.w_contract (VotingSpec.final w evs)).
Proof. exact voting_survives. Qed.
Print Assumptions C102_voting_reachable.
(** Two votes; then a new epoch, where one of the voters has no stake, and the deciding vote. *)
Example C102_voting_reachable_applies :
  let evs := (VotingProps.evs1 ++ [VotingProps.last_call])%list in
  let w := VotingSpec.final VotingProps.w0 evs in
  VotingSpec.initial VotingProps.w0 /\ few (VotingSpec.w_validators VotingProps.w0) /\ Forall typed_voting_event evs /\
  VotingSpec.w_epoch w < U64_BOUND /\ VM.get_votes (VotingSpec.w_contract w) = [("bob", 40); ("carol", 50)] /\
  VM.get_result (VotingSpec.w_contract w) = Some 7.
Proof.
  cbv zeta. split; [exact VotingProps.demo_initial|]. split; [reflexivity|].
  split; [|do 2 (split; [vm_compute; reflexivity|]); vm_compute; reflexivity].
  repeat constructor; cbn; intuition congruence.
Qed.

Theorem C102_wnear_reachable :
  forall self b evs, is_valid_account_id self = true ->
  token_reads (WNearSpec.w_token (WNearSpec.final self (WNearSpec.start b) evs)).
Proof. exact wnear_survives. Qed.
Print Assumptions C102_wnear_reachable.
Example C102_wnear_reachable_applies :
  is_valid_account_id "wrap.near" = true /\
  WM.ft_total_supply (WNearSpec.w_token WNearProps.w1) = WNearProps.near 3 /\
  map fst (WM.accounts (WNearSpec.w_token WNearProps.w1)) = ["alice"; "bob"; "dex"].
Proof. split; [reflexivity|]. split; vm_compute; reflexivity. Qed.
