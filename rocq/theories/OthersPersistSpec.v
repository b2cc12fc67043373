(** What the events and states of C102 are for the multisigs and the voting contract: the arguments of every call are
    values of their Rust types. *)
From Coq Require Import NArith List Bool String.
From Verif Require Import Prelude StorageModel Borsh PersistModel.
From Verif Require MultisigSpec Multisig2Spec VotingSpec.
Import ListNotations.
Open Scope N_scope.

Definition typed_event (e : MultisigSpec.event) : Prop :=
  typed c_bytes (MultisigSpec.e_key e) /\ MultisigSpec.e_time e < U64_BOUND /\
  match MultisigSpec.e_call e with
  | MM.CAddRequest r | MM.CAddRequestAndConfirm r => typed c_request r
  | _ => True
  end.

(** The text a member is known by in the confirmations fits a Rust [String] as well. *)
Definition typed_member (m : M2.member) : Prop := typed c_member m /\ slen (M2.text m) < U32_BOUND.
Definition typed_request2 (r : M2.request) : Prop :=
  typed c_request2 r /\
  Forall (fun a => match a with M2.AddMember m => typed_member m | _ => True end) (M2.actions r).
Definition typed_event2 (e : Multisig2Spec.event) : Prop :=
  Multisig2Spec.e_time e < U64_BOUND /\
  match Multisig2Spec.e_call e with
  | M2.CAddRequest r | M2.CAddRequestAndConfirm r => typed_request2 r
  | _ => True
  end.

(** What the multisigs keep reads back: the state with objects of the collections that fit, every request, every set of
    confirmations, every counter, and the members. *)
Definition reads {A} (c : codec A) (x : A) : Prop := from_bytes c (to_bytes c x) = Some x.
Definition multisig_reads (s : MM.contract) : Prop :=
  (forall r c n, typed c_unordered_map r -> typed c_unordered_map c -> typed c_unordered_map n ->
     option_map (multisig_of_fields s)
       (from_bytes c_multisig_fields (to_bytes c_multisig_fields (multisig_fields s r c n))) = Some (s, (r, c, n))) /\
  Forall (fun e => reads c_u32 (fst e) /\ reads c_signed_request (snd e)) (MM.requests s) /\
  Forall (fun e => reads c_u32 (fst e) /\ reads c_confirmations (snd e)) (MM.confirmations s) /\
  Forall (fun e => reads c_bytes (fst e) /\ reads c_u32 (snd e)) (MM.num_requests_pk s).
Definition multisig2_reads (s : M2.contract) : Prop :=
  (forall m r c n, typed c_unordered_set m -> typed c_unordered_map r -> typed (c_lookup LookupMap) c ->
     typed (c_lookup LookupMap) n ->
     option_map (multisig2_of_fields s)
       (from_bytes c_multisig2_fields (to_bytes c_multisig2_fields (multisig2_fields s m r c n))) = Some (s, (m, r, c, n))) /\
  Forall (reads c_member) (M2.members s) /\
  Forall (fun e => reads c_u32 (fst e) /\ reads c_signed_request2 (snd e)) (M2.requests s) /\
  Forall (fun e => reads c_u32 (fst e) /\ reads c_confirmations (snd e)) (M2.confirmations s) /\
  Forall (fun e => reads c_bytes (fst e) /\ reads c_u32 (snd e)) (M2.num_requests_pk s).

(** Voting: names and times fit, and no epoch has 2^32 validators. *)
Definition few (vs : VM.validators) : Prop := N.of_nat (List.length vs) < U32_BOUND.
Definition typed_voting_event (e : VotingSpec.event) : Prop :=
  match e with
  | VotingSpec.EvCall who _ ts _ => typed c_bytes who /\ ts < U64_BOUND
  | VotingSpec.EvEpoch _ vs => VotingSpec.validators_ok vs /\ few vs
  end.

(** The wrapped token: the state with the object of the map, and every account with its balance. *)
Definition token_reads (t : WM.token) : Prop :=
  (forall h, typed (c_lookup LookupMap) h ->
     option_map (token_of_fields (WM.accounts t)) (from_bytes c_token_fields (to_bytes c_token_fields (token_fields t h)))
       = Some (t, h)) /\
  Forall (fun e => reads c_bytes (fst e) /\ reads c_u128 (snd e)) (WM.accounts t).
