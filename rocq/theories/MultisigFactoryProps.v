(** The properties of the multisig factory (C68). *)
From Coq Require Import NArith List Bool String.
From Verif Require Import Prelude Messages MultisigFactoryModel MultisigFactorySpec MultisigFactoryProofs.
From Verif Require Multisig2Model.
Import ListNotations.
Open Scope string_scope.
Open Scope N_scope.

(** A concrete history: alice creates a multisig of two members, bob asks for three confirmations by two
    members and carol for a name with a dot in it. *)
Definition near (n : N) : N := n * 10 ^ 24.
Definition w0 : world := mkWorld (near 50) [] [].
Definition ms0 : list member := [MM.AccessKey "key1"; MM.Account "dave"].
Definition T : N := 1000000000000.
Definition evs0 : list event :=
  [ECreateCall "alice" (near 5) (100 * T) "a" ms0 2; ECreateCall "bob" (near 6) (100 * T) "b" ms0 3;
   ECreateCall "carol" (near 7) (100 * T) "c.d" ms0 1; ECreateCall "eve" (near 8) (49 * T) "e" ms0 1;
   ECreateCall "eve" (near 8) (100 * T) "E" ms0 1; ECreate 1 true].
Definition evs1 : list event := [ECreate 0 true; ECreate 0 true].

Example demo :
  accepted (log "multisig.near" w0 evs0) = [("alice", near 5); ("bob", near 6); ("carol", near 7)] /\
  created (log "multisig.near" w0 evs0) = [] /\
  pending (final "multisig.near" w0 evs0) = [("alice", near 5); ("carol", near 7)] /\
  created (log "multisig.near" w0 (evs0 ++ evs1)) = [("alice", near 5)] /\
  pending (final "multisig.near" w0 (evs0 ++ evs1)) = [] /\
  w_balance (final "multisig.near" w0 (evs0 ++ evs1)) = near 63.
Proof. vm_compute. repeat split. Qed.

(** An accepted creation may end with neither a multisig nor a refund: the deposit stays with the factory. *)
Theorem C68_failed_creation_is_refunded_refuted :
  exists self w evs who x, w_msgs w = [] /\ who <> self /\
    accepted (log self w evs) = [(who, x)] /\ 0 < x /\ w_msgs (final self w evs) = [] /\
    created (log self w evs) = [] /\ sent_to who (log self w evs) = [] /\
    w_balance (final self w evs) = w_balance w + x.
Proof.
  exists "multisig.near", w0, [ECreateCall "bob" (near 6) (100 * T) "b" ms0 3; ECreate 0 true], "bob", (near 6).
  vm_compute. repeat split; discriminate.
Qed.
Print Assumptions C68_failed_creation_is_refunded_refuted.

(** In no history does any caller get a deposit back from a creation. *)
Theorem C68_nobody_is_ever_refunded :
  forall self w evs who, w_msgs w = [] -> who <> self -> sent_to who (log self w evs) = [].
Proof. exact never_refunds. Qed.
Print Assumptions C68_nobody_is_ever_refunded.

(** What does hold: nothing is lost. The deposits accepted are those of the multisigs created, those in flight and
    what came back to the factory, whose balance moves by nothing else. *)
Theorem C68_created_or_kept_by_factory_partial :
  forall self w evs, w_msgs w = [] ->
  amounts (accepted (log self w evs)) =
    amounts (created (log self w evs)) + sum (sent_to self (log self w evs)) + amounts (pending (final self w evs)) /\
  w_balance (final self w evs) = w_balance w + incomes evs + sum (sent_to self (log self w evs)).
Proof. exact created_or_kept. Qed.
Print Assumptions C68_created_or_kept_by_factory_partial.

(** A multisig is created only as somebody asked, with exactly the deposit they attached. *)
Theorem C68_created_as_asked_partial :
  forall self w evs who a x m, w_msgs w = [] -> In (BCreated who a x m) (log self w evs) ->
  exists gas name ms k pr, In (ECreateCall who x gas name ms k) evs /\ a = name ++ "." ++ self /\
    is_valid_account_id a = true /\ MM.new a false ms k = Ok (m, pr).
Proof. exact created_as_asked. Qed.
Print Assumptions C68_created_as_asked_partial.

(** A call is accepted exactly with 50 Tgas and a name that makes a valid account; it sends the whole deposit and the
    rest of the gas with the members asked for, and no more. *)
Theorem C68_accepted_exactly_when_partial :
  forall self w who attached gas name ms k,
  let ev := ECreateCall who attached gas name ms k in
  (snd (step_obs self w ev) = [BAccepted who (name ++ "." ++ self) attached] <->
   is_valid_account_id (name ++ "." ++ self) = true /\ 50 * 10 ^ 12 <= gas) /\
  (snd (step_obs self w ev) = [BAccepted who (name ++ "." ++ self) attached] ->
   step self w ev = mkWorld (w_balance w) (w_accounts w)
     (w_msgs w ++ [(who, mkPromise (name ++ "." ++ self) attached ms k (gas - 50 * 10 ^ 12))])).
Proof. intros. split; [apply accepted_iff|apply accepted_sends]. Qed.
Print Assumptions C68_accepted_exactly_when_partial.

(** With a name without a dot that makes a valid account, not taken yet, no more confirmations than members, and
    gas, the multisig is created, whatever happened before. *)
Theorem C68_creation_succeeds_partial :
  forall self w evs who attached gas name ms k, w_msgs w = [] ->
  has_dot name = false -> is_valid_account_id (name ++ "." ++ self) = true -> 50 * 10 ^ 12 <= gas ->
  k <= N.of_nat (List.length ms) -> smem (name ++ "." ++ self) (w_accounts (final self w evs)) = false ->
  exists m, In (BCreated who (name ++ "." ++ self) attached m)
    (log self w (evs ++ [ECreateCall who attached gas name ms k;
                         ECreate (List.length (w_msgs (final self w evs))) true])).
Proof. exact creation_succeeds. Qed.
Print Assumptions C68_creation_succeeds_partial.

Example C68_applies :
  has_dot "b" = false /\ is_valid_account_id "b.multisig.near" = true /\ 50 * 10 ^ 12 <= 100 * T /\
  2 <= N.of_nat (List.length ms0) /\ smem "b.multisig.near" (w_accounts (final "multisig.near" w0 evs0)) = false.
Proof. vm_compute. repeat split; discriminate. Qed.
