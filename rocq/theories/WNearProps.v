(** The properties of the wrapped NEAR token (C69 - C71, C76 - C79). *)
From Coq Require Import NArith List Bool String Permutation.
From Verif Require Import Prelude Messages WNearModel WNearSpec WNearHist WNearCalls.
Import ListNotations.
Open Scope string_scope.
Open Scope N_scope.

(** A concrete history: alice and bob deposit, alice sends tokens to bob and makes a transfer call to dex, which
    keeps part of it; eve leaves before their own transfer call is resolved. *)
Definition near (n : N) : N := n * 10 ^ 24.
Definition G : N := 300000000000000.
Definition b0 : N := near 10.
Definition evs0 : list event :=
  [ECall "alice" (near 5 + DEPOSIT) G NearDeposit; ECall "bob" 0 G NearDeposit; ECall "bob" DEPOSIT G NearDeposit;
   ECall "bob" (2 * DEPOSIT) G (StorageDeposit (Some "dex") None); ECall "alice" 1 G (FtTransfer "bob" (near 2));
   ECall "alice" 1 G (FtTransferCall "dex" (near 1)); ECall "eve" (near 3 + DEPOSIT) G NearDeposit;
   ECall "eve" 1 G (FtTransferCall "dex" (near 3)); ECall "eve" 1 G (StorageUnregister None);
   EReceive 2 Failed; EReceive 1 (Unused (near 1 / 4)); ECall "carol" 1 G (NearWithdraw 0)].
Definition evs1 : list event := [EResolve 2 true; EResolve 2 true; EPay 0 true; ECall "bob" 1 G (NearWithdraw (near 2))].
Definition w0 : world := final "wrap.near" (start b0) evs0.
Definition w1 : world := final "wrap.near" (start b0) (evs0 ++ evs1).

Example demo :
  map (bal w0) ["alice"; "bob"; "dex"; "eve"] = [near 2; near 2; near 4; 0] /\ supply w0 = near 8 /\
  transfer_calls (log "wrap.near" (start b0) evs0) = [("alice", "dex", near 1); ("eve", "dex", near 3)] /\
  in_flight w0 = [("eve", "dex", near 3); ("alice", "dex", near 1)] /\
  map (bal w1) ["alice"; "bob"; "dex"; "eve"] = [near 9 / 4; 0; near 3 / 4; 0] /\ supply w1 = near 3 /\
  log "wrap.near" w0 evs1 =
    [BResolved "eve" "dex" (near 3) (near 3); BResolved "alice" "dex" (near 1) (near 3 / 4);
     BPaid "bob" DEPOSIT; BAccepted "bob" 1 (NearWithdraw (near 2)) VNone] /\
  due w1 "bob" = [near 2 + 1] /\ due w1 "eve" = [DEPOSIT + 1].
Proof. vm_compute. repeat split. Qed.

(** * C69 *)

(** The total supply is the sum of the balances, over any list of different accounts with all those that have one. *)
Theorem C69_supply_is_the_sum_of_balances :
  forall self b evs l, NoDup l -> (forall a, bal (final self (start b) evs) a <> 0 -> In a l) ->
  supply (final self (start b) evs) = sum (map (bal (final self (start b) evs)) l).
Proof. exact supply_is_sum. Qed.
Print Assumptions C69_supply_is_the_sum_of_balances.

Example C69_applies : supply w0 = sum (map (bal w0) ["dex"; "eve"; "bob"; "alice"; "nobody"]) /\ 0 < supply w0.
Proof. vm_compute. split; reflexivity. Qed.

(** * C70 *)

(** Whatever happens, the contract holds the supply, a storage deposit for each registered account, and what it
    held when it was created. *)
Theorem C70_fully_backed :
  forall self b evs l, let w := final self (start b) evs in
  NoDup l -> (forall a, In a l -> registered w a) ->
  b + supply w + DEPOSIT * N.of_nat (List.length l) <= w_balance w.
Proof. exact fully_backed. Qed.
Print Assumptions C70_fully_backed.

(** The storage deposits pay for the storage of the accounts. *)
Theorem C70_storage_is_paid :
  forall self b evs l, let w := final self (start b) evs in
  NoDup l -> (forall a, In a l -> registered w a) -> Forall (fun a => slen a <= 64) l ->
  b + supply w + STORAGE_BYTE_COST * sum (map record_usage l) <= w_balance w.
Proof. exact storage_is_paid. Qed.
Print Assumptions C70_storage_is_paid.

(** No token appears or disappears: what the contract holds and has sent is what it was given. *)
Theorem C70_ledger :
  forall self b evs, let w := final self (start b) evs in let l := log self (start b) evs in
  w_balance w + due_total w + paid_total l = b + attached_total l + incomes evs.
Proof. exact ledger. Qed.
Print Assumptions C70_ledger.

Example C70_applies : Forall (fun a => registered w0 a) ["alice"; "bob"; "dex"] /\ w_balance w0 = b0 + supply w0 + 3 * DEPOSIT + 3.
Proof. split; [repeat constructor; eexists; vm_compute; reflexivity|vm_compute; reflexivity]. Qed.

(** * C71 *)

(** [near_deposit] succeeds exactly with a positive deposit that covers a registration that is still to be made. *)
Theorem C71_deposit_accepted_iff :
  forall self b evs who attached gas, let w := final self (start b) evs in
  who <> self -> is_valid_account_id who = true ->
  accepts self w who attached gas NearDeposit <->
  registered w who /\ 0 < attached /\ supply w + attached < 2 ^ 128 \/
  ~ registered w who /\ DEPOSIT <= attached /\ supply w + (attached - DEPOSIT) < 2 ^ 128.
Proof. intros. apply deposit_accepted_iff; auto. apply good_reach. Qed.
Print Assumptions C71_deposit_accepted_iff.

(** It mints the deposit, less the price of a new registration, for the caller; nothing else changes. *)
Theorem C71_deposit_effect :
  forall self b evs who attached gas, let w := final self (start b) evs in
  accepts self w who attached gas NearDeposit ->
  let w' := step self w (ECall who attached gas NearDeposit) in
  exists minted, (registered w who /\ minted = attached \/ ~ registered w who /\ minted + DEPOSIT = attached) /\
    bal w' who = bal w who + minted /\ supply w' = supply w + minted /\ (forall a, a <> who -> bal w' a = bal w a) /\
    (forall a, registered w' a <-> registered w a \/ a = who) /\
    w_balance w' = w_balance w + attached /\ w_msgs w' = w_msgs w.
Proof. intros. apply deposit_effect; auto. apply good_reach. Qed.
Print Assumptions C71_deposit_effect.

(** [near_withdraw] succeeds exactly for what the caller has: the contract always has the NEAR. *)
Theorem C71_withdraw_accepted_iff :
  forall self b evs who attached gas x, let w := final self (start b) evs in
  who <> self -> is_valid_account_id who = true ->
  accepts self w who attached gas (NearWithdraw x) <->
  attached = 1 /\ registered w who /\ x <= bal w who /\ x + 1 < 2 ^ 128.
Proof. intros. apply withdraw_accepted_iff; auto. apply good_reach. Qed.
Print Assumptions C71_withdraw_accepted_iff.

(** It burns the amount of the caller and sends them the amount and the yoctoNEAR they attached. *)
Theorem C71_withdraw_effect :
  forall self b evs who attached gas x, let w := final self (start b) evs in
  accepts self w who attached gas (NearWithdraw x) ->
  let w' := step self w (ECall who attached gas (NearWithdraw x)) in
  bal w' who + x = bal w who /\ supply w' + x = supply w /\ (forall a, a <> who -> bal w' a = bal w a) /\
  (forall a, registered w' a <-> registered w a) /\
  w_balance w' + (x + 1) = w_balance w + attached /\ w_msgs w' = (w_msgs w ++ [MTransfer who (x + 1)])%list.
Proof. intros. apply withdraw_effect; auto. apply good_reach. Qed.
Print Assumptions C71_withdraw_effect.

Example C71_applies :
  accepts "wrap.near" w0 "alice" 7 G NearDeposit /\ accepts "wrap.near" w0 "eve" DEPOSIT G NearDeposit /\
  ~ accepts "wrap.near" w0 "eve" (DEPOSIT - 1) G NearDeposit /\
  accepts "wrap.near" w0 "alice" 1 G (NearWithdraw (near 2)) /\ ~ accepts "wrap.near" w0 "alice" 1 G (NearWithdraw (near 2 + 1)).
Proof.
  repeat split; try (eexists; vm_compute; reflexivity); intros (v & H); vm_compute in H; discriminate.
Qed.

(** * C76 *)

(** An event makes a balance smaller only if it is a withdrawal, a transfer or a forced removal of the account by
    its owner, or the end of a transfer call to it, which takes back at most what the receiver did not use. *)
Theorem C76_only_the_owner_spends :
  forall self b evs ev a, let w := final self (start b) evs in
  bal (step self w ev) a < bal w a ->
  (exists attached gas cl, ev = ECall a attached gas cl /\
     ((exists x, cl = NearWithdraw x /\ bal (step self w ev) a + x = bal w a) \/
      (exists r x, (cl = FtTransfer r x \/ cl = FtTransferCall r x) /\ bal (step self w ev) a + x = bal w a) \/
      cl = StorageUnregister (Some true))) \/
  (exists n s x r, ev = EResolve n true /\ nth_error (w_msgs w) n = Some (MResolve s a x r) /\
     bal w a <= bal (step self w ev) a + unused_of r x).
Proof. intros. apply who_reduces; auto. apply good_reach. Qed.
Print Assumptions C76_only_the_owner_spends.

(** Transfers succeed exactly when the sender has the amount and the receiver is another registered account. *)
Theorem C76_transfer_accepted_iff :
  forall self b evs who r attached gas x, let w := final self (start b) evs in
  who <> self -> is_valid_account_id who = true ->
  accepts self w who attached gas (FtTransfer r x) <-> can_transfer w who r attached x.
Proof. intros. apply transfer_accepted_iff; auto. apply good_reach. Qed.
Print Assumptions C76_transfer_accepted_iff.
Theorem C76_transfer_effect :
  forall self b evs who r attached gas x, let w := final self (start b) evs in
  accepts self w who attached gas (FtTransfer r x) ->
  let w' := step self w (ECall who attached gas (FtTransfer r x)) in
  transferred w w' who r x /\ w_balance w' = w_balance w + 1 /\ w_msgs w' = w_msgs w.
Proof. intros. apply transfer_effect; auto. apply good_reach. Qed.
Print Assumptions C76_transfer_effect.

Example C76_applies :
  bal (step "wrap.near" w0 (ECall "alice" 1 G (FtTransfer "bob" 5))) "alice" < bal w0 "alice" /\
  bal (step "wrap.near" w0 (EResolve 2 true)) "dex" < bal w0 "dex" /\
  can_transfer w0 "alice" "bob" 1 (near 2) /\ ~ accepts "wrap.near" w0 "alice" 1 G (FtTransfer "eve" 1).
Proof.
  split; [reflexivity|]. split; [reflexivity|]. split.
  - split; [reflexivity|]. split; [reflexivity|]. split; [discriminate|]. split; [reflexivity|].
    split; [eexists; vm_compute; reflexivity|]. split; [vm_compute; discriminate|eexists; vm_compute; reflexivity].
  - intros (v & H); vm_compute in H; discriminate.
Qed.

(** * C77 *)

(** [storage_deposit] registers an account for exactly the price; all the rest comes back; no balance changes. *)
Theorem C77_storage_deposit_accepted_iff :
  forall self b evs who attached gas o ro, let w := final self (start b) evs in
  who <> self -> is_valid_account_id who = true ->
  accepts self w who attached gas (StorageDeposit o ro) <->
  (registered w (target who o) \/ DEPOSIT <= attached) /\ is_valid_account_id (target who o) = true.
Proof. intros. apply storage_deposit_accepted_iff; auto. apply good_reach. Qed.
Print Assumptions C77_storage_deposit_accepted_iff.
Theorem C77_storage_deposit_effect :
  forall self b evs who attached gas o ro, let w := final self (start b) evs in
  accepts self w who attached gas (StorageDeposit o ro) ->
  let w' := step self w (ECall who attached gas (StorageDeposit o ro)) in
  (forall a, bal w' a = bal w a) /\ supply w' = supply w /\
  (forall a, registered w' a <-> registered w a \/ a = target who o) /\
  (registered w (target who o) -> w_balance w' = w_balance w /\ w_msgs w' = (w_msgs w ++ change who attached)%list) /\
  (~ registered w (target who o) ->
     w_balance w' = w_balance w + DEPOSIT /\ w_msgs w' = (w_msgs w ++ change who (attached - DEPOSIT))%list).
Proof. intros. apply storage_deposit_effect; auto. apply good_reach. Qed.
Print Assumptions C77_storage_deposit_effect.

(** [storage_unregister] gives the price back; tokens are destroyed only with force, and only the caller's. *)
Theorem C77_unregister_accepted_iff :
  forall self b evs who attached gas f, let w := final self (start b) evs in
  who <> self -> is_valid_account_id who = true ->
  accepts self w who attached gas (StorageUnregister f) <->
  attached = 1 /\ (registered w who -> bal w who = 0 \/ f = Some true).
Proof. intros. apply unregister_accepted_iff; auto. apply good_reach. Qed.
Print Assumptions C77_unregister_accepted_iff.
Theorem C77_unregister_effect :
  forall self b evs who attached gas f, let w := final self (start b) evs in
  accepts self w who attached gas (StorageUnregister f) ->
  let w' := step self w (ECall who attached gas (StorageUnregister f)) in
  bal w' who = 0 /\ (forall a, a <> who -> bal w' a = bal w a) /\ supply w' + bal w who = supply w /\
  (forall a, registered w' a <-> registered w a /\ a <> who) /\
  (registered w who -> w_balance w' + DEPOSIT = w_balance w /\ w_msgs w' = (w_msgs w ++ [MTransfer who (DEPOSIT + 1)])%list) /\
  (~ registered w who -> w_balance w' = w_balance w + 1 /\ w_msgs w' = w_msgs w).
Proof. intros. apply unregister_effect; auto. apply good_reach. Qed.
Print Assumptions C77_unregister_effect.

(** [storage_withdraw] never pays anything: there is nothing above the price to withdraw. *)
Theorem C77_storage_withdraw :
  forall self b evs who attached gas o, let w := final self (start b) evs in
  who <> self -> is_valid_account_id who = true ->
  (accepts self w who attached gas (StorageWithdraw o) <->
     attached = 1 /\ registered w who /\ (o = None \/ o = Some 0)) /\
  (accepts self w who attached gas (StorageWithdraw o) ->
     step self w (ECall who attached gas (StorageWithdraw o)) = mkWorld (w_token w) (w_balance w + 1) (w_msgs w)).
Proof. intros. apply storage_withdraw_spec; auto. apply good_reach. Qed.
Print Assumptions C77_storage_withdraw.
(** The view tells a registered account the price, all of it in use. *)
Theorem C77_storage_view :
  forall self b evs a, let w := final self (start b) evs in
  (registered w a -> storage_balance_of (w_token w) a = Ok (Some (DEPOSIT, 0))) /\
  (~ registered w a -> storage_balance_of (w_token w) a = Ok None).
Proof. intros. apply storage_view. apply good_reach. Qed.
Print Assumptions C77_storage_view.
Example C77_withdraw_applies :
  accepts "wrap.near" w0 "bob" 1 G (StorageWithdraw None) /\ accepts "wrap.near" w0 "bob" 1 G (StorageWithdraw (Some 0)) /\
  ~ accepts "wrap.near" w0 "bob" 1 G (StorageWithdraw (Some 1)) /\ ~ accepts "wrap.near" w0 "eve" 1 G (StorageWithdraw None).
Proof. repeat split; try (eexists; vm_compute; reflexivity); intros (v & H); vm_compute in H; discriminate. Qed.

Example C77_applies :
  accepts "wrap.near" w0 "bob" 5 G (StorageDeposit (Some "alice") None) /\
  accepts "wrap.near" w0 "bob" DEPOSIT G (StorageDeposit (Some "eve") None) /\
  accepts "wrap.near" w0 "bob" 1 G (StorageUnregister (Some true)) /\ ~ accepts "wrap.near" w0 "bob" 1 G (StorageUnregister None) /\
  accepts "wrap.near" w0 "eve" 1 G (StorageUnregister None).
Proof. repeat split; try (eexists; vm_compute; reflexivity); intros (v & H); vm_compute in H; discriminate. Qed.

(** * C78 *)

Theorem C78_transfer_call_accepted_iff :
  forall self b evs who r attached gas x, let w := final self (start b) evs in
  who <> self -> is_valid_account_id who = true ->
  accepts self w who attached gas (FtTransferCall r x) <-> can_transfer w who r attached x /\ 30000000000000 <= gas.
Proof. intros. apply transfer_call_accepted_iff; auto. apply good_reach. Qed.
Print Assumptions C78_transfer_call_accepted_iff.
Theorem C78_transfer_call_effect :
  forall self b evs who r attached gas x, let w := final self (start b) evs in
  accepts self w who attached gas (FtTransferCall r x) ->
  let w' := step self w (ECall who attached gas (FtTransferCall r x)) in
  transferred w w' who r x /\ w_balance w' = w_balance w + 1 /\ w_msgs w' = (w_msgs w ++ [MOnTransfer who r x])%list.
Proof. intros. apply transfer_call_effect; auto. apply good_reach. Qed.
Print Assumptions C78_transfer_call_effect.

(** Every accepted transfer call is in flight or was settled, once. *)
Theorem C78_settled_once :
  forall self b evs, let w := final self (start b) evs in let l := log self (start b) evs in
  Permutation (transfer_calls l) (resolved l ++ unresolved l ++ in_flight w).
Proof. exact calls_accounted. Qed.
Print Assumptions C78_settled_once.

(** With gas the settlement never fails. It moves what the receiver did not use, and still has, back to the sender,
    or destroys it when the sender has left; nobody else is affected; and it reports what was used. *)
Theorem C78_settlement :
  forall self b evs n s d x r, let w := final self (start b) evs in
  nth_error (w_msgs w) n = Some (MResolve s d x r) ->
  let w' := step self w (EResolve n true) in
  exists used, snd (step_obs self w (EResolve n true)) = [BResolved s d x used] /\
  s <> d /\ bal w' d + refund_of w d x r = bal w d /\ (forall a, a <> s -> a <> d -> bal w' a = bal w a) /\
  (forall a, registered w' a <-> registered w a) /\ w_balance w' = w_balance w /\ w_msgs w' = drop_nth n (w_msgs w) /\
  (registered w s -> bal w' s = bal w s + refund_of w d x r /\ supply w' = supply w /\ used + refund_of w d x r = x) /\
  (~ registered w s -> bal w' s = 0 /\ supply w' + refund_of w d x r = supply w /\ used = x).
Proof. intros. apply resolve_effect; auto. apply good_reach. Qed.
Print Assumptions C78_settlement.

Example C78_applies :
  accepts "wrap.near" w0 "alice" 1 G (FtTransferCall "bob" (near 1)) /\
  nth_error (w_msgs w0) 2 = Some (MResolve "eve" "dex" (near 3) Failed) /\
  nth_error (w_msgs w0) 3 = Some (MResolve "alice" "dex" (near 1) (Unused (near 1 / 4))) /\
  refund_of w0 "dex" (near 1) (Unused (near 1 / 4)) = near 1 / 4.
Proof. split; [eexists; vm_compute; reflexivity|vm_compute; repeat split]. Qed.

(** * C79 *)

(** At any time all holders can withdraw everything, one after the other: every withdrawal is accepted and paid. *)
Theorem C79_everybody_can_leave :
  forall self w gas l, (exists b evs, w = final self (start b) evs) -> supply w + 1 < 2 ^ 128 -> NoDup l ->
  (forall a, In a l -> registered w a /\ a <> self /\ is_valid_account_id a = true) ->
  let evs := map (fun a => ECall a 1 gas (NearWithdraw (bal w a))) l in
  log self w evs = map (fun a => BAccepted a 1 (NearWithdraw (bal w a)) VNone) l /\
  w_msgs (final self w evs) = (w_msgs w ++ map (fun a => MTransfer a (bal w a + 1)) l)%list /\
  supply (final self w evs) + sum (map (bal w) l) = supply w /\
  (forall a, In a l -> bal (final self w evs) a = 0) /\ (forall a, ~ In a l -> bal (final self w evs) a = bal w a).
Proof. exact bank_run. Qed.
Print Assumptions C79_everybody_can_leave.

Example C79_applies :
  supply w0 + 1 < 2 ^ 128 /\ Forall (fun a => registered w0 a /\ a <> "wrap.near" /\ is_valid_account_id a = true) ["dex"; "alice"; "bob"] /\
  supply (final "wrap.near" w0 (map (fun a => ECall a 1 G (NearWithdraw (bal w0 a))) ["dex"; "alice"; "bob"])) = 0.
Proof.
  split; [reflexivity|]. split; [|vm_compute; reflexivity].
  repeat (constructor; [split; [eexists; vm_compute; reflexivity|split; [discriminate|reflexivity]]|]). constructor.
Qed.

(** * C86 *)

(** Nobody but the contract can settle a transfer call, not even as the callback of a promise of their own. *)
Theorem C86_settlement_is_private :
  forall self who attached gas result t s r x,
  is_ok (exec (mkCtx self who attached gas result) t (FtResolveTransfer s r x)) = true ->
  who = self /\ attached = 0 /\ result <> None.
Proof. exact resolve_private. Qed.
Print Assumptions C86_settlement_is_private.
Example C86_applies :
  let back := FtResolveTransfer "eve" "bob" 1 in
  is_ok (exec (mkCtx "wrap.near" "eve" 0 G (Some Failed)) (w_token w0) back) = false /\
  is_ok (exec (mkCtx "wrap.near" "wrap.near" 0 G (Some Failed)) (w_token w0) back) = true.
Proof. vm_compute. auto. Qed.
