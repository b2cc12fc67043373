(** What a staking pool pays for storage (C105). *)
From Coq Require Import NArith List Bool String.
From Verif Require Import Prelude StorageModel StorageSpec Borsh PersistModel StakingPoolModel StakingPoolSpec StakingPoolDemo PoolStore PoolStoreProofs PoolPersist.
Import ListNotations.
Open Scope string_scope.
Open Scope N_scope.

(** What the account of a pool takes: the owner's name and the staking key once, every account that has a record 198
    bytes and twice its name. *)
Theorem C105_bytes :
  forall p, pool_bytes p = 255808 + slen (owner_id p) + slen (stake_public_key p)
                           + sumN (fun e => 198 + 2 * slen (fst e)) (accounts p).
Proof. exact pool_bytes_eq. Qed.
Print Assumptions C105_bytes.

(** The records that are counted: exactly those the collection holds once the accounts are in it, each once. *)
Theorem C105_records :
  forall p, NoDup (mkeys (accounts p)) -> N.of_nat (List.length (accounts p)) < 2 ^ 64 ->
  exists st, put_all (mkHandle UnorderedMap "u" 0 0) (fun _ => None) (accounts p) = Ok (st, accounts_handle p) /\
    (forall k v, st k = Some v <-> In (k, v) (map_records (accounts_handle p) 0 (accounts p))) /\
    NoDup (map fst (map_records (accounts_handle p) 0 (accounts p))).
Proof. exact pool_records. Qed.
Print Assumptions C105_records.

(** A pool of 2.7 NEAR; [k] accounts whose names have six bytes deposit one yoctoNEAR each. *)
Definition store_ctx : ctx := mkCtx "pool" "factory" 0 (27 * 10 ^ 23) 0 10 [].
Definition store0 : world :=
  mkWorld (mkPool "owner" "ed25519:key" 10 (27 * 10 ^ 23) (27 * 10 ^ 23 - 10 ^ 12) (27 * 10 ^ 23 - 10 ^ 12)
             (mkFraction 1 10) [] false) (27 * 10 ^ 23) 10.
Lemma store_init : initial "pool" store0.
Proof.
  exists store_ctx, "owner", "ed25519:key", (mkFraction 1 10), [PStake (27 * 10 ^ 23 - 10 ^ 12) "ed25519:key" true].
  repeat (split; [vm_compute; reflexivity|]). vm_compute; reflexivity.
Qed.
Definition digits : list string := ["0"; "1"; "2"; "3"; "4"; "5"; "6"; "7"; "8"; "9"].
Definition dust_names : list account_id := flat_map (fun a => map (fun b => "dust" ++ a ++ b) digits) digits.
Definition alice_in : event := EvCall "alice" (10 * 10 ^ 24) 0 [] Deposit.
Definition dust : list event := map (fun a => EvCall a 1 0 [] Deposit) dust_names.

Definition long_name : account_id := String.concat "" (repeat "abcdefgh" 8).
Definition long_key : string := String.concat "" (repeat "ABCDEFGH" 8) ++ "Z".
(** The bound used below is met by names and a key of full length. *)
Example C105_most_bytes_met :
  pool_bytes (mkPool long_name long_key 10 0 0 0 (mkFraction 1 10) [(long_name, default_account); ("b" ++ String.concat "" (repeat "bcdefgh" 9), default_account)] false)
  = most_bytes 2.
Proof. vm_compute. reflexivity. Qed.
Example C105_bytes_applies :
  let w := final "pool" store0 [alice_in; EvCall "dust00" 1 0 [] Deposit] in
  List.length (accounts (w_pool w)) = 2%nat /\ pool_bytes (w_pool w) = 255808 + 5 + 11 + 208 + 210.
Proof. vm_compute. auto. Qed.

Lemma all_accepted h : forallb accepted h = true -> Forall (fun en => en_promises en <> None) h.
Proof.
  intros H. apply Forall_forall. intros en I. apply (proj1 (forallb_forall _ _) H) in I. clear H. unfold accepted in I.
  destruct (en_promises en); discriminate.
Qed.
Lemma all_at_most n h :
  forallb (fun en => delegators (en_after en) <=? n) h = true -> Forall (fun en => delegators (en_after en) <= n) h.
Proof.
  intros H. apply Forall_forall. intros en I. apply N.leb_le. exact (proj1 (forallb_forall _ _) H en I).
Qed.
Example C105_records_applies :
  let w := final "pool" store0 [alice_in; EvCall "dust00" 1 0 [] Deposit] in
  map_records (accounts_handle (w_pool w)) 0 (accounts (w_pool w)) =
  [("ui" ++ borsh_bytes "alice", u64_le 0); ("uk" ++ u64_le 0, borsh_bytes "alice");
   ("uv" ++ u64_le 0, to_bytes c_account (mkAccount (10 * 10 ^ 24) 0 0));
   ("ui" ++ borsh_bytes "dust00", u64_le 1); ("uk" ++ u64_le 1, borsh_bytes "dust00");
   ("uv" ++ u64_le 1, to_bytes c_account (mkAccount 1 0 0))].
Proof. vm_compute. reflexivity. Qed.
(** C105, refuted. Nobody pays for the record a deposit makes. Here everybody's call was accepted and paid for, Alice
    asks for the tokens the pool keeps for Alice, the contract grants them, and the runtime refuses: a hundred accounts
    that deposited one yoctoNEAR each have used up what the pool had for its storage. *)
Theorem C105_withdrawals_refuted :
  exists self w0 evs u amount w1 ps,
    initial self w0 /\ within_limits self w0 evs /\
    Forall (fun en => en_promises en <> None) (charged_history self w0 evs) /\
    let w := charged_final self w0 evs in
    get_account_unstaked_balance (w_pool w) u = Ok amount /\
    step self w (EvCall u 0 0 [] WithdrawAll) = (w1, Some ps) /\ In (PTransfer u amount) ps /\
    charged_step self w (EvCall u 0 0 [] WithdrawAll) = (w, None).
Proof.
  exists "pool", store0, (alice_in :: dust), "alice", (10 * 10 ^ 24),
    (fst (step "pool" (charged_final "pool" store0 (alice_in :: dust)) (EvCall "alice" 0 0 [] WithdrawAll))),
    [PTransfer "alice" (10 * 10 ^ 24)]. split; [exact store_init|]. split; [split; vm_compute; congruence|].
  split.
  { apply all_accepted. vm_compute. reflexivity. }
  cbv zeta. split; [vm_compute; reflexivity|]. split; [vm_compute; reflexivity|].
  split; [left; reflexivity|]. vm_compute; reflexivity.
Qed.
Print Assumptions C105_withdrawals_refuted.

(** C105, what holds. While the accounts are as few as the initial tokens pay for, no call is ever refused for storage,
    whatever anybody does. *)
Theorem C105_first_delegators :
  forall self w0 evs n,
    initial self w0 -> stake_calls (history self w0 evs) <= STAKE_SHARE_PRICE_GUARANTEE_FUND ->
    short_names w0 -> Forall short_event evs ->
    most_bytes n * BYTE_COST + STAKE_SHARE_PRICE_GUARANTEE_FUND <= w_total w0 ->
    Forall (fun en => delegators (en_after en) <= n) (history self w0 evs) ->
    charged_history self w0 evs = history self w0 evs /\ charged_final self w0 evs = final self w0 evs.
Proof. exact first_delegators. Qed.
Print Assumptions C105_first_delegators.
(** The 30 NEAR a pool made by the factory starts with (staking-pool-factory/src/lib.rs:11) pay for 8417 accounts. *)
Example C105_factory_pool : most_bytes 8417 * BYTE_COST + STAKE_SHARE_PRICE_GUARANTEE_FUND <= 30 * 10 ^ 24.
Proof. vm_compute. discriminate. Qed.
(** The small pool above has room for 40 of them, and the first forty accounts leave Alice's withdrawal possible. *)
Example C105_first_delegators_applies :
  let evs := (alice_in :: firstn 39 dust ++ [EvCall "alice" 0 0 [] WithdrawAll])%list in
  initial "pool" store0 /\ stake_calls (history "pool" store0 evs) <= STAKE_SHARE_PRICE_GUARANTEE_FUND /\
  short_names store0 /\ Forall short_event evs /\
  most_bytes 40 * BYTE_COST + STAKE_SHARE_PRICE_GUARANTEE_FUND <= w_total store0 /\
  Forall (fun en => delegators (en_after en) <= 40) (history "pool" store0 evs) /\
  delegators (final "pool" store0 (firstn 40 evs)) = 40 /\
  w_total (charged_final "pool" store0 evs) = 27 * 10 ^ 23 + 39.
Proof.
  cbv zeta. split; [exact store_init|]. split; [vm_compute; discriminate|].
  split; [split; vm_compute; discriminate|].
  split; [repeat constructor; vm_compute; discriminate|]. split; [vm_compute; discriminate|].
  split; [|split; vm_compute; reflexivity].
  apply all_at_most. vm_compute. reflexivity.
Qed.

(** And with any number of accounts, a call the contract accepts is accepted whenever what the pool still owes
    afterwards, staked and unstaked, is at least what its storage costs: only the last ones to leave can be refused. *)
Theorem C105_covered_by_the_rest :
  forall self w0 evs who attached locked results m w1 ps,
    initial self w0 ->
    stake_calls (charged_history self w0 evs) < STAKE_SHARE_PRICE_GUARANTEE_FUND ->
    let w := charged_final self w0 evs in let e := EvCall who attached locked results m in
    step self w e = (w1, Some ps) ->
    pool_storage_cost (w_pool w1) <= total_staked_balance (w_pool w1) + all_unstaked (w_pool w1) ->
    charged_step self w e = (w1, Some ps).
Proof. exact covered_by_the_rest. Qed.
Print Assumptions C105_covered_by_the_rest.
(** All the dust is there, and Alice takes most, not all. *)
Example C105_covered_by_the_rest_applies :
  let w := charged_final "pool" store0 (alice_in :: dust) in
  exists w1 ps, step "pool" w (EvCall "alice" 0 0 [] (Withdraw (99 * 10 ^ 23))) = (w1, Some ps) /\
    pool_storage_cost (w_pool w1) <= total_staked_balance (w_pool w1) + all_unstaked (w_pool w1).
Proof.
  cbv zeta. exists (fst (step "pool" (charged_final "pool" store0 (alice_in :: dust))
                  (EvCall "alice" 0 0 [] (Withdraw (99 * 10 ^ 23))))), [PTransfer "alice" (99 * 10 ^ 23)].
  split; [vm_compute; reflexivity|]. vm_compute. discriminate.
Qed.

(** Charging for storage only refuses calls: what a charged pool does, a pool that never saw the refused calls does.
    So everything proved of [history] and [final] (C01 - C21 and others) holds of the charged pool. *)
Theorem C105_charging_only_refuses :
  forall self w0 evs, exists evs',
    charged_final self w0 evs = final self w0 evs' /\ incl evs' evs /\
    filter accepted (charged_history self w0 evs) = filter accepted (history self w0 evs').
Proof. intros self w0 evs. exact (charged_is_free self evs w0). Qed.
Print Assumptions C105_charging_only_refuses.
(** The history of the refuted claim with Alice's refused withdrawal in it. *)
Example C105_charging_only_refuses_applies :
  let evs := (alice_in :: dust ++ [EvCall "alice" 0 0 [] WithdrawAll])%list in
  charged_final "pool" store0 evs = final "pool" store0 (alice_in :: dust) /\
  w_total (final "pool" store0 evs) + 10 * 10 ^ 24 = w_total (charged_final "pool" store0 evs).
Proof. vm_compute. auto. Qed.

(** C102 for the pool, in every state it can reach: written to storage, state and accounts, and read back, it is the same
    pool, accounts listed in the same order. *)
Theorem C102_pool_reachable :
  forall self w0 evs,
    initial self w0 -> short_names w0 -> Forall short_event evs ->
    w_epoch (final self w0 evs) < 2 ^ 64 -> delegators (final self w0 evs) + 1 < 2 ^ 64 ->
    exists st, saved_pool (w_pool (final self w0 evs)) = Ok st /\
               loaded_pool st = Some (w_pool (final self w0 evs)).
Proof. exact pool_survives. Qed.
Print Assumptions C102_pool_reachable.
(** With stake, a second account, and an unstaking in progress. *)
Example C102_pool_reachable_applies :
  let evs := [EvCall "alice" (10 * 10 ^ 24) 0 [] DepositAndStake; EvCall "bob" (10 ^ 24) 0 [] Deposit; EvEpoch 3;
              EvIncome (10 ^ 23); EvCall "alice" 0 (12 * 10 ^ 24) [] (Unstake (10 ^ 24))] in
  let w := final "pool" store0 evs in
  initial "pool" store0 /\ short_names store0 /\ Forall short_event evs /\ w_epoch w < 2 ^ 64 /\
  delegators w + 1 < 2 ^ 64 /\ map fst (accounts (w_pool w)) = ["alice"; "bob"; "owner"] /\
  option_map unstaked_available_epoch_height (mget "alice" (accounts (w_pool w))) = Some 17 /\
  match saved_pool (w_pool w) with Ok st => loaded_pool st = Some (w_pool w) | Panic _ => False end.
Proof.
  cbv zeta. split; [exact store_init|]. split; [split; vm_compute; discriminate|].
  split; [repeat constructor; vm_compute; discriminate|].
  do 4 (split; [vm_compute; reflexivity|]). vm_compute. reflexivity.
Qed.
