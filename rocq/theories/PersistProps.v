(** The properties of what the contracts keep in storage (C102 - C104). *)
From Coq Require Import NArith List Bool String Ascii.
From Verif Require Import Prelude StorageModel Borsh BorshProofs PersistModel PersistSpec PersistProofs.
From Verif Require Import LockupModel LockupWorld LockupSpec LockupProps.
Import ListNotations.
Open Scope string_scope.
Open Scope N_scope.

(** C102. What a call writes is what the next call reads. For the lockup contract this is said of every state it can
    reach; for the other contracts, of every value of their Rust types ([typed]), and in PoolStoreProps and
    OthersPersistProps of every state that the pool, the multisigs, voting and the wrapped token can reach. *)
Theorem C102_lockup :
  forall g w evs, starts g w -> sha_sized (w_lockup w) -> poll_times_fit evs ->
  let s := w_lockup (final g w evs) in from_bytes c_lockup (to_bytes c_lockup s) = Some s.
Proof. exact lockup_survives. Qed.
Print Assumptions C102_lockup.
(** In the middle of a termination, with tokens at a pool. *)
Example C102_lockup_applies :
  let evs := (staked ++ [terminate; by_foundation TerminationPrepareToWithdraw])%list in
  let s := w_lockup (final gen w1 evs) in
  starts gen w1 /\ sha_sized (w_lockup w1) /\ poll_times_fit evs /\
  get_termination_status s = Some UnstakingInProgress /\ get_known_deposited_balance s = 100 * near /\
  slen (to_bytes c_lockup s) = 151 /\ from_bytes c_lockup (to_bytes c_lockup s) = Some s.
Proof. split; [exact starts_w1|]. split; [exact I|]. split; [repeat constructor|]. vm_compute. auto. Qed.
(** The format, on one value: lengths and numbers are little endian, a variant is its position. *)
Example C102_format :
  to_bytes (c_option c_staking) (Some (mkStaking "ab" Busy 258)) =
  string_of_list_ascii (map ascii_of_N [1; 2; 0; 0; 0; 97; 98; 1; 2; 1; 0; 0; 0; 0; 0; 0; 0; 0; 0; 0; 0; 0; 0; 0]) /\
  to_bytes c_vesting (VTerminating (mkTermination 5 ReadyToWithdraw)) =
  string_of_list_ascii (map ascii_of_N [3; 5; 0; 0; 0; 0; 0; 0; 0; 0; 0; 0; 0; 0; 0; 0; 0; 4]).
Proof. vm_compute. auto. Qed.

(** The state under the key STATE, with the objects of the collections. *)
Theorem C102_pool :
  forall p h, typed c_pool_fields (pool_fields p h) ->
  option_map (pool_of_fields (SP.accounts p)) (from_bytes c_pool_fields (to_bytes c_pool_fields (pool_fields p h)))
    = Some (p, h).
Proof. intros p h T. rewrite (reads_back _ good_pool_fields _ T). now destruct p. Qed.
Print Assumptions C102_pool.
Theorem C102_voting : forall s, typed c_voting s -> from_bytes c_voting (to_bytes c_voting s) = Some s.
Proof. exact (reads_back _ good_voting). Qed.
Print Assumptions C102_voting.
Theorem C102_whitelist :
  forall x, typed c_whitelist_fields x -> from_bytes c_whitelist_fields (to_bytes c_whitelist_fields x) = Some x.
Proof. exact (reads_back _ good_whitelist_fields). Qed.
Print Assumptions C102_whitelist.
Theorem C102_multisig :
  forall s r c n, typed c_multisig_fields (multisig_fields s r c n) ->
  option_map (multisig_of_fields s)
    (from_bytes c_multisig_fields (to_bytes c_multisig_fields (multisig_fields s r c n))) = Some (s, (r, c, n)).
Proof. intros s r c n T. rewrite (reads_back _ good_multisig_fields _ T). now destruct s. Qed.
Print Assumptions C102_multisig.
Theorem C102_multisig2 :
  forall s m r c n, typed c_multisig2_fields (multisig2_fields s m r c n) ->
  option_map (multisig2_of_fields s)
    (from_bytes c_multisig2_fields (to_bytes c_multisig2_fields (multisig2_fields s m r c n))) = Some (s, (m, r, c, n)).
Proof. intros s m r c n T. rewrite (reads_back _ good_multisig2_fields _ T). now destruct s. Qed.
Print Assumptions C102_multisig2.
Theorem C102_factories :
  (forall x, typed c_pool_factory_fields x ->
     from_bytes c_pool_factory_fields (to_bytes c_pool_factory_fields x) = Some x) /\
  (forall f, typed c_lockup_factory f -> from_bytes c_lockup_factory (to_bytes c_lockup_factory f) = Some f).
Proof. split; [exact (reads_back _ good_pool_factory_fields)|exact (reads_back _ good_lockup_factory)]. Qed.
Print Assumptions C102_factories.
Theorem C102_wnear :
  forall t h, typed c_token_fields (token_fields t h) ->
  option_map (token_of_fields (WM.accounts t)) (from_bytes c_token_fields (to_bytes c_token_fields (token_fields t h)))
    = Some (t, h).
Proof. intros t h T. rewrite (reads_back _ good_token_fields _ T). now destruct t. Qed.
Print Assumptions C102_wnear.

(** The values and keys of the collections: the accounts of a pool, requests, confirmations and members. *)
Theorem C102_entries :
  (forall a, typed c_account a -> from_bytes c_account (to_bytes c_account a) = Some a) /\
  (forall r, typed c_signed_request r -> from_bytes c_signed_request (to_bytes c_signed_request r) = Some r) /\
  (forall r, typed c_signed_request2 r -> from_bytes c_signed_request2 (to_bytes c_signed_request2 r) = Some r) /\
  (forall l, typed c_confirmations l -> from_bytes c_confirmations (to_bytes c_confirmations l) = Some l) /\
  (forall m, typed c_member m -> from_bytes c_member (to_bytes c_member m) = Some m).
Proof.
  repeat split; [exact (reads_back _ good_account)|exact (reads_back _ good_signed_request)|
    exact (reads_back _ good_signed_request2)|exact (reads_back _ good_confirmations)|exact (reads_back _ good_member)].
Qed.
Print Assumptions C102_entries.

(** And nothing else is read: bytes that a contract accepts as its state or as an entry are the ones that some value of
    the type is written as. (Left out: objects of the iterable collections and hash sets and maps, where the library
    does not check what it can recompute.) *)
Theorem C102_nothing_else_is_read :
  (forall b s, from_bytes c_lockup b = Some s -> b = to_bytes c_lockup s /\ typed c_lockup s) /\
  (forall b a, from_bytes c_account b = Some a -> b = to_bytes c_account a /\ typed c_account a) /\
  (forall b r, from_bytes c_signed_request b = Some r -> b = to_bytes c_signed_request r /\ typed c_signed_request r) /\
  (forall b r, from_bytes c_signed_request2 b = Some r -> b = to_bytes c_signed_request2 r /\ typed c_signed_request2 r) /\
  (forall b m, from_bytes c_member b = Some m -> b = to_bytes c_member m /\ typed c_member m) /\
  (forall b x, from_bytes c_whitelist_fields b = Some x -> b = to_bytes c_whitelist_fields x /\ typed c_whitelist_fields x) /\
  (forall b f, from_bytes c_lockup_factory b = Some f -> b = to_bytes c_lockup_factory f /\ typed c_lockup_factory f) /\
  (forall b x, from_bytes c_token_fields b = Some x -> b = to_bytes c_token_fields x /\ typed c_token_fields x).
Proof.
  split; [exact (reads_only _ strict_lockup)|]. split; [exact (reads_only _ strict_account)|].
  split; [exact (reads_only _ strict_signed_request)|]. split; [exact (reads_only _ strict_signed_request2)|].
  split; [exact (reads_only _ strict_member)|]. split; [exact (reads_only _ strict_whitelist_fields)|].
  split; [exact (reads_only _ strict_lockup_factory)|exact (reads_only _ strict_token_fields)].
Qed.
Print Assumptions C102_nothing_else_is_read.
(** A member is written with 0 or 1 in front; 2 is no variant, and an option has 0 or 1 in front, not 2. *)
Example C102_nothing_else_is_read_applies :
  let with_byte n := String (ascii_of_N n) (to_bytes c_bytes "carol") in
  from_bytes c_member (with_byte 0) = Some (M2.AccessKey "carol") /\
  from_bytes c_member (with_byte 1) = Some (M2.Account "carol") /\ from_bytes c_member (with_byte 2) = None /\
  from_bytes (c_option c_bytes) (with_byte 1) = Some (Some "carol") /\ from_bytes (c_option c_bytes) (with_byte 2) = None.
Proof. vm_compute. repeat split. Qed.

Definition a_pool : SP.pool :=
  SP.mkPool "owner" "key" 7 (9 * near) (8 * near) (8 * near) (SP.mkFraction 10 100)
    [("alice", SP.mkAccount near (3 * near) 11)] true.
Definition a_request : MM.signed_request :=
  MM.mkSigned (MM.mkRequest "bob"
    [MM.Transfer near; MM.CreateAccount; MM.AddKey "pk" (Some (MM.mkPermission (Some 3) "bob" ["m"; "n"]));
     MM.FunctionCall "m" "args" 1 2; MM.SetNumConfirmations 2]) "signer" 99.
Definition a_request2 : M2.signed_request :=
  M2.mkSigned (M2.mkRequest "bob" [M2.AddMember (M2.Account "carol"); M2.DeleteMember (M2.AccessKey "k")])
    (M2.AccessKey "k") 99.
Example C102_applies :
  typed c_pool_fields (pool_fields a_pool (mkHandle UnorderedMap "u" 1 1)) /\ typed c_account (SP.mkAccount near 3 11) /\
  typed c_signed_request a_request /\ typed c_signed_request2 a_request2 /\
  from_bytes c_signed_request (to_bytes c_signed_request a_request) = Some a_request /\
  from_bytes c_signed_request2 (to_bytes c_signed_request2 a_request2) = Some a_request2 /\
  (* Cut short, or with bytes to spare, nothing is read. *)
  from_bytes c_account (to_bytes c_account (SP.mkAccount near 3 11) ++ "x") = None /\
  from_bytes c_account "too short" = None.
Proof.
  do 4 (split; [repeat first [reflexivity | exact I | split | constructor]|]). vm_compute. repeat split.
Qed.

(** C103. The 3.5 NEAR the lockup contract keeps back pay for its storage, code included, whatever happens to it and with
    up to 36 full access keys, and they stay on the account. *)
Theorem C103_storage_is_covered :
  forall g w evs keys,
  starts g w -> sha_sized (w_lockup w) -> MIN_BALANCE_FOR_STORAGE <= w_balance w -> keys <= 36 ->
  lockup_storage_cost (w_lockup (final g w evs)) keys <= MIN_BALANCE_FOR_STORAGE /\
  MIN_BALANCE_FOR_STORAGE <= w_balance (final g w evs).
Proof. exact storage_covered. Qed.
Print Assumptions C103_storage_is_covered.
(** 90 NEAR at a pool, and the rest sent away down to the reserve. *)
Example C103_applies :
  let w := final gen w1 [by_owner (SelectStakingPool "pool.near"); EDeliver 0 (OBool true); ERun 0;
                         by_owner (DepositAndStake (90 * near)); EDeliver 0 (OPool (90 * near) 0); ERun 0; ETime 100;
                         by_owner (Transfer (65 * near / 10) "owner.near")] in
  starts gen w1 /\ MIN_BALANCE_FOR_STORAGE <= w_balance w1 /\ w_balance w = MIN_BALANCE_FOR_STORAGE /\
  lockup_storage_cost (w_lockup w) 0 = 3455270000000000000000000 /\
  lockup_storage_cost (w_lockup w) 36 <= MIN_BALANCE_FOR_STORAGE /\
  MIN_BALANCE_FOR_STORAGE < lockup_storage_cost (w_lockup w) 41.
Proof. split; [exact starts_w1|]. vm_compute. repeat split; discriminate. Qed.
(** The demand on the hash is needed: [new] takes one of any length. *)
Example C103_long_hash :
  let h := string_of_list_ascii (repeat "h"%char 5000) in
  let w := start (first i1 (VHash h)) in
  starts gen w /\ ~ sha_sized (w_lockup w) /\ MIN_BALANCE_FOR_STORAGE < lockup_storage_cost (w_lockup w) 0.
Proof.
  intros h w. split; [|split].
  - split; try reflexivity.
    exists "owner.near", 15, None, (TransfersEnabled 5), (Some (ArgHash h)), (Some 40), "white.near", (Some "found.near"), "x".
    repeat split.
  - vm_compute. auto.
  - vm_compute. reflexivity.
Qed.

(** C104. A vesting schedule hidden behind a hash is terminated, at any time later, with that schedule and salt and no
    other, unless somebody found other bytes with the same SHA-256. *)
Theorem C104_schedule_is_committed :
  forall (sha : string -> string) g w evs vs salt who o,
  g_hash g = (fun v x => sha (to_bytes c_schedule_with_salt (v, x))) ->
  vesting_information (w_lockup w) = VHash (sha (to_bytes c_schedule_with_salt (vs, salt))) ->
  typed c_schedule_with_salt (vs, salt) ->
  match o with Some x => typed c_schedule_with_salt x | None => True end ->
  In (BCalled who (TerminateVesting o) true) (log g w evs) ->
  o = Some (vs, salt) \/
  exists x, o = Some x /\ to_bytes c_schedule_with_salt x <> to_bytes c_schedule_with_salt (vs, salt) /\
    sha (to_bytes c_schedule_with_salt x) = sha (to_bytes c_schedule_with_salt (vs, salt)).
Proof. exact commitment. Qed.
Print Assumptions C104_schedule_is_committed.
(** With a hash that keeps the bytes as they are: another end, the same end with another salt, and the right one. *)
Definition open_gen : genesis := mkGenesis "lock.near" (fun v x => to_bytes c_schedule_with_salt (v, x)).
Definition hidden_start : world := start (first i1 (VHash (to_bytes c_schedule_with_salt (vs1, "salt")))).
Example C104_applies :
  typed c_schedule_with_salt (vs1, "salt") /\
  log open_gen hidden_start
    [by_foundation (TerminateVesting (Some (mkSchedule 0 10 1000, "salt")));
     by_foundation (TerminateVesting (Some (vs1, "tlas"))); by_foundation (TerminateVesting None);
     by_foundation (TerminateVesting (Some (vs1, "salt")))] =
    [BCalled "found.near" (TerminateVesting (Some (mkSchedule 0 10 1000, "salt"))) false;
     BCalled "found.near" (TerminateVesting (Some (vs1, "tlas"))) false;
     BCalled "found.near" (TerminateVesting None) false;
     BCalled "found.near" (TerminateVesting (Some (vs1, "salt"))) true].
Proof. split; [repeat split|]; vm_compute; reflexivity. Qed.
