(** Proofs for WireGovernProps.v: that the texts exist by which a quorum governs. *)
From Coq Require Import NArith List Bool String Lia.
From Verif Require Import Prelude LockupModel LockupWorld LockupSpec LockupFacts OwnedLockup Governed GovernedLockup GovernedProofs GovernedLockupProofs.
From Verif Require Import WireModel WireSpec WireProofs.
From Verif Require MultisigModel MultisigSpec MultisigAccount Multisig2Model Multisig2Spec Multisig2Account
  StakingPoolSpec WhitelistSpec MultisigAccountProofs Multisig2AccountProofs.
Import ListNotations.
Open Scope string_scope.
Open Scope N_scope.

Lemma one_call_fits1 target name args gas : gas < U64_BOUND ->
  request1_fits (MultisigModel.mkRequest target [MultisigModel.FunctionCall name args 0 gas]).
Proof. intros H. constructor; [|constructor]. split; [reflexivity|exact H]. Qed.
Lemma one_call_fits2 target name args gas : is_valid_account_id target = true -> gas < U64_BOUND ->
  request2_fits (Multisig2Model.mkRequest target [Multisig2Model.FunctionCall name args 0 gas]).
Proof. intros V H. split; [exact V|]. constructor; [|constructor]. split; [reflexivity|exact H]. Qed.
Lemma add_text1 r : request1_fits r -> exists args, multisig_reads "add_request" args = Some (MultisigModel.CAddRequest r).
Proof. intros H. eexists. apply (multisig_reads_request r H). Qed.
Lemma confirm_text1 i : i + 1 < U32_BOUND -> exists args, multisig_reads "confirm" args = Some (MultisigModel.CConfirm i).
Proof. intros H. eexists. apply (multisig_reads_id i). lia. Qed.
Lemma add_text2 r : request2_fits r -> exists args, multisig2_reads "add_request" args = Some (Multisig2Model.CAddRequest r).
Proof. intros H. eexists. apply (multisig2_reads_request r H). Qed.
Lemma confirm_text2 i : i + 1 < U32_BOUND -> exists args, multisig2_reads "confirm" args = Some (Multisig2Model.CConfirm i).
Proof. intros H. eexists. apply (multisig2_reads_id i). lia. Qed.

Lemma account_texts1 :
  forall self t k s0 ks hs r pk0 cs, MultisigModel.new false k = Ok s0 ->
  let w := MultisigAccount.run self multisig_reads (MultisigAccount.start s0 ks) hs in
  let s := MultisigAccount.w_contract w in
  request1_fits r -> MultisigSpec.executable self r -> MultisigModel.receiver_id r <> self ->
  (forall pk, In pk (pk0 :: cs) -> MultisigAccount.can_act self w pk) ->
  NoDup cs ->
  N.of_nat (List.length cs) = N.max 1 (MultisigModel.get_num_confirmations s) ->
  MultisigModel.get_num_confirmations s < U32_BOUND ->
  MultisigModel.get_num_requests_pk s pk0 + 1 <= MultisigModel.active_requests_limit s ->
  MultisigModel.get_num_requests_pk s pk0 + 1 < U32_BOUND -> MultisigModel.get_request_nonce s + 1 < U32_BOUND ->
  exists hs2, Forall (MultisigAccount.by_keys (pk0 :: cs) t) hs2 /\
    MultisigAccount.departures self multisig_reads w hs2 = [MultisigSpec.asked r].
Proof.
  intros. apply (MultisigAccountProofs.keys_can_act self multisig_reads t k); try assumption; [now apply add_text1|now apply confirm_text1].
Qed.
Lemma account_texts2 :
  forall self t ms k s0 p0 ks key hs r m0 cs, Multisig2Model.new self false ms k = Ok (s0, p0) ->
  let w := Multisig2Account.run self multisig2_reads (Multisig2Account.start s0 p0 ks key) hs in
  let s := Multisig2Account.w_contract w in
  request2_fits r -> Multisig2Spec.executable self s r -> Multisig2Model.receiver_id r <> self ->
  (forall m, In m (m0 :: cs) -> In m (Multisig2Model.get_members s) /\ Multisig2Account.can_act self w m) ->
  NoDup cs ->
  N.of_nat (List.length cs) = N.max 1 (Multisig2Model.get_num_confirmations s) ->
  Multisig2Model.get_num_confirmations s < U32_BOUND ->
  Multisig2Model.get_num_requests_per_member s m0 + 1 <= Multisig2Model.active_requests_limit s ->
  Multisig2Model.get_num_requests_per_member s m0 + 1 < U32_BOUND -> Multisig2Model.get_request_nonce s + 1 < U32_BOUND ->
  exists hs2, Forall (Multisig2Account.by_members (m0 :: cs) t) hs2 /\
    Multisig2Account.departures self multisig2_reads w hs2 = [Multisig2Spec.asked self r].
Proof.
  intros. apply (Multisig2AccountProofs.members_can_act self multisig2_reads t ms k); try assumption; [now apply add_text2|now apply confirm_text2].
Qed.

Lemma lockup_texts1 :
  forall self read t k s0 ks g w0 js pk0 cs m,
  (forall name args m, lockup_reads name args = Some (LockupCall m) -> read name args = Some (Some m)) ->
  MultisigModel.new false k = Ok s0 -> self <> (g_self g) ->
  let happens := MultisigAccount.happen_obs self multisig_reads in
  let fin := gfinal happens (for_lockup1 (g_self g)) read (step g) (lockup_accepted g) lockup_pays (GovernedLockup.lockup_calls self) (lockup_said self) in
  let evs := gevents happens (for_lockup1 (g_self g)) read (step g) (lockup_accepted g) lockup_pays (GovernedLockup.lockup_calls self) (lockup_said self) in
  let j := fin (mkState (MultisigAccount.start s0 ks) [] w0) js in
  let a := g_account j in
  let s := MultisigAccount.w_contract a in
  lockup_fits m -> lockup_accepted g (g_contract j) (ECall self 0 m) = true ->
  (forall pk, In pk (pk0 :: cs) -> MultisigAccount.can_act self a pk) ->
  NoDup cs ->
  N.of_nat (List.length cs) = N.max 1 (MultisigModel.get_num_confirmations s) ->
  MultisigModel.get_num_confirmations s < U32_BOUND ->
  MultisigModel.get_num_requests_pk s pk0 + 1 <= MultisigModel.active_requests_limit s ->
  MultisigModel.get_num_requests_pk s pk0 + 1 < U32_BOUND -> MultisigModel.get_request_nonce s + 1 < U32_BOUND ->
  exists hs n, Forall (MultisigAccount.by_keys (pk0 :: cs) t) hs /\
    evs j (map GAccount hs ++ [GDeliver n tt])%list = [ECall self 0 m].
Proof.
  intros self read t k s0 ks g w0 js pk0 cs m R. intros.
  destruct (lockup_written m ltac:(assumption)) as (name & args & E).
  apply (can_use_late1 self multisig_reads read t k s0 ks g w0 js pk0 cs name args 100000000000000 m); try assumption; try (now apply R);
    [apply add_text1, one_call_fits1; reflexivity|now apply confirm_text1].
Qed.

Lemma lockup_texts2 :
  forall self read t ms k s0 p0 ks key g w0 js m0 cs m,
  (forall name args m, lockup_reads name args = Some (LockupCall m) -> read name args = Some (Some m)) ->
  Multisig2Model.new self false ms k = Ok (s0, p0) -> self <> (g_self g) -> is_valid_account_id (g_self g) = true ->
  let happens := Multisig2Account.happen_obs self multisig2_reads in
  let fin := gfinal happens (for_lockup2 (g_self g)) read (step g) (lockup_accepted g) lockup_pays (GovernedLockup.lockup_calls self) (lockup_said self) in
  let evs := gevents happens (for_lockup2 (g_self g)) read (step g) (lockup_accepted g) lockup_pays (GovernedLockup.lockup_calls self) (lockup_said self) in
  let j := fin (mkState (Multisig2Account.start s0 p0 ks key) [] w0) js in
  let a := g_account j in
  let s := Multisig2Account.w_contract a in
  lockup_fits m -> lockup_accepted g (g_contract j) (ECall self 0 m) = true ->
  (forall m, In m (m0 :: cs) -> In m (Multisig2Model.get_members s) /\ Multisig2Account.can_act self a m) ->
  NoDup cs ->
  N.of_nat (List.length cs) = N.max 1 (Multisig2Model.get_num_confirmations s) ->
  Multisig2Model.get_num_confirmations s < U32_BOUND ->
  Multisig2Model.get_num_requests_per_member s m0 + 1 <= Multisig2Model.active_requests_limit s ->
  Multisig2Model.get_num_requests_per_member s m0 + 1 < U32_BOUND -> Multisig2Model.get_request_nonce s + 1 < U32_BOUND ->
  exists hs n, Forall (Multisig2Account.by_members (m0 :: cs) t) hs /\
    evs j (map GAccount hs ++ [GDeliver n tt])%list = [ECall self 0 m].
Proof.
  intros self read t ms k s0 p0 ks key g w0 js m0 cs m R. intros.
  destruct (lockup_written m ltac:(assumption)) as (name & args & E).
  apply (can_use_late2 self multisig2_reads read t ms k s0 p0 ks key g w0 js m0 cs name args 100000000000000 m); try assumption; try (now apply R);
    [apply add_text2, one_call_fits2; [assumption|reflexivity]|now apply confirm_text2].
Qed.

Lemma pool_texts1 :
  forall self read t k s0 ks pool w0 js pk0 cs m locked,
  (forall name args m, pool_reads name args = Some (PoolCall m) -> read name args = Some (Some m)) ->
  MultisigModel.new false k = Ok s0 -> self <> pool ->
  let happens := MultisigAccount.happen_obs self multisig_reads in
  let fin := gfinal happens (for_lockup1 pool) read (pool_step pool) (pool_accepted pool) pool_pays (Governed.pool_calls self) (pool_said self) in
  let evs := gevents happens (for_lockup1 pool) read (pool_step pool) (pool_accepted pool) pool_pays (Governed.pool_calls self) (pool_said self) in
  let j := fin (mkState (MultisigAccount.start s0 ks) [] w0) js in
  let a := g_account j in
  let s := MultisigAccount.w_contract a in
  pool_fits m ->
  (exists ps, snd (StakingPoolSpec.step pool (g_contract j) (StakingPoolSpec.EvCall self 0 locked [] m)) = Some ps) ->
  (forall pk, In pk (pk0 :: cs) -> MultisigAccount.can_act self a pk) ->
  NoDup cs ->
  N.of_nat (List.length cs) = N.max 1 (MultisigModel.get_num_confirmations s) ->
  MultisigModel.get_num_confirmations s < U32_BOUND ->
  MultisigModel.get_num_requests_pk s pk0 + 1 <= MultisigModel.active_requests_limit s ->
  MultisigModel.get_num_requests_pk s pk0 + 1 < U32_BOUND -> MultisigModel.get_request_nonce s + 1 < U32_BOUND ->
  exists hs n, Forall (MultisigAccount.by_keys (pk0 :: cs) t) hs /\
    evs j (map GAccount hs ++ [GDeliver n locked])%list = [StakingPoolSpec.EvCall self 0 locked [] m].
Proof.
  intros self read t k s0 ks pool w0 js pk0 cs m locked R. intros.
  destruct (pool_written m ltac:(assumption)) as (name & args & E).
  apply (pool_can_govern1 self multisig_reads read t k s0 ks pool w0 js pk0 cs name args 100000000000000 m locked); try assumption; try (now apply R);
    [apply add_text1, one_call_fits1; reflexivity|now apply confirm_text1].
Qed.

Lemma pool_texts2 :
  forall self read t ms k s0 p0 ks key pool w0 js m0 cs m locked,
  (forall name args m, pool_reads name args = Some (PoolCall m) -> read name args = Some (Some m)) ->
  Multisig2Model.new self false ms k = Ok (s0, p0) -> self <> pool -> is_valid_account_id pool = true ->
  let happens := Multisig2Account.happen_obs self multisig2_reads in
  let fin := gfinal happens (for_lockup2 pool) read (pool_step pool) (pool_accepted pool) pool_pays (Governed.pool_calls self) (pool_said self) in
  let evs := gevents happens (for_lockup2 pool) read (pool_step pool) (pool_accepted pool) pool_pays (Governed.pool_calls self) (pool_said self) in
  let j := fin (mkState (Multisig2Account.start s0 p0 ks key) [] w0) js in
  let a := g_account j in
  let s := Multisig2Account.w_contract a in
  pool_fits m ->
  (exists ps, snd (StakingPoolSpec.step pool (g_contract j) (StakingPoolSpec.EvCall self 0 locked [] m)) = Some ps) ->
  (forall m, In m (m0 :: cs) -> In m (Multisig2Model.get_members s) /\ Multisig2Account.can_act self a m) ->
  NoDup cs ->
  N.of_nat (List.length cs) = N.max 1 (Multisig2Model.get_num_confirmations s) ->
  Multisig2Model.get_num_confirmations s < U32_BOUND ->
  Multisig2Model.get_num_requests_per_member s m0 + 1 <= Multisig2Model.active_requests_limit s ->
  Multisig2Model.get_num_requests_per_member s m0 + 1 < U32_BOUND -> Multisig2Model.get_request_nonce s + 1 < U32_BOUND ->
  exists hs n, Forall (Multisig2Account.by_members (m0 :: cs) t) hs /\
    evs j (map GAccount hs ++ [GDeliver n locked])%list = [StakingPoolSpec.EvCall self 0 locked [] m].
Proof.
  intros self read t ms k s0 p0 ks key pool w0 js m0 cs m locked R. intros.
  destruct (pool_written m ltac:(assumption)) as (name & args & E).
  apply (pool_can_govern2 self multisig2_reads read t ms k s0 p0 ks key pool w0 js m0 cs name args 100000000000000 m locked); try assumption; try (now apply R);
    [apply add_text2, one_call_fits2; [assumption|reflexivity]|now apply confirm_text2].
Qed.

Lemma whitelist_texts1 :
  forall self read t k s0 ks target w0 js pk0 cs m,
  (forall name args m, whitelist_reads name args = Some (WhitelistCall m) -> read name args = Some (Some m)) ->
  MultisigModel.new false k = Ok s0 -> self <> target ->
  let happens := MultisigAccount.happen_obs self multisig_reads in
  let fin := gfinal happens (for_lockup1 target) read WhitelistSpec.step WhitelistSpec.accepted list_pays (list_calls self) (list_said self) in
  let evs := gevents happens (for_lockup1 target) read WhitelistSpec.step WhitelistSpec.accepted list_pays (list_calls self) (list_said self) in
  let j := fin (mkState (MultisigAccount.start s0 ks) [] w0) js in
  let a := g_account j in
  let s := MultisigAccount.w_contract a in
  WhitelistSpec.accepted (g_contract j) (WhitelistSpec.mkEvent self 0 m) = true ->
  (forall pk, In pk (pk0 :: cs) -> MultisigAccount.can_act self a pk) ->
  NoDup cs ->
  N.of_nat (List.length cs) = N.max 1 (MultisigModel.get_num_confirmations s) ->
  MultisigModel.get_num_confirmations s < U32_BOUND ->
  MultisigModel.get_num_requests_pk s pk0 + 1 <= MultisigModel.active_requests_limit s ->
  MultisigModel.get_num_requests_pk s pk0 + 1 < U32_BOUND -> MultisigModel.get_request_nonce s + 1 < U32_BOUND ->
  exists hs n, Forall (MultisigAccount.by_keys (pk0 :: cs) t) hs /\
    evs j (map GAccount hs ++ [GDeliver n tt])%list = [WhitelistSpec.mkEvent self 0 m].
Proof.
  intros self read t k s0 ks target w0 js pk0 cs m R. intros.
  destruct (whitelist_asked m) as (name & args & E).
  apply (list_can_govern1 self multisig_reads read t k s0 ks target w0 js pk0 cs name args 100000000000000 m); try assumption; try (now apply R);
    [apply add_text1, one_call_fits1; reflexivity|now apply confirm_text1].
Qed.

Lemma whitelist_texts2 :
  forall self read t ms k s0 p0 ks key target w0 js m0 cs m,
  (forall name args m, whitelist_reads name args = Some (WhitelistCall m) -> read name args = Some (Some m)) ->
  Multisig2Model.new self false ms k = Ok (s0, p0) -> self <> target -> is_valid_account_id target = true ->
  let happens := Multisig2Account.happen_obs self multisig2_reads in
  let fin := gfinal happens (for_lockup2 target) read WhitelistSpec.step WhitelistSpec.accepted list_pays (list_calls self) (list_said self) in
  let evs := gevents happens (for_lockup2 target) read WhitelistSpec.step WhitelistSpec.accepted list_pays (list_calls self) (list_said self) in
  let j := fin (mkState (Multisig2Account.start s0 p0 ks key) [] w0) js in
  let a := g_account j in
  let s := Multisig2Account.w_contract a in
  WhitelistSpec.accepted (g_contract j) (WhitelistSpec.mkEvent self 0 m) = true ->
  (forall m, In m (m0 :: cs) -> In m (Multisig2Model.get_members s) /\ Multisig2Account.can_act self a m) ->
  NoDup cs ->
  N.of_nat (List.length cs) = N.max 1 (Multisig2Model.get_num_confirmations s) ->
  Multisig2Model.get_num_confirmations s < U32_BOUND ->
  Multisig2Model.get_num_requests_per_member s m0 + 1 <= Multisig2Model.active_requests_limit s ->
  Multisig2Model.get_num_requests_per_member s m0 + 1 < U32_BOUND -> Multisig2Model.get_request_nonce s + 1 < U32_BOUND ->
  exists hs n, Forall (Multisig2Account.by_members (m0 :: cs) t) hs /\
    evs j (map GAccount hs ++ [GDeliver n tt])%list = [WhitelistSpec.mkEvent self 0 m].
Proof.
  intros self read t ms k s0 p0 ks key target w0 js m0 cs m R. intros.
  destruct (whitelist_asked m) as (name & args & E).
  apply (list_can_govern2 self multisig2_reads read t ms k s0 p0 ks key target w0 js m0 cs name args 100000000000000 m); try assumption; try (now apply R);
    [apply add_text2, one_call_fits2; [assumption|reflexivity]|now apply confirm_text2].
Qed.
