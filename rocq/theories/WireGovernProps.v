(** C110: the texts exist by which a quorum governs. The theorems C91, C93, C100, C106, C107 and C108 about what a
    quorum can make happen hold for every way of reading calls, if some text is read as the calls needed. Here the
    multisigs, the lockup, the pool and the whitelist read calls as WireModel.v says, and nothing but the ranges of
    the numbers and the form of account IDs is asked for. [read] also knows the methods that only look. *)
From Coq Require Import NArith List Bool String.
From Verif Require Import Prelude LockupModel LockupWorld LockupSpec LockupFacts OwnedLockup Governed GovernedLockup.
From Verif Require Import WireModel WireSpec WireGovernProofs.
From Verif Require MultisigModel MultisigSpec MultisigAccount Multisig2Model Multisig2Spec Multisig2Account
  StakingPoolSpec WhitelistSpec LockupProps OwnedLockupProps.
Import ListNotations.
Open Scope string_scope.
Open Scope N_scope.

(** C110. Every request of the right ranges whose actions the multisig can execute, a quorum can make the account
    send, by texts that the contract reads. *)
Theorem C110_keys_can_act :
  forall self t k s0 ks hs r pk0 cs, MultisigModel.new false k = Ok s0 ->
  let w := MultisigAccount.run self multisig_reads (MultisigAccount.start s0 ks) hs in
  let s := MultisigAccount.w_contract w in
  request1_fits r -> MultisigSpec.executable self r -> MultisigModel.receiver_id r <> self ->
  (forall pk, In pk (pk0 :: cs) -> MultisigAccount.can_act self w pk) ->
  NoDup cs ->
  N.of_nat (List.length cs) = N.max 1 (MultisigModel.get_num_confirmations s) ->
  MultisigModel.get_num_confirmations s < U32_BOUND ->
  MultisigModel.get_num_requests_pk s pk0 + 1 <= MultisigModel.active_requests_limit s ->
  MultisigModel.get_num_requests_pk s pk0 + 1 < U32_BOUND -> MultisigModel.get_request_nonce s + 1 < U32_BOUND ->
  exists hs2, Forall (MultisigAccount.by_keys (pk0 :: cs) t) hs2 /\
    MultisigAccount.departures self multisig_reads w hs2 = [MultisigSpec.asked r].
Proof. exact account_texts1. Qed.
Print Assumptions C110_keys_can_act.
Theorem C110_members_can_act :
  forall self t ms k s0 p0 ks key hs r m0 cs, Multisig2Model.new self false ms k = Ok (s0, p0) ->
  let w := Multisig2Account.run self multisig2_reads (Multisig2Account.start s0 p0 ks key) hs in
  let s := Multisig2Account.w_contract w in
  request2_fits r -> Multisig2Spec.executable self s r -> Multisig2Model.receiver_id r <> self ->
  (forall m, In m (m0 :: cs) -> In m (Multisig2Model.get_members s) /\ Multisig2Account.can_act self w m) ->
  NoDup cs ->
  N.of_nat (List.length cs) = N.max 1 (Multisig2Model.get_num_confirmations s) ->
  Multisig2Model.get_num_confirmations s < U32_BOUND ->
  Multisig2Model.get_num_requests_per_member s m0 + 1 <= Multisig2Model.active_requests_limit s ->
  Multisig2Model.get_num_requests_per_member s m0 + 1 < U32_BOUND -> Multisig2Model.get_request_nonce s + 1 < U32_BOUND ->
  exists hs2, Forall (Multisig2Account.by_members (m0 :: cs) t) hs2 /\
    Multisig2Account.departures self multisig2_reads w hs2 = [Multisig2Spec.asked self r].
Proof. exact account_texts2. Qed.
Print Assumptions C110_members_can_act.

(** C110. Every call that the lockup would accept now from that account, a quorum can make happen there. *)
Theorem C110_lockup_governed :
  forall self read t k s0 ks g w0 js pk0 cs m,
  (forall name args m, lockup_reads name args = Some (LockupCall m) -> read name args = Some (Some m)) ->
  MultisigModel.new false k = Ok s0 -> self <> (g_self g) ->
  let happens := MultisigAccount.happen_obs self multisig_reads in
  let fin := gfinal happens (for_lockup1 (g_self g)) read (step g) (lockup_accepted g) lockup_pays (GovernedLockup.lockup_calls self) (lockup_said self) in
  let evs := gevents happens (for_lockup1 (g_self g)) read (step g) (lockup_accepted g) lockup_pays (GovernedLockup.lockup_calls self) (lockup_said self) in
  let j := fin (mkState (MultisigAccount.start s0 ks) [] w0) js in
  let a := g_account j in
  let s := MultisigAccount.w_contract a in
  lockup_fits m -> lockup_accepted g (g_contract j) (ECall self 0 m) = true ->
  (forall pk, In pk (pk0 :: cs) -> MultisigAccount.can_act self a pk) ->
  NoDup cs ->
  N.of_nat (List.length cs) = N.max 1 (MultisigModel.get_num_confirmations s) ->
  MultisigModel.get_num_confirmations s < U32_BOUND ->
  MultisigModel.get_num_requests_pk s pk0 + 1 <= MultisigModel.active_requests_limit s ->
  MultisigModel.get_num_requests_pk s pk0 + 1 < U32_BOUND -> MultisigModel.get_request_nonce s + 1 < U32_BOUND ->
  exists hs n, Forall (MultisigAccount.by_keys (pk0 :: cs) t) hs /\
    evs j (map GAccount hs ++ [GDeliver n tt])%list = [ECall self 0 m].
Proof. exact lockup_texts1. Qed.
Print Assumptions C110_lockup_governed.
Theorem C110_lockup_governed2 :
  forall self read t ms k s0 p0 ks key g w0 js m0 cs m,
  (forall name args m, lockup_reads name args = Some (LockupCall m) -> read name args = Some (Some m)) ->
  Multisig2Model.new self false ms k = Ok (s0, p0) -> self <> (g_self g) -> is_valid_account_id (g_self g) = true ->
  let happens := Multisig2Account.happen_obs self multisig2_reads in
  let fin := gfinal happens (for_lockup2 (g_self g)) read (step g) (lockup_accepted g) lockup_pays (GovernedLockup.lockup_calls self) (lockup_said self) in
  let evs := gevents happens (for_lockup2 (g_self g)) read (step g) (lockup_accepted g) lockup_pays (GovernedLockup.lockup_calls self) (lockup_said self) in
  let j := fin (mkState (Multisig2Account.start s0 p0 ks key) [] w0) js in
  let a := g_account j in
  let s := Multisig2Account.w_contract a in
  lockup_fits m -> lockup_accepted g (g_contract j) (ECall self 0 m) = true ->
  (forall m, In m (m0 :: cs) -> In m (Multisig2Model.get_members s) /\ Multisig2Account.can_act self a m) ->
  NoDup cs ->
  N.of_nat (List.length cs) = N.max 1 (Multisig2Model.get_num_confirmations s) ->
  Multisig2Model.get_num_confirmations s < U32_BOUND ->
  Multisig2Model.get_num_requests_per_member s m0 + 1 <= Multisig2Model.active_requests_limit s ->
  Multisig2Model.get_num_requests_per_member s m0 + 1 < U32_BOUND -> Multisig2Model.get_request_nonce s + 1 < U32_BOUND ->
  exists hs n, Forall (Multisig2Account.by_members (m0 :: cs) t) hs /\
    evs j (map GAccount hs ++ [GDeliver n tt])%list = [ECall self 0 m].
Proof. exact lockup_texts2. Qed.
Print Assumptions C110_lockup_governed2.

(** C110. Every call that the pool would accept now from that account, a quorum can make happen there. *)
Theorem C110_pool_governed :
  forall self read t k s0 ks pool w0 js pk0 cs m locked,
  (forall name args m, pool_reads name args = Some (PoolCall m) -> read name args = Some (Some m)) ->
  MultisigModel.new false k = Ok s0 -> self <> pool ->
  let happens := MultisigAccount.happen_obs self multisig_reads in
  let fin := gfinal happens (for_lockup1 pool) read (pool_step pool) (pool_accepted pool) pool_pays (Governed.pool_calls self) (pool_said self) in
  let evs := gevents happens (for_lockup1 pool) read (pool_step pool) (pool_accepted pool) pool_pays (Governed.pool_calls self) (pool_said self) in
  let j := fin (mkState (MultisigAccount.start s0 ks) [] w0) js in
  let a := g_account j in
  let s := MultisigAccount.w_contract a in
  pool_fits m ->
  (exists ps, snd (StakingPoolSpec.step pool (g_contract j) (StakingPoolSpec.EvCall self 0 locked [] m)) = Some ps) ->
  (forall pk, In pk (pk0 :: cs) -> MultisigAccount.can_act self a pk) ->
  NoDup cs ->
  N.of_nat (List.length cs) = N.max 1 (MultisigModel.get_num_confirmations s) ->
  MultisigModel.get_num_confirmations s < U32_BOUND ->
  MultisigModel.get_num_requests_pk s pk0 + 1 <= MultisigModel.active_requests_limit s ->
  MultisigModel.get_num_requests_pk s pk0 + 1 < U32_BOUND -> MultisigModel.get_request_nonce s + 1 < U32_BOUND ->
  exists hs n, Forall (MultisigAccount.by_keys (pk0 :: cs) t) hs /\
    evs j (map GAccount hs ++ [GDeliver n locked])%list = [StakingPoolSpec.EvCall self 0 locked [] m].
Proof. exact pool_texts1. Qed.
Print Assumptions C110_pool_governed.
Theorem C110_pool_governed2 :
  forall self read t ms k s0 p0 ks key pool w0 js m0 cs m locked,
  (forall name args m, pool_reads name args = Some (PoolCall m) -> read name args = Some (Some m)) ->
  Multisig2Model.new self false ms k = Ok (s0, p0) -> self <> pool -> is_valid_account_id pool = true ->
  let happens := Multisig2Account.happen_obs self multisig2_reads in
  let fin := gfinal happens (for_lockup2 pool) read (pool_step pool) (pool_accepted pool) pool_pays (Governed.pool_calls self) (pool_said self) in
  let evs := gevents happens (for_lockup2 pool) read (pool_step pool) (pool_accepted pool) pool_pays (Governed.pool_calls self) (pool_said self) in
  let j := fin (mkState (Multisig2Account.start s0 p0 ks key) [] w0) js in
  let a := g_account j in
  let s := Multisig2Account.w_contract a in
  pool_fits m ->
  (exists ps, snd (StakingPoolSpec.step pool (g_contract j) (StakingPoolSpec.EvCall self 0 locked [] m)) = Some ps) ->
  (forall m, In m (m0 :: cs) -> In m (Multisig2Model.get_members s) /\ Multisig2Account.can_act self a m) ->
  NoDup cs ->
  N.of_nat (List.length cs) = N.max 1 (Multisig2Model.get_num_confirmations s) ->
  Multisig2Model.get_num_confirmations s < U32_BOUND ->
  Multisig2Model.get_num_requests_per_member s m0 + 1 <= Multisig2Model.active_requests_limit s ->
  Multisig2Model.get_num_requests_per_member s m0 + 1 < U32_BOUND -> Multisig2Model.get_request_nonce s + 1 < U32_BOUND ->
  exists hs n, Forall (Multisig2Account.by_members (m0 :: cs) t) hs /\
    evs j (map GAccount hs ++ [GDeliver n locked])%list = [StakingPoolSpec.EvCall self 0 locked [] m].
Proof. exact pool_texts2. Qed.
Print Assumptions C110_pool_governed2.

(** C110. Every call that the whitelist would accept now from that account, a quorum can make happen there. *)
Theorem C110_whitelist_governed :
  forall self read t k s0 ks target w0 js pk0 cs m,
  (forall name args m, whitelist_reads name args = Some (WhitelistCall m) -> read name args = Some (Some m)) ->
  MultisigModel.new false k = Ok s0 -> self <> target ->
  let happens := MultisigAccount.happen_obs self multisig_reads in
  let fin := gfinal happens (for_lockup1 target) read WhitelistSpec.step WhitelistSpec.accepted list_pays (list_calls self) (list_said self) in
  let evs := gevents happens (for_lockup1 target) read WhitelistSpec.step WhitelistSpec.accepted list_pays (list_calls self) (list_said self) in
  let j := fin (mkState (MultisigAccount.start s0 ks) [] w0) js in
  let a := g_account j in
  let s := MultisigAccount.w_contract a in
  WhitelistSpec.accepted (g_contract j) (WhitelistSpec.mkEvent self 0 m) = true ->
  (forall pk, In pk (pk0 :: cs) -> MultisigAccount.can_act self a pk) ->
  NoDup cs ->
  N.of_nat (List.length cs) = N.max 1 (MultisigModel.get_num_confirmations s) ->
  MultisigModel.get_num_confirmations s < U32_BOUND ->
  MultisigModel.get_num_requests_pk s pk0 + 1 <= MultisigModel.active_requests_limit s ->
  MultisigModel.get_num_requests_pk s pk0 + 1 < U32_BOUND -> MultisigModel.get_request_nonce s + 1 < U32_BOUND ->
  exists hs n, Forall (MultisigAccount.by_keys (pk0 :: cs) t) hs /\
    evs j (map GAccount hs ++ [GDeliver n tt])%list = [WhitelistSpec.mkEvent self 0 m].
Proof. exact whitelist_texts1. Qed.
Print Assumptions C110_whitelist_governed.
Theorem C110_whitelist_governed2 :
  forall self read t ms k s0 p0 ks key target w0 js m0 cs m,
  (forall name args m, whitelist_reads name args = Some (WhitelistCall m) -> read name args = Some (Some m)) ->
  Multisig2Model.new self false ms k = Ok (s0, p0) -> self <> target -> is_valid_account_id target = true ->
  let happens := Multisig2Account.happen_obs self multisig2_reads in
  let fin := gfinal happens (for_lockup2 target) read WhitelistSpec.step WhitelistSpec.accepted list_pays (list_calls self) (list_said self) in
  let evs := gevents happens (for_lockup2 target) read WhitelistSpec.step WhitelistSpec.accepted list_pays (list_calls self) (list_said self) in
  let j := fin (mkState (Multisig2Account.start s0 p0 ks key) [] w0) js in
  let a := g_account j in
  let s := Multisig2Account.w_contract a in
  WhitelistSpec.accepted (g_contract j) (WhitelistSpec.mkEvent self 0 m) = true ->
  (forall m, In m (m0 :: cs) -> In m (Multisig2Model.get_members s) /\ Multisig2Account.can_act self a m) ->
  NoDup cs ->
  N.of_nat (List.length cs) = N.max 1 (Multisig2Model.get_num_confirmations s) ->
  Multisig2Model.get_num_confirmations s < U32_BOUND ->
  Multisig2Model.get_num_requests_per_member s m0 + 1 <= Multisig2Model.active_requests_limit s ->
  Multisig2Model.get_num_requests_per_member s m0 + 1 < U32_BOUND -> Multisig2Model.get_request_nonce s + 1 < U32_BOUND ->
  exists hs n, Forall (Multisig2Account.by_members (m0 :: cs) t) hs /\
    evs j (map GAccount hs ++ [GDeliver n tt])%list = [WhitelistSpec.mkEvent self 0 m].
Proof. exact whitelist_texts2. Qed.
Print Assumptions C110_whitelist_governed2.

(** The whole way in texts: a 2-of-3 multisig that owns a lockup past its time. One key adds the request, written with
    white space and its fields in another order, two keys confirm it, and the lockup pays. *)
Module O := OwnedLockupProps.
Definition read_lockup (name args : string) : option (option call) :=
  match lockup_reads name args with
  | Some (LockupCall m) => Some (Some m)
  | Some (LockupNew _) => None
  | None => if String.eqb name "get_balance" then Some None else None
  end.
Definition tx (pk m args : string) : MultisigAccount.happening :=
  MultisigAccount.HTx pk O.me [MultisigModel.BFunctionCall m args 0 0].
Definition add_text : string :=
  "{ ""request"": { ""actions"": [ {""args"": ""eyJhbW91bnQiOiIxMCIsInJlY2VpdmVyX2lkIjoiZnJpZW5kLm5lYXIifQ=="", ""gas"": ""50000000000000"",
       ""deposit"": ""0"", ""type"": ""FunctionCall"", ""method_name"": ""transfer""} ], ""receiver_id"": ""lock.near"" } }".
Definition story : list (@gevent MultisigAccount.happening event unit) :=
  [GContract (ETime 60)] ++
  map GAccount [tx "k1" "add_request" add_text; MultisigAccount.HDeliver 0 1;
                tx "k1" "confirm" "{""request_id"": 0}"; tx "k2" "confirm" "{""request_id"": ""0""}"; tx "k3" "confirm" "{""request_id"":0}";
                MultisigAccount.HDeliver 0 2; MultisigAccount.HDeliver 0 3; MultisigAccount.HDeliver 0 4; MultisigAccount.HDeliver 0 5] ++
  [GDeliver 0 tt; GContract (EDeliver 0 ODone)].
Example C110_in_texts :
  (forall name args m, lockup_reads name args = Some (LockupCall m) -> read_lockup name args = Some (Some m)) /\
  exists s0, MultisigModel.new false 2 = Ok s0 /\
  let happens := MultisigAccount.happen_obs O.me multisig_reads in
  let evs := gevents happens (for_lockup1 "lock.near") read_lockup (step LockupProps.gen) (lockup_accepted LockupProps.gen) lockup_pays
               (GovernedLockup.lockup_calls O.me) (lockup_said O.me) in
  log LockupProps.gen LockupProps.w3 (evs (mkState (MultisigAccount.start s0 O.keys3) [] LockupProps.w3) story) =
    [BCalled O.me (Transfer 10 "friend.near") true; BSent (RTransfer "friend.near" 10); BPaid "friend.near" 10 false].
Proof.
  split; [|eexists; split; [reflexivity|vm_compute; reflexivity]].
  intros name args m E. unfold read_lockup. now rewrite E.
Qed.
Example C110_governed_applies :
  lockup_fits (Transfer 10 "friend.near") /\
  exists s0, MultisigModel.new false 2 = Ok s0 /\
  let happens := MultisigAccount.happen_obs O.me multisig_reads in
  let fin := gfinal happens (for_lockup1 "lock.near") read_lockup (step LockupProps.gen) (lockup_accepted LockupProps.gen) lockup_pays
               (GovernedLockup.lockup_calls O.me) (lockup_said O.me) in
  let j := fin (mkState (MultisigAccount.start s0 O.keys3) [] LockupProps.w3) [GContract (ETime 60)] in
  let s := MultisigAccount.w_contract (g_account j) in
  lockup_accepted LockupProps.gen (g_contract j) (ECall O.me 0 (Transfer 10 "friend.near")) = true /\
  (forall pk, In pk ["k2"; "k1"; "k3"] -> MultisigAccount.can_act O.me (g_account j) pk) /\
  N.of_nat (List.length ["k1"; "k3"]) = N.max 1 (MultisigModel.get_num_confirmations s) /\
  MultisigModel.get_num_requests_pk s "k2" + 1 <= MultisigModel.active_requests_limit s.
Proof.
  split; [reflexivity|]. eexists. split; [reflexivity|]. cbv zeta. split; [vm_compute; reflexivity|]. split.
  { intros m I. destruct I as [<-|[<-|[<-|[]]]];
      (eexists; split; [vm_compute; reflexivity|intros args; split; reflexivity]). }
  vm_compute. split; [reflexivity|discriminate].
Qed.
