(** A staking pool (C107) and a whitelist (C108) governed by an account that a multisig guards. In every statement [js]
    is an arbitrary history of both: transactions and deliveries at the governing account, the delivery of what it
    sent in any order or never, calls of the contract by anybody else, tokens, time. *)
From Coq Require Import NArith List Bool String Permutation.
From Verif Require Import Prelude OwnedLockup Governed GovernedProofs.
From Verif Require StakingPoolModel StakingPoolSpec StakingPoolDemo WhitelistModel WhitelistSpec.
From Verif Require MultisigModel MultisigSpec MultisigAccount Multisig2Model Multisig2Spec Multisig2Account.
Import ListNotations.
Open Scope string_scope.
Open Scope N_scope.

(** C107. The first multisig guards the owner's account of a pool. The pool goes through a history of its own; the
    owner's accepted calls are, in order, the calls of batches that left the account, each at most once and each
    confirmed by the quorum; so the fee, the staking key, whether the pool stakes and its votes change, and tokens go
    to the owner, only as a request confirmed by the quorum asked. *)
Theorem C107_multisig :
  forall self decode read k s0 ks pool w0 js,
  MultisigModel.new false k = Ok s0 ->
  NoDup (mkeys ks) -> (forall pk a, mget pk ks = Some a -> MultisigAccount.limited self a) ->
  StakingPoolModel.owner_id (StakingPoolSpec.w_pool w0) = self ->
  let happens := MultisigAccount.happen_obs self decode in
  let j0 := mkState (MultisigAccount.start s0 ks) [] w0 in
  let fin := gfinal happens (for_lockup1 pool) read (pool_step pool) (pool_accepted pool) pool_pays (pool_calls self) (pool_said self) in
  let evs := gevents happens (for_lockup1 pool) read (pool_step pool) (pool_accepted pool) pool_pays (pool_calls self) (pool_said self) in
  let seen := StakingPoolSpec.history pool w0 (evs j0 js) in
  let calls := MultisigAccount.w_calls (g_account (fin j0 js)) in
  let wanted := asking (for_lockup1 pool) read in
  (forall p, In p (MultisigAccount.executions self s0 calls) -> MultisigModel.p_receiver p = self ->
             MultisigAccount.keeps_guard self (MultisigModel.p_actions p)) ->
  g_contract (fin j0 js) = StakingPoolSpec.final pool w0 (evs j0 js) /\
  (exists done rest,
    owners_calls self seen = flat_map wanted done /\
    Permutation (done ++ rest) (MultisigAccount.departures self decode (MultisigAccount.start s0 ks) (at_account js)) /\
    (forall p, In p done -> by_quorum1 self s0 ks calls p)) /\
  forall en, In en seen ->
    steered self (fun m => exists p, by_quorum1 self s0 ks calls p /\ In m (wanted p)) en.
Proof. exact pool_governed1. Qed.
Print Assumptions C107_multisig.

(** C107. The same for the second multisig. *)
Theorem C107_multisig2 :
  forall self decode read ms k s0 p0 ks key pool w0 js,
  Multisig2Model.new self false ms k = Ok (s0, p0) ->
  NoDup (mkeys ks) -> (forall pk a, mget pk ks = Some a -> Multisig2Account.limited self a) ->
  StakingPoolModel.owner_id (StakingPoolSpec.w_pool w0) = self ->
  let happens := Multisig2Account.happen_obs self decode in
  let j0 := mkState (Multisig2Account.start s0 p0 ks key) [] w0 in
  let fin := gfinal happens (for_lockup2 pool) read (pool_step pool) (pool_accepted pool) pool_pays (pool_calls self) (pool_said self) in
  let evs := gevents happens (for_lockup2 pool) read (pool_step pool) (pool_accepted pool) pool_pays (pool_calls self) (pool_said self) in
  let seen := StakingPoolSpec.history pool w0 (evs j0 js) in
  let calls := Multisig2Account.w_calls (g_account (fin j0 js)) in
  let wanted := asking (for_lockup2 pool) read in
  (forall p, In p (Multisig2Account.executions self s0 calls) -> Multisig2Model.p_receiver p = self ->
             Multisig2Account.keeps_guard self (Multisig2Model.p_actions p)) ->
  g_contract (fin j0 js) = StakingPoolSpec.final pool w0 (evs j0 js) /\
  (exists done rest,
    owners_calls self seen = flat_map wanted done /\
    Permutation (done ++ rest) (Multisig2Account.departures self decode (Multisig2Account.start s0 p0 ks key) (at_account js)) /\
    (forall p, In p done -> by_quorum2 self s0 calls p)) /\
  forall en, In en seen ->
    steered self (fun m => exists p, by_quorum2 self s0 calls p /\ In m (wanted p)) en.
Proof. exact pool_governed2. Qed.
Print Assumptions C107_multisig2.

(** C107. And the quorum has the pool in hand: what the pool would accept now from its owner, with [locked] of its
    balance locked, one key below its limit that adds the request and as many keys as required that confirm it can
    make happen there, by their own transactions alone and the delivery of what they send. *)
Theorem C107_quorum_can_govern :
  forall self decode read t k s0 ks pool w0 js pk0 cs name args gas m locked,
  MultisigModel.new false k = Ok s0 -> self <> pool ->
  let happens := MultisigAccount.happen_obs self decode in
  let fin := gfinal happens (for_lockup1 pool) read (pool_step pool) (pool_accepted pool) pool_pays (pool_calls self) (pool_said self) in
  let evs := gevents happens (for_lockup1 pool) read (pool_step pool) (pool_accepted pool) pool_pays (pool_calls self) (pool_said self) in
  let j := fin (mkState (MultisigAccount.start s0 ks) [] w0) js in
  let a := g_account j in
  let s := MultisigAccount.w_contract a in
  let r := MultisigModel.mkRequest pool [MultisigModel.FunctionCall name args 0 gas] in
  read name args = Some (Some m) ->
  (exists ps, snd (StakingPoolSpec.step pool (g_contract j) (StakingPoolSpec.EvCall self 0 locked [] m)) = Some ps) ->
  (forall pk, In pk (pk0 :: cs) -> MultisigAccount.can_act self a pk) ->
  NoDup cs ->
  N.of_nat (List.length cs) = N.max 1 (MultisigModel.get_num_confirmations s) ->
  MultisigModel.get_num_confirmations s < U32_BOUND ->
  MultisigModel.get_num_requests_pk s pk0 + 1 <= MultisigModel.active_requests_limit s ->
  MultisigModel.get_num_requests_pk s pk0 + 1 < U32_BOUND -> MultisigModel.get_request_nonce s + 1 < U32_BOUND ->
  (exists args, decode "add_request" args = Some (MultisigModel.CAddRequest r)) ->
  (exists args, decode "confirm" args = Some (MultisigModel.CConfirm (MultisigModel.get_request_nonce s))) ->
  exists hs n, Forall (MultisigAccount.by_keys (pk0 :: cs) t) hs /\
    evs j (map GAccount hs ++ [GDeliver n locked])%list = [StakingPoolSpec.EvCall self 0 locked [] m].
Proof. exact pool_can_govern1. Qed.
Print Assumptions C107_quorum_can_govern.
Theorem C107_quorum2_can_govern :
  forall self decode read t ms k s0 p0 ks key pool w0 js m0 cs name args gas m locked,
  Multisig2Model.new self false ms k = Ok (s0, p0) -> self <> pool ->
  let happens := Multisig2Account.happen_obs self decode in
  let fin := gfinal happens (for_lockup2 pool) read (pool_step pool) (pool_accepted pool) pool_pays (pool_calls self) (pool_said self) in
  let evs := gevents happens (for_lockup2 pool) read (pool_step pool) (pool_accepted pool) pool_pays (pool_calls self) (pool_said self) in
  let j := fin (mkState (Multisig2Account.start s0 p0 ks key) [] w0) js in
  let a := g_account j in
  let s := Multisig2Account.w_contract a in
  let r := Multisig2Model.mkRequest pool [Multisig2Model.FunctionCall name args 0 gas] in
  read name args = Some (Some m) ->
  (exists ps, snd (StakingPoolSpec.step pool (g_contract j) (StakingPoolSpec.EvCall self 0 locked [] m)) = Some ps) ->
  (forall m, In m (m0 :: cs) -> In m (Multisig2Model.get_members s) /\ Multisig2Account.can_act self a m) ->
  NoDup cs ->
  N.of_nat (List.length cs) = N.max 1 (Multisig2Model.get_num_confirmations s) ->
  Multisig2Model.get_num_confirmations s < U32_BOUND ->
  Multisig2Model.get_num_requests_per_member s m0 + 1 <= Multisig2Model.active_requests_limit s ->
  Multisig2Model.get_num_requests_per_member s m0 + 1 < U32_BOUND -> Multisig2Model.get_request_nonce s + 1 < U32_BOUND ->
  (exists args, decode "add_request" args = Some (Multisig2Model.CAddRequest r)) ->
  (exists args, decode "confirm" args = Some (Multisig2Model.CConfirm (Multisig2Model.get_request_nonce s))) ->
  exists hs n, Forall (Multisig2Account.by_members (m0 :: cs) t) hs /\
    evs j (map GAccount hs ++ [GDeliver n locked])%list = [StakingPoolSpec.EvCall self 0 locked [] m].
Proof. exact pool_can_govern2. Qed.
Print Assumptions C107_quorum2_can_govern.

(** A pool owned by a 2-of-3 multisig. A stranger and one key alone try to raise the fee; then two keys confirm that it
    be lowered and the pool paused, in one batch, and rewards arrive in between: the batch is executed. *)
Definition me : account_id := "owner".
Definition keys3 : umap public_key MultisigAccount.access :=
  map (fun pk => (pk, MultisigAccount.CallAccess me ["add_request"; "delete_request"; "confirm"])) ["k1"; "k2"; "k3"].
Definition order : MultisigModel.request :=
  MultisigModel.mkRequest "pool" [MultisigModel.FunctionCall "update_reward_fee_fraction" "1/20" 0 0;
                                  MultisigModel.Transfer 5; MultisigModel.FunctionCall "pause_staking" "" 0 0].
Definition decode (m args : string) : option MultisigModel.call :=
  if String.eqb m "add_request" then Some (MultisigModel.CAddRequest order)
  else if String.eqb m "confirm" then Some (MultisigModel.CConfirm 0) else None.
Definition fee : StakingPoolModel.call := StakingPoolModel.UpdateRewardFeeFraction (StakingPoolModel.mkFraction 1 20).
Definition read (m args : string) : option (option StakingPoolModel.call) :=
  if String.eqb m "update_reward_fee_fraction" then Some (Some fee)
  else if String.eqb m "pause_staking" then Some (Some StakingPoolModel.PauseStaking) else None.
Definition tx (pk m : string) : MultisigAccount.happening :=
  MultisigAccount.HTx pk me [MultisigModel.BFunctionCall m "" 0 0].
Definition story : list (@gevent MultisigAccount.happening StakingPoolSpec.event N) :=
  (map GContract StakingPoolDemo.demo_evs ++
   [GContract (StakingPoolSpec.EvCall "eve" 0 0 [] StakingPoolModel.PauseStaking);
    GAccount (MultisigAccount.HTx "k2" "pool" [MultisigModel.BFunctionCall "pause_staking" "" 0 0]);
    GContract (StakingPoolSpec.EvCall me 0 0 [] StakingPoolModel.PauseStaking); GDeliver 0 7] ++
   map GAccount [tx "k1" "add_request"; MultisigAccount.HDeliver 0 1; tx "k1" "confirm"; tx "k3" "confirm";
                 MultisigAccount.HDeliver 1 2; MultisigAccount.HDeliver 0 3; MultisigAccount.HDeliver 0 4] ++
   [GContract (StakingPoolSpec.EvIncome 1000); GDeliver 0 1000000])%list.
Example C107_applies :
  exists s0, MultisigModel.new false 2 = Ok s0 /\ NoDup (mkeys keys3) /\
  (forall pk a, mget pk keys3 = Some a -> MultisigAccount.limited me a) /\
  StakingPoolModel.owner_id (StakingPoolSpec.w_pool StakingPoolDemo.demo0) = me /\
  let happens := MultisigAccount.happen_obs me decode in
  let j0 := mkState (MultisigAccount.start s0 keys3) [] StakingPoolDemo.demo0 in
  let fin := gfinal happens (for_lockup1 "pool") read (pool_step "pool") (pool_accepted "pool") pool_pays (pool_calls me) (pool_said me) in
  let evs := gevents happens (for_lockup1 "pool") read (pool_step "pool") (pool_accepted "pool") pool_pays (pool_calls me) (pool_said me) in
  let calls := MultisigAccount.w_calls (g_account (fin j0 story)) in
  let p := StakingPoolSpec.w_pool (g_contract (fin j0 story)) in
  (forall p, In p (MultisigAccount.executions me s0 calls) -> MultisigModel.p_receiver p = me ->
             MultisigAccount.keeps_guard me (MultisigModel.p_actions p)) /\
  owners_calls me (StakingPoolSpec.history "pool" StakingPoolDemo.demo0 (evs j0 story)) = [fee; StakingPoolModel.PauseStaking] /\
  StakingPoolModel.paused p = true /\ StakingPoolModel.reward_fee_fraction p = StakingPoolModel.mkFraction 1 20 /\
  StakingPoolModel.paused (StakingPoolSpec.w_pool StakingPoolDemo.demo0) = false.
Proof.
  eexists. split; [reflexivity|]. split; [repeat constructor; cbn; intuition discriminate|]. split.
  { intros pk a. cbn [keys3 map mget]. do 3 (destruct (keqb _ _); [intros E; injection E as <-; eexists; reflexivity|]).
    discriminate. }
  split; [reflexivity|]. cbv zeta. split; [|vm_compute; repeat split; reflexivity].
  intros p I. vm_compute in I. destruct I as [<-|[]]. discriminate.
Qed.
Definition pause : MultisigModel.request :=
  MultisigModel.mkRequest "pool" [MultisigModel.FunctionCall "pause_staking" "" 0 0].
Definition decode_pause (m args : string) : option MultisigModel.call :=
  if String.eqb m "add_request" then Some (MultisigModel.CAddRequest pause)
  else if String.eqb m "confirm" then Some (MultisigModel.CConfirm 0) else None.
Example C107_can_govern_applies :
  exists s0, MultisigModel.new false 2 = Ok s0 /\
  let j := gfinal (MultisigAccount.happen_obs me decode_pause) (for_lockup1 "pool") read (pool_step "pool") (pool_accepted "pool")
             pool_pays (pool_calls me) (pool_said me) (mkState (MultisigAccount.start s0 keys3) [] StakingPoolDemo.demo0)
             (map GContract StakingPoolDemo.demo_evs) in
  let s := MultisigAccount.w_contract (g_account j) in
  (exists ps, snd (StakingPoolSpec.step "pool" (g_contract j)
                     (StakingPoolSpec.EvCall me 0 1000000 [] StakingPoolModel.PauseStaking)) = Some ps) /\
  (forall pk, In pk ["k2"; "k1"; "k3"] -> MultisigAccount.can_act me (g_account j) pk) /\
  N.of_nat (List.length ["k1"; "k3"]) = N.max 1 (MultisigModel.get_num_confirmations s) /\
  MultisigModel.get_num_requests_pk s "k2" + 1 <= MultisigModel.active_requests_limit s /\
  decode_pause "confirm" "" = Some (MultisigModel.CConfirm (MultisigModel.get_request_nonce s)).
Proof.
  eexists. split; [reflexivity|]. cbv zeta. split; [eexists; vm_compute; reflexivity|]. split.
  { intros m I. destruct I as [<-|[<-|[<-|[]]]];
      (eexists; split; [vm_compute; reflexivity|intros args; split; reflexivity]). }
  vm_compute. repeat split; try reflexivity; discriminate.
Qed.

(** C108. The first multisig guards the foundation's account of the whitelist. Whatever happens to the lists, a request
    confirmed by the quorum asked for it, or a pool was listed by a factory whose listing one asked for. *)
Theorem C108_multisig :
  forall self decode read k s0 ks target w0 js,
  MultisigModel.new false k = Ok s0 ->
  NoDup (mkeys ks) -> (forall pk a, mget pk ks = Some a -> MultisigAccount.limited self a) ->
  WhitelistModel.new false self = Ok w0 ->
  let happens := MultisigAccount.happen_obs self decode in
  let j0 := mkState (MultisigAccount.start s0 ks) [] w0 in
  let fin := gfinal happens (for_lockup1 target) read WhitelistSpec.step WhitelistSpec.accepted list_pays (list_calls self) (list_said self) in
  let evs := gevents happens (for_lockup1 target) read WhitelistSpec.step WhitelistSpec.accepted list_pays (list_calls self) (list_said self) in
  let calls := MultisigAccount.w_calls (g_account (fin j0 js)) in
  let wanted := asking (for_lockup1 target) read in
  (forall p, In p (MultisigAccount.executions self s0 calls) -> MultisigModel.p_receiver p = self ->
             MultisigAccount.keeps_guard self (MultisigModel.p_actions p)) ->
  g_contract (fin j0 js) = WhitelistSpec.final w0 (evs j0 js) /\
  forall evs1 e evs2, evs j0 js = (evs1 ++ e :: evs2)%list ->
    steered_list self (fun m => exists p, by_quorum1 self s0 ks calls p /\ In m (wanted p)) (WhitelistSpec.final w0 evs1) e.
Proof. exact list_governed1. Qed.
Print Assumptions C108_multisig.
Theorem C108_multisig2 :
  forall self decode read ms k s0 p0 ks key target w0 js,
  Multisig2Model.new self false ms k = Ok (s0, p0) ->
  NoDup (mkeys ks) -> (forall pk a, mget pk ks = Some a -> Multisig2Account.limited self a) ->
  WhitelistModel.new false self = Ok w0 ->
  let happens := Multisig2Account.happen_obs self decode in
  let j0 := mkState (Multisig2Account.start s0 p0 ks key) [] w0 in
  let fin := gfinal happens (for_lockup2 target) read WhitelistSpec.step WhitelistSpec.accepted list_pays (list_calls self) (list_said self) in
  let evs := gevents happens (for_lockup2 target) read WhitelistSpec.step WhitelistSpec.accepted list_pays (list_calls self) (list_said self) in
  let calls := Multisig2Account.w_calls (g_account (fin j0 js)) in
  let wanted := asking (for_lockup2 target) read in
  (forall p, In p (Multisig2Account.executions self s0 calls) -> Multisig2Model.p_receiver p = self ->
             Multisig2Account.keeps_guard self (Multisig2Model.p_actions p)) ->
  g_contract (fin j0 js) = WhitelistSpec.final w0 (evs j0 js) /\
  forall evs1 e evs2, evs j0 js = (evs1 ++ e :: evs2)%list ->
    steered_list self (fun m => exists p, by_quorum2 self s0 calls p /\ In m (wanted p)) (WhitelistSpec.final w0 evs1) e.
Proof. exact list_governed2. Qed.
Print Assumptions C108_multisig2.

(** C108. And the quorum has the lists in hand: what the whitelist would accept from its foundation, it can make happen. *)
Theorem C108_quorum_can_govern :
  forall self decode read t k s0 ks target w0 js pk0 cs name args gas m,
  MultisigModel.new false k = Ok s0 -> self <> target ->
  let happens := MultisigAccount.happen_obs self decode in
  let fin := gfinal happens (for_lockup1 target) read WhitelistSpec.step WhitelistSpec.accepted list_pays (list_calls self) (list_said self) in
  let evs := gevents happens (for_lockup1 target) read WhitelistSpec.step WhitelistSpec.accepted list_pays (list_calls self) (list_said self) in
  let j := fin (mkState (MultisigAccount.start s0 ks) [] w0) js in
  let a := g_account j in
  let s := MultisigAccount.w_contract a in
  let r := MultisigModel.mkRequest target [MultisigModel.FunctionCall name args 0 gas] in
  read name args = Some (Some m) ->
  WhitelistSpec.accepted (g_contract j) (WhitelistSpec.mkEvent self 0 m) = true ->
  (forall pk, In pk (pk0 :: cs) -> MultisigAccount.can_act self a pk) ->
  NoDup cs ->
  N.of_nat (List.length cs) = N.max 1 (MultisigModel.get_num_confirmations s) ->
  MultisigModel.get_num_confirmations s < U32_BOUND ->
  MultisigModel.get_num_requests_pk s pk0 + 1 <= MultisigModel.active_requests_limit s ->
  MultisigModel.get_num_requests_pk s pk0 + 1 < U32_BOUND -> MultisigModel.get_request_nonce s + 1 < U32_BOUND ->
  (exists args, decode "add_request" args = Some (MultisigModel.CAddRequest r)) ->
  (exists args, decode "confirm" args = Some (MultisigModel.CConfirm (MultisigModel.get_request_nonce s))) ->
  exists hs n, Forall (MultisigAccount.by_keys (pk0 :: cs) t) hs /\
    evs j (map GAccount hs ++ [GDeliver n tt])%list = [WhitelistSpec.mkEvent self 0 m].
Proof. exact list_can_govern1. Qed.
Print Assumptions C108_quorum_can_govern.
Theorem C108_quorum2_can_govern :
  forall self decode read t ms k s0 p0 ks key target w0 js m0 cs name args gas m,
  Multisig2Model.new self false ms k = Ok (s0, p0) -> self <> target ->
  let happens := Multisig2Account.happen_obs self decode in
  let fin := gfinal happens (for_lockup2 target) read WhitelistSpec.step WhitelistSpec.accepted list_pays (list_calls self) (list_said self) in
  let evs := gevents happens (for_lockup2 target) read WhitelistSpec.step WhitelistSpec.accepted list_pays (list_calls self) (list_said self) in
  let j := fin (mkState (Multisig2Account.start s0 p0 ks key) [] w0) js in
  let a := g_account j in
  let s := Multisig2Account.w_contract a in
  let r := Multisig2Model.mkRequest target [Multisig2Model.FunctionCall name args 0 gas] in
  read name args = Some (Some m) ->
  WhitelistSpec.accepted (g_contract j) (WhitelistSpec.mkEvent self 0 m) = true ->
  (forall m, In m (m0 :: cs) -> In m (Multisig2Model.get_members s) /\ Multisig2Account.can_act self a m) ->
  NoDup cs ->
  N.of_nat (List.length cs) = N.max 1 (Multisig2Model.get_num_confirmations s) ->
  Multisig2Model.get_num_confirmations s < U32_BOUND ->
  Multisig2Model.get_num_requests_per_member s m0 + 1 <= Multisig2Model.active_requests_limit s ->
  Multisig2Model.get_num_requests_per_member s m0 + 1 < U32_BOUND -> Multisig2Model.get_request_nonce s + 1 < U32_BOUND ->
  (exists args, decode "add_request" args = Some (Multisig2Model.CAddRequest r)) ->
  (exists args, decode "confirm" args = Some (Multisig2Model.CConfirm (Multisig2Model.get_request_nonce s))) ->
  exists hs n, Forall (Multisig2Account.by_members (m0 :: cs) t) hs /\
    evs j (map GAccount hs ++ [GDeliver n tt])%list = [WhitelistSpec.mkEvent self 0 m].
Proof. exact list_can_govern2. Qed.
Print Assumptions C108_quorum2_can_govern.

(** A whitelist whose foundation is a second multisig: a factory is listed by two members, then lists a pool; a
    stranger's listing is refused. *)
Definition listing : Multisig2Model.request :=
  Multisig2Model.mkRequest "whitelist" [Multisig2Model.FunctionCall "add_factory" "pools.near" 0 0].
Definition ms3 : list Multisig2Model.member :=
  [Multisig2Model.AccessKey "k1"; Multisig2Model.AccessKey "k2"; Multisig2Model.Account "carol.near"].
Definition decode2 (m args : string) : option Multisig2Model.call :=
  if String.eqb m "add_request" then Some (Multisig2Model.CAddRequest listing)
  else if String.eqb m "confirm" then Some (Multisig2Model.CConfirm 0) else None.
Definition read2 (m args : string) : option (option WhitelistModel.call) :=
  if String.eqb m "add_factory" then Some (Some (WhitelistModel.AddFactory args))
  else if String.eqb m "is_whitelisted" then Some None else None.
Definition tx2 (pk m : string) : Multisig2Account.happening :=
  Multisig2Account.HTx pk me [Multisig2Model.BFunctionCall m "" 0 0].
Definition story2 : list (@gevent Multisig2Account.happening WhitelistSpec.event unit) :=
  ([GAccount (Multisig2Account.HDeliver 0 1); GContract (WhitelistSpec.mkEvent "eve" 0 (WhitelistModel.AddStakingPool "eve.near"));
    GContract (WhitelistSpec.mkEvent me 0 (WhitelistModel.AddStakingPool "eve.near"))] ++
   map GAccount [tx2 "k1" "add_request"; Multisig2Account.HDeliver 0 2; tx2 "k1" "confirm"; Multisig2Account.HDeliver 0 3;
                 Multisig2Account.HCall "carol.near" "kc" 0 4 (Multisig2Model.CConfirm 0); Multisig2Account.HDeliver 0 5] ++
   [GDeliver 0 tt; GContract (WhitelistSpec.mkEvent "pools.near" 0 (WhitelistModel.AddStakingPool "a.pools.near"))])%list.
Example C108_applies :
  exists s0 p0 w0, Multisig2Model.new me false ms3 2 = Ok (s0, p0) /\ WhitelistModel.new false me = Ok w0 /\
  let happens := Multisig2Account.happen_obs me decode2 in
  let j0 := mkState (Multisig2Account.start s0 p0 [] "kd") [] w0 in
  let fin := gfinal happens (for_lockup2 "whitelist") read2 WhitelistSpec.step WhitelistSpec.accepted list_pays (list_calls me) (list_said me) in
  let evs := gevents happens (for_lockup2 "whitelist") read2 WhitelistSpec.step WhitelistSpec.accepted list_pays (list_calls me) (list_said me) in
  let calls := Multisig2Account.w_calls (g_account (fin j0 story2)) in
  let w := g_contract (fin j0 story2) in
  (forall p, In p (Multisig2Account.executions me s0 calls) -> Multisig2Model.p_receiver p = me ->
             Multisig2Account.keeps_guard me (Multisig2Model.p_actions p)) /\
  evs j0 story2 = [WhitelistSpec.mkEvent "eve" 0 (WhitelistModel.AddStakingPool "eve.near");
                   WhitelistSpec.mkEvent me 0 (WhitelistModel.AddFactory "pools.near");
                   WhitelistSpec.mkEvent "pools.near" 0 (WhitelistModel.AddStakingPool "a.pools.near")] /\
  WhitelistModel.is_whitelisted w "a.pools.near" = Ok true /\ WhitelistModel.is_whitelisted w "eve.near" = Ok false.
Proof.
  do 3 eexists. split; [vm_compute; reflexivity|]. split; [vm_compute; reflexivity|].
  cbv zeta. split; [|vm_compute; repeat split; reflexivity].
  intros p I. vm_compute in I. destruct I as [<-|[]]. discriminate.
Qed.
(** The hypotheses of the last two theorems are met, here by the second multisig before anything was asked for, once its
    keys are installed. *)
Example C108_can_govern_applies :
  exists s0 p0 w0, Multisig2Model.new me false ms3 2 = Ok (s0, p0) /\ WhitelistModel.new false me = Ok w0 /\
  let j := gfinal (Multisig2Account.happen_obs me decode2) (for_lockup2 "whitelist") read2 WhitelistSpec.step
             WhitelistSpec.accepted list_pays (list_calls me) (list_said me)
             (mkState (Multisig2Account.start s0 p0 [] "kd") [] w0) (firstn 3 story2) in
  let s := Multisig2Account.w_contract (g_account j) in
  let m0 := Multisig2Model.AccessKey "k1" in
  let cs := [Multisig2Model.Account "carol.near"; Multisig2Model.AccessKey "k2"] in
  WhitelistSpec.accepted (g_contract j) (WhitelistSpec.mkEvent me 0 (WhitelistModel.AddFactory "pools.near")) = true /\
  (forall m, In m (m0 :: cs) -> In m (Multisig2Model.get_members s) /\ Multisig2Account.can_act me (g_account j) m) /\
  N.of_nat (List.length cs) = N.max 1 (Multisig2Model.get_num_confirmations s) /\
  Multisig2Model.get_num_requests_per_member s m0 + 1 <= Multisig2Model.active_requests_limit s /\
  decode2 "confirm" "" = Some (Multisig2Model.CConfirm (Multisig2Model.get_request_nonce s)).
Proof.
  do 3 eexists. split; [vm_compute; reflexivity|]. split; [vm_compute; reflexivity|]. cbv zeta.
  split; [vm_compute; reflexivity|]. split.
  { intros m I. destruct I as [<-|[<-|[<-|[]]]]; (split; [vm_compute; tauto|]).
    - eexists. split; [vm_compute; reflexivity|intros args; split; reflexivity].
    - vm_compute. discriminate.
    - eexists. split; [vm_compute; reflexivity|intros args; split; reflexivity]. }
  vm_compute. repeat split; try reflexivity; discriminate.
Qed.
