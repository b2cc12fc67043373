(** C121, for a staking pool whose owner's account, or a whitelist whose foundation's account, a multisig guards: those
    without whom there is no quorum can keep the owner's decisions and the lists as they are. In every statement [js] is an arbitrary history of both: transactions and deliveries
    at the account, the delivery of what it sent, calls of the pool by anybody else, tokens, rewards. *)
From Coq Require Import NArith List Bool String.
From Verif Require Import Prelude OwnedLockup Governed GovernedSilence.
From Verif Require WhitelistModel WhitelistSpec.
From Verif Require StakingPoolModel StakingPoolSpec StakingPoolDemo MultisigModel MultisigSpec MultisigAccount MultisigSilence.
From Verif Require Multisig2Model Multisig2Spec Multisig2Account Multisig2Veto Multisig2Silence.
Import ListNotations.
Open Scope string_scope.
Open Scope N_scope.

(** C121. The first multisig guards the owner's account of a pool in any state, and nothing the account sent is on its
    way. If only keys of [A] confirm from now on, and they are fewer than required, the pool accepts no call of its
    owner any more: its fee, its staking key, whether it stakes and who owns it stay as they are, it votes for nothing,
    and no tokens go from it to the owner. *)
Theorem C121_pool_keeps_its_settings :
  forall self decode read k s0 ks hs pool w js A,
  MultisigModel.new false k = Ok s0 ->
  NoDup (mkeys ks) -> (forall pk x, mget pk ks = Some x -> MultisigAccount.limited self x) ->
  StakingPoolModel.owner_id (StakingPoolSpec.w_pool w) = self ->
  let a := MultisigAccount.run self decode (MultisigAccount.start s0 ks) hs in
  let s := MultisigAccount.w_contract a in
  let evs := gevents (MultisigAccount.happen_obs self decode) (for_lockup1 pool) read (pool_step pool) (pool_accepted pool)
               pool_pays (pool_calls self) (pool_said self) (mkState a [] w) js in
  (forall p, In p (MultisigAccount.executions self s0 (MultisigAccount.w_calls a)) -> MultisigModel.p_receiver p = self ->
             MultisigAccount.keeps_guard self (MultisigModel.p_actions p)) ->
  MultisigAccount.w_flight a = [] ->
  N.of_nat (List.length A) < MultisigModel.get_num_confirmations s ->
  (forall id pk, In id (MultisigModel.list_request_ids s) ->
     In pk (MultisigSpec.confirmers (MultisigSpec.log self s0 (MultisigAccount.w_calls a)) id) -> In pk A) ->
  (forall key to acts, In (GAccount (MultisigAccount.HTx key to acts)) js -> ~ In key A ->
     MultisigSilence.carries_no_confirmation decode acts) ->
  owners_calls self (StakingPoolSpec.history pool w evs) = [] /\
  forall en, In en (StakingPoolSpec.history pool w evs) -> steered self (fun _ => False) en.
Proof. exact pool_silent1. Qed.
Print Assumptions C121_pool_keeps_its_settings.

(** C121. The same for the second multisig. *)
Theorem C121_pool_keeps_its_settings2 :
  forall self decode read ms k s0 p0 ks key hs pool w js B,
  Multisig2Model.new self false ms k = Ok (s0, p0) ->
  NoDup (mkeys ks) -> (forall pk x, mget pk ks = Some x -> Multisig2Account.limited self x) ->
  StakingPoolModel.owner_id (StakingPoolSpec.w_pool w) = self ->
  let a := Multisig2Account.run self decode (Multisig2Account.start s0 p0 ks key) hs in
  let s := Multisig2Account.w_contract a in
  let evs := gevents (Multisig2Account.happen_obs self decode) (for_lockup2 pool) read (pool_step pool) (pool_accepted pool)
               pool_pays (pool_calls self) (pool_said self) (mkState a [] w) js in
  (forall p, In p (Multisig2Account.executions self s0 (Multisig2Account.w_calls a)) -> Multisig2Model.p_receiver p = self ->
             Multisig2Account.keeps_guard self (Multisig2Model.p_actions p)) ->
  Multisig2Account.w_flight a = [] ->
  NoDup B -> incl B (Multisig2Model.get_members s) ->
  N.of_nat (List.length (Multisig2Model.get_members s)) <
    Multisig2Model.get_num_confirmations s + N.of_nat (List.length B) ->
  (forall id m, In id (Multisig2Model.list_request_ids s) ->
     In m (Multisig2Spec.confirmers (Multisig2Spec.log self s0 (Multisig2Account.w_calls a)) id) ->
     In m (Multisig2Model.get_members s) /\ ~ In m B) ->
  (forall key to acts, In (GAccount (Multisig2Account.HTx key to acts)) js -> In (Multisig2Model.AccessKey key) B ->
     Multisig2Silence.carries_no_confirmation decode acts) ->
  (forall pred key attached t m, In (GAccount (Multisig2Account.HCall pred key attached t m)) js ->
     In (Multisig2Model.Account pred) B -> Multisig2Veto.confirms m = false) ->
  owners_calls self (StakingPoolSpec.history pool w evs) = [] /\
  forall en, In en (StakingPoolSpec.history pool w evs) -> steered self (fun _ => False) en.
Proof. exact pool_silent2. Qed.
Print Assumptions C121_pool_keeps_its_settings2.

(** C121. The same for a whitelist in any state whose foundation the multisig guards: what is listed stays listed, no
    factory is added, and a pool is added only by a factory that is listed now ([list_kept]). *)
Theorem C121_whitelist_keeps_its_lists :
  forall self decode read k s0 ks hs target w js A,
  MultisigModel.new false k = Ok s0 ->
  NoDup (mkeys ks) -> (forall pk x, mget pk ks = Some x -> MultisigAccount.limited self x) ->
  WhitelistModel.foundation_account_id w = self ->
  let a := MultisigAccount.run self decode (MultisigAccount.start s0 ks) hs in
  let s := MultisigAccount.w_contract a in
  let evs := gevents (MultisigAccount.happen_obs self decode) (for_lockup1 target) read WhitelistSpec.step WhitelistSpec.accepted
               list_pays (list_calls self) (list_said self) (mkState a [] w) js in
  (forall p, In p (MultisigAccount.executions self s0 (MultisigAccount.w_calls a)) -> MultisigModel.p_receiver p = self ->
             MultisigAccount.keeps_guard self (MultisigModel.p_actions p)) ->
  MultisigAccount.w_flight a = [] ->
  N.of_nat (List.length A) < MultisigModel.get_num_confirmations s ->
  (forall id pk, In id (MultisigModel.list_request_ids s) ->
     In pk (MultisigSpec.confirmers (MultisigSpec.log self s0 (MultisigAccount.w_calls a)) id) -> In pk A) ->
  (forall key to acts, In (GAccount (MultisigAccount.HTx key to acts)) js -> ~ In key A ->
     MultisigSilence.carries_no_confirmation decode acts) ->
  list_kept w evs.
Proof. exact list_silent1. Qed.
Print Assumptions C121_whitelist_keeps_its_lists.
Theorem C121_whitelist_keeps_its_lists2 :
  forall self decode read ms k s0 p0 ks key hs target w js B,
  Multisig2Model.new self false ms k = Ok (s0, p0) ->
  NoDup (mkeys ks) -> (forall pk x, mget pk ks = Some x -> Multisig2Account.limited self x) ->
  WhitelistModel.foundation_account_id w = self ->
  let a := Multisig2Account.run self decode (Multisig2Account.start s0 p0 ks key) hs in
  let s := Multisig2Account.w_contract a in
  let evs := gevents (Multisig2Account.happen_obs self decode) (for_lockup2 target) read WhitelistSpec.step WhitelistSpec.accepted
               list_pays (list_calls self) (list_said self) (mkState a [] w) js in
  (forall p, In p (Multisig2Account.executions self s0 (Multisig2Account.w_calls a)) -> Multisig2Model.p_receiver p = self ->
             Multisig2Account.keeps_guard self (Multisig2Model.p_actions p)) ->
  Multisig2Account.w_flight a = [] ->
  NoDup B -> incl B (Multisig2Model.get_members s) ->
  N.of_nat (List.length (Multisig2Model.get_members s)) <
    Multisig2Model.get_num_confirmations s + N.of_nat (List.length B) ->
  (forall id m, In id (Multisig2Model.list_request_ids s) ->
     In m (Multisig2Spec.confirmers (Multisig2Spec.log self s0 (Multisig2Account.w_calls a)) id) ->
     In m (Multisig2Model.get_members s) /\ ~ In m B) ->
  (forall key to acts, In (GAccount (Multisig2Account.HTx key to acts)) js -> In (Multisig2Model.AccessKey key) B ->
     Multisig2Silence.carries_no_confirmation decode acts) ->
  (forall pred key attached t m, In (GAccount (Multisig2Account.HCall pred key attached t m)) js ->
     In (Multisig2Model.Account pred) B -> Multisig2Veto.confirms m = false) ->
  list_kept w evs.
Proof. exact list_silent2. Qed.
Print Assumptions C121_whitelist_keeps_its_lists2.

(** A pool owned by a 2-of-3 multisig. [k1] has asked that it be paused and confirmed that; while [k1] goes on trying,
    and delegators come and go, [k2] and [k3] only add requests. Were [k3] to confirm, the pool would be paused. *)
Definition me : account_id := "owner".
Definition keys3 : umap public_key MultisigAccount.access :=
  map (fun pk => (pk, MultisigAccount.CallAccess me ["add_request"; "delete_request"; "confirm"])) ["k1"; "k2"; "k3"].
Definition decode (m args : string) : option MultisigModel.call :=
  if String.eqb m "add_request"
  then Some (MultisigModel.CAddRequest (MultisigModel.mkRequest "pool" [MultisigModel.FunctionCall "pause_staking" "" 0 0]))
  else if String.eqb m "confirm" then Some (MultisigModel.CConfirm 0) else None.
Definition read (m args : string) : option (option StakingPoolModel.call) :=
  if String.eqb m "pause_staking" then Some (Some StakingPoolModel.PauseStaking) else None.
Definition tx (key m : string) : MultisigAccount.happening :=
  MultisigAccount.HTx key me [MultisigModel.BFunctionCall m "" 0 0].
Definition before : list MultisigAccount.happening :=
  [tx "k1" "add_request"; MultisigAccount.HDeliver 0 1; tx "k1" "confirm"; MultisigAccount.HDeliver 0 2].
Definition after : list (@gevent MultisigAccount.happening StakingPoolSpec.event N) :=
  ([GAccount (tx "k1" "confirm"); GAccount (MultisigAccount.HDeliver 0 3)] ++ map GContract StakingPoolDemo.demo_evs ++
   [GAccount (tx "k2" "add_request"); GAccount (MultisigAccount.HDeliver 0 4); GDeliver 0 7])%list.
Definition paused_after (s0 : MultisigModel.contract) (js : list (@gevent MultisigAccount.happening StakingPoolSpec.event N)) : bool :=
  StakingPoolModel.paused (StakingPoolSpec.w_pool (g_contract
    (gfinal (MultisigAccount.happen_obs me decode) (for_lockup1 "pool") read (pool_step "pool") (pool_accepted "pool")
       pool_pays (pool_calls me) (pool_said me)
       (mkState (MultisigAccount.run me decode (MultisigAccount.start s0 keys3) before) [] StakingPoolDemo.demo0) js))).
Example C121_pool_applies :
  exists s0, MultisigModel.new false 2 = Ok s0 /\ NoDup (mkeys keys3) /\
  (forall pk x, mget pk keys3 = Some x -> MultisigAccount.limited me x) /\
  StakingPoolModel.owner_id (StakingPoolSpec.w_pool StakingPoolDemo.demo0) = me /\
  let a := MultisigAccount.run me decode (MultisigAccount.start s0 keys3) before in
  MultisigAccount.executions me s0 (MultisigAccount.w_calls a) = [] /\ MultisigAccount.w_flight a = [] /\
  MultisigModel.get_num_confirmations (MultisigAccount.w_contract a) = 2 /\
  MultisigModel.list_request_ids (MultisigAccount.w_contract a) = [0] /\
  MultisigSpec.confirmers (MultisigSpec.log me s0 (MultisigAccount.w_calls a)) 0 = ["k1"] /\
  (forall key to acts, In (GAccount (MultisigAccount.HTx key to acts)) after -> ~ In key ["k1"] ->
     MultisigSilence.carries_no_confirmation decode acts) /\
  paused_after s0 after = false /\
  paused_after s0 (map GContract StakingPoolDemo.demo_evs ++ map GAccount [tx "k3" "confirm"; MultisigAccount.HDeliver 0 3; MultisigAccount.HDeliver 0 4] ++
                   [GDeliver 0 1000000]) = true.
Proof.
  eexists. split; [reflexivity|]. split; [repeat constructor; cbn; intuition discriminate|]. split.
  { intros pk a. cbn [keys3 map mget]. do 3 (destruct (keqb _ _); [intros E; injection E as <-; eexists; reflexivity|]).
    discriminate. }
  split; [reflexivity|]. cbv zeta. split; [vm_compute; reflexivity|]. split; [vm_compute; reflexivity|]. split; [vm_compute; reflexivity|].
  split; [vm_compute; reflexivity|]. split; [vm_compute; reflexivity|]. split; [|split; vm_compute; reflexivity].
  intros key to acts I NA. unfold after, tx in I. apply in_app_or in I. destruct I as [I|I]; [|apply in_app_or in I; destruct I as [I|I]].
  - destruct I as [I|[I|[]]]; [|discriminate I]. injection I as <- <- <-. exfalso. apply NA. now left.
  - apply in_map_iff in I. destruct I as (x & I & _). discriminate I.
  - destruct I as [I|[I|[I|[]]]]; try discriminate I. injection I as <- <- <-.
    intros m args dep gas c J D. destruct J as [J|[]]. injection J as <- <- <- <-. vm_compute in D. injection D as <-. reflexivity.
Qed.

(** A whitelist whose foundation is the same account: a factory that is listed lists a pool, a stranger tries to, and
    [k1] goes on trying to have that factory removed. *)
Definition decode_list (m args : string) : option MultisigModel.call :=
  if String.eqb m "add_request"
  then Some (MultisigModel.CAddRequest (MultisigModel.mkRequest "white.near" [MultisigModel.FunctionCall "remove_factory" "" 0 0]))
  else if String.eqb m "confirm" then Some (MultisigModel.CConfirm 0) else None.
Definition read_list (m args : string) : option (option WhitelistModel.call) :=
  if String.eqb m "remove_factory" then Some (Some (WhitelistModel.RemoveFactory "factory.near")) else None.
Definition lists : WhitelistModel.contract :=
  WhitelistSpec.final (WhitelistModel.mkContract me []) [WhitelistSpec.mkEvent me 0 (WhitelistModel.AddFactory "factory.near")].
Definition after_list : list (@gevent MultisigAccount.happening WhitelistSpec.event unit) :=
  [GAccount (tx "k1" "confirm"); GAccount (MultisigAccount.HDeliver 0 3);
   GContract (WhitelistSpec.mkEvent "factory.near" 0 (WhitelistModel.AddStakingPool "pool.near"));
   GContract (WhitelistSpec.mkEvent "eve.near" 0 (WhitelistModel.AddStakingPool "eve.near"));
   GAccount (tx "k2" "add_request"); GAccount (MultisigAccount.HDeliver 0 4); GDeliver 0 tt].
Definition lists_after (s0 : MultisigModel.contract) (js : list (@gevent MultisigAccount.happening WhitelistSpec.event unit)) :
    WhitelistModel.contract :=
  g_contract (gfinal (MultisigAccount.happen_obs me decode_list) (for_lockup1 "white.near") read_list WhitelistSpec.step
    WhitelistSpec.accepted list_pays (list_calls me) (list_said me)
    (mkState (MultisigAccount.run me decode_list (MultisigAccount.start s0 keys3) before) [] lists) js).
Example C121_whitelist_applies :
  exists s0, MultisigModel.new false 2 = Ok s0 /\ WhitelistModel.foundation_account_id lists = me /\
  let a := MultisigAccount.run me decode_list (MultisigAccount.start s0 keys3) before in
  MultisigAccount.executions me s0 (MultisigAccount.w_calls a) = [] /\ MultisigAccount.w_flight a = [] /\
  MultisigSpec.confirmers (MultisigSpec.log me s0 (MultisigAccount.w_calls a)) 0 = ["k1"] /\
  WhitelistModel.is_factory_whitelisted (lists_after s0 after_list) "factory.near" = Ok true /\
  WhitelistModel.is_whitelisted (lists_after s0 after_list) "pool.near" = Ok true /\
  WhitelistModel.is_whitelisted (lists_after s0 after_list) "eve.near" = Ok false /\
  WhitelistModel.is_factory_whitelisted
    (lists_after s0 (map GAccount [tx "k3" "confirm"; MultisigAccount.HDeliver 0 3; MultisigAccount.HDeliver 0 4] ++ [GDeliver 0 tt])%list)
    "factory.near" = Ok false.
Proof. eexists. split; [reflexivity|]. vm_compute. repeat split. Qed.
