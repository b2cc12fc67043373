(** What the answers of the factories tell their callers (C113). *)
From Coq Require Import NArith List Bool String.
From Verif Require Import Prelude Messages FactoryAnswers FactoryStories.
From Verif Require PoolFactoryModel PoolFactorySpec PoolStories PoolStoriesProofs WhitelistModel.
From Verif Require LockupFactoryModel LockupFactorySpec LockupStories LockupStoriesProofs LockupFactoryProps.
From Verif Require MultisigFactoryModel MultisigFactorySpec MultisigStories MultisigStoriesProofs Multisig2Model.
Import ListNotations.
Open Scope string_scope.
Open Scope N_scope.

Definition near (n : N) : N := n * 10 ^ 24.

Section Pool.
Import PoolFactoryModel PoolFactorySpec PoolStories.

(** Five calls. Alice's pool is created and whitelisted. Bob's name is taken: the deposit comes back. Carol's pool
    was on the whitelist before it existed. Dave's pool is created while the factory is not on the whitelist. Eve
    attaches too little; frank's call is still under way. *)
Definition t0 : town :=
  mkTown (mkWorld (mkFactory "whitelist" []) (near 50) ["b.pools.near"] []) [] (WM.mkContract "foundation" []) [] 0.
Definition create (name owner : string) : call := CreateStakingPool name owner "key" (SM.mkFraction 10 100).
Definition hs0 : list happening :=
  [HList "foundation" 0 (WM.AddFactory "pools.near"); HList "foundation" 0 (WM.AddStakingPool "c.pools.near");
   HFactory (ECall "alice" (near 31) (create "a" "alice")); HFactory (ECall "bob" (near 32) (create "b" "bob"));
   HFactory (ECall "carol" (near 33) (create "c" "carol")); HFactory (ECall "dave" (near 34) (create "d" "dave"));
   HFactory (ECall "eve" (near 1) (create "e" "eve")); HFactory (ECall "frank" (near 36) (create "f" "frank"));
   HFactory (ECreate 1 true 7); HFactory (ECreate 2 true 7); HFactory (ECreate 0 true 7); HFactory (ECreate 0 true 7);
   HFactory (ERun 2); HFactory (ERun 2); HAsk 1 true; HFactory (ERun 1);
   HFactory (ERun 1); HAsk 1 true; HList "foundation" 0 (WM.RemoveFactory "pools.near"); HAsk 0 true].

Example starts0 : town_starts "whitelist" t0.
Proof. repeat split. Qed.
Example story_alice : story 0 (notes "pools.near" "whitelist" t0 hs0) =
  [NCalled 0 "alice" (near 31) (create "a" "alice"); NCreated 0 "a.pools.near" (near 31);
   NListed 0 "a.pools.near" (Some true); NAnswer 0 (SBool true)].
Proof. vm_compute. reflexivity. Qed.
Example story_bob : story 1 (notes "pools.near" "whitelist" t0 hs0) =
  [NCalled 1 "bob" (near 32) (create "b" "bob"); NSent 1 "bob" (near 32); NAnswer 1 (SBool false)].
Proof. vm_compute. reflexivity. Qed.
Example story_carol : story 2 (notes "pools.near" "whitelist" t0 hs0) =
  [NCalled 2 "carol" (near 33) (create "c" "carol"); NCreated 2 "c.pools.near" (near 33);
   NListed 2 "c.pools.near" (Some false); NAnswer 2 (SBool false)].
Proof. vm_compute. reflexivity. Qed.
Example story_dave : story 3 (notes "pools.near" "whitelist" t0 hs0) =
  [NCalled 3 "dave" (near 34) (create "d" "dave"); NCreated 3 "d.pools.near" (near 34);
   NListed 3 "d.pools.near" None; NAnswer 3 SFailed].
Proof. vm_compute. reflexivity. Qed.
Example story_eve : story 4 (notes "pools.near" "whitelist" t0 hs0) =
  [NCalled 4 "eve" (near 1) (create "e" "eve"); NAnswer 4 SFailed].
Proof. vm_compute. reflexivity. Qed.
Example story_frank : story 5 (notes "pools.near" "whitelist" t0 hs0) =
    [NCalled 5 "frank" (near 36) (create "f" "frank")] /\
  t_next (tracked "pools.near" "whitelist" t0 hs0) = 6%nat /\
  serving_call 5 (tracked "pools.near" "whitelist" t0 hs0) = 1%nat.
Proof. vm_compute. auto. Qed.

(** C113, the staking pool factory: every call either has its answer and nothing in flight serves it, or it has
    none and exactly one message in flight serves it. Its story is one of five: it was refused at once and failed;
    the pool could not be created, the caller got the whole deposit back and [false]; or the pool was created with
    the whole deposit and the caller got the whitelist's answer, [true], [false] or a failure; or it is under way. *)
Theorem C113_pool_stories self wl t hs k :
  town_starts wl t -> (k < t_next (tracked self wl t hs))%nat ->
  let s := story k (notes self wl t hs) in
  (serving_call k (tracked self wl t hs) = 0%nat /\
     (refused k s \/ paid_back self k s \/ exists answer, built self k answer s)) \/
  (serving_call k (tracked self wl t hs) = 1%nat /\ under_way self k s).
Proof. exact (PoolStoriesProofs.pool_stories self wl t hs k). Qed.
Print Assumptions C113_pool_stories.

(** The whitelist's answer: [true] exactly if the pool has come onto the whitelist by this very request, [false]
    exactly if it was there before; the request fails only for lack of gas or if the factory is not on the whitelist
    of factories, and then it changes nothing. *)
Theorem C113_pool_whitelist_answer self wl t0 hs h k a r : town_starts wl t0 ->
  let t := tracked self wl t0 hs in
  let t' := fst (track self wl t h) in
  In (NListed k a r) (snd (track self wl t h)) ->
  match r with
  | Some b => WM.is_whitelisted (t_list t) a = Ok (negb b) /\ WM.is_whitelisted (t_list t') a = Ok true
  | None => t_list t' = t_list t /\
      ((exists n, h = HAsk n false) \/
       (WM.is_factory_whitelisted (t_list t) self <> Ok true /\ self <> WM.foundation_account_id (t_list t)))
  end.
Proof. exact (PoolStoriesProofs.pool_listed self wl t0 hs h k a r). Qed.
Print Assumptions C113_pool_whitelist_answer.

(** A call that the factory accepts is under way; any other fails at once and leaves everything as it was. *)
Theorem C113_pool_calls self wl t0 hs who x m : town_starts wl t0 ->
  let t := tracked self wl t0 hs in
  let t' := fst (track self wl t (HFactory (ECall who x m))) in
  if accepts self (t_world t) who x m
  then under_way self (t_next t) (snd (track self wl t (HFactory (ECall who x m)))) /\
       serving_call (t_next t) t' = 1%nat
  else snd (track self wl t (HFactory (ECall who x m))) =
         [NCalled (t_next t) who x m; NAnswer (t_next t) SFailed] /\
       t_world t' = t_world t /\ t_list t' = t_list t /\ t_asks t' = t_asks t.
Proof. exact (PoolStoriesProofs.pool_refused self wl t0 hs who x m). Qed.
Print Assumptions C113_pool_calls.

(** Keeping track changes nothing: the factory's history is that of [PoolFactorySpec], and the notes tell all its
    calls, creations and refunds. *)
Theorem C113_pool_same_history self wl t0 hs : town_starts wl t0 ->
  t_world (tracked self wl t0 hs) = final self (t_world t0) (events hs) /\
  creations (notes self wl t0 hs) = logged_creations (log self (t_world t0) (events hs)) /\
  payments (notes self wl t0 hs) = refunded (log self (t_world t0) (events hs)) /\
  calls_made (notes self wl t0 hs) = incoming_calls (events hs) /\
  t_next (tracked self wl t0 hs) = List.length (incoming_calls (events hs)).
Proof. exact (PoolStoriesProofs.pool_same_history self wl t0 hs). Qed.
Print Assumptions C113_pool_same_history.

(** The answer [false] alone does not tell the two stories apart: both happen. *)
Theorem C113_pool_false_has_two_stories :
  exists self wl t hs k1 k2, town_starts wl t /\
    paid_back self k1 (story k1 (notes self wl t hs)) /\ built self k2 (Some false) (story k2 (notes self wl t hs)).
Proof.
  exists "pools.near", "whitelist", t0, hs0, 1%nat, 2%nat. split; [exact starts0|]. split.
  - rewrite story_bob. exists "bob", (near 32), (create "b" "bob"), "b.pools.near".
    split; [|reflexivity]. exists "b", "bob", "key", (SM.mkFraction 10 100). repeat split; discriminate.
  - rewrite story_carol. exists "carol", (near 33), (create "c" "carol"), "c.pools.near".
    split; [|reflexivity]. exists "c", "carol", "key", (SM.mkFraction 10 100). repeat split; discriminate.
Qed.
Print Assumptions C113_pool_false_has_two_stories.
End Pool.

Section Lockup.
Import LockupFactoryModel LockupFactorySpec LockupStories.

(** Alice's lockup is created; bob asks for the same owner and gets the deposit back; eve attaches too little;
    carol's call is under way. *)
Definition l0 : town := mkTown (mkWorld (mkFactory "whitelist" "foundation") (near 1) [] []) [] 0.
Definition lock (owner : string) : call := Create owner 500 None None None None.
Definition evs0 : list event :=
  [ECall "alice" (near 100) (lock "owner.near"); ECall "bob" (near 40) (lock "owner.near");
   ECall "eve" (near 3) (lock "eve"); ECall "carol" (near 50) (lock "carol");
   ECreate 0 true 77; ECreate 0 true 78; ERun 2; ERun 1].

Example lockup_starts0 : town_starts LockupFactoryProps.g0 "whitelist" "foundation" l0.
Proof. split; [exact (proj1 LockupFactoryProps.starts0)|split; reflexivity]. Qed.
Example lockup_demo :
  let l := notes LockupFactoryProps.g0 l0 evs0 in
  answers (story 0 l) = [SBool true] /\ creations (story 0 l) = [(lockup_name LockupFactoryProps.g0 "owner.near", near 100)] /\
  story 1 l = [NCalled 1 "bob" (near 40) (lock "owner.near"); NSent 1 "bob" (near 40); NAnswer 1 (SBool false)] /\
  story 2 l = [NCalled 2 "eve" (near 3) (lock "eve"); NAnswer 2 SFailed] /\
  story 3 l = [NCalled 3 "carol" (near 50) (lock "carol")] /\
  serving_call 3 (tracked LockupFactoryProps.g0 l0 evs0) = 1%nat.
Proof. vm_compute. repeat split. Qed.

(** C113, the lockup factory: every call either has its answer and nothing in flight serves it, or it has none and
    exactly one message in flight serves it. The answer is [true] exactly if the lockup was created with the whole
    deposit, and [false] exactly if it was not and the caller got the whole deposit back. *)
Theorem C113_lockup_stories g wl fnd t evs k :
  town_starts g wl fnd t -> (k < t_next (tracked g t evs))%nat ->
  let s := story k (notes g t evs) in
  (serving_call k (tracked g t evs) = 0%nat /\ (refused k s \/ paid_back g k s \/ built g k s)) \/
  (serving_call k (tracked g t evs) = 1%nat /\ under_way g k s).
Proof. exact (LockupStoriesProofs.lockup_stories g wl fnd t evs k). Qed.
Print Assumptions C113_lockup_stories.

Theorem C113_lockup_calls g wl fnd t0 evs who x m : town_starts g wl fnd t0 ->
  let t := tracked g t0 evs in
  let t' := fst (track g t (ECall who x m)) in
  if accepts g (t_world t) who x m
  then under_way g (t_next t) (snd (track g t (ECall who x m))) /\ serving_call (t_next t) t' = 1%nat
  else snd (track g t (ECall who x m)) = [NCalled (t_next t) who x m; NAnswer (t_next t) SFailed] /\
       t_world t' = t_world t.
Proof. exact (LockupStoriesProofs.lockup_refused g wl fnd t0 evs who x m). Qed.
Print Assumptions C113_lockup_calls.

Theorem C113_lockup_same_history g wl fnd t0 evs : town_starts g wl fnd t0 ->
  t_world (tracked g t0 evs) = final g (t_world t0) evs /\
  creations (notes g t0 evs) = logged_creations (log g (t_world t0) evs) /\
  payments (notes g t0 evs) = refunded (log g (t_world t0) evs) /\
  calls_made (notes g t0 evs) = incoming_calls evs /\
  t_next (tracked g t0 evs) = List.length (incoming_calls evs).
Proof. exact (LockupStoriesProofs.lockup_same_history g wl fnd t0 evs). Qed.
Print Assumptions C113_lockup_same_history.
End Lockup.

Section Multisig.
Import MultisigFactoryModel MultisigFactorySpec MultisigStories.

(** Alice's multisig is created; bob asks for three confirmations of two members, and the deposit stays with the
    factory; eve attaches too little gas; carol's call is under way. *)
Definition m0 : town := mkTown (mkWorld (near 50) [] []) [] 0.
Definition two : list member := [Multisig2Model.AccessKey "key1"; Multisig2Model.Account "dave"].
Definition mevs : list event :=
  [ECreateCall "alice" (near 5) (100 * 10 ^ 12) "a" two 2; ECreateCall "bob" (near 6) (100 * 10 ^ 12) "b" two 3;
   ECreateCall "eve" (near 8) (49 * 10 ^ 12) "e" two 1; ECreateCall "carol" (near 7) (100 * 10 ^ 12) "c" two 1;
   ECreate 1 true; ECreate 0 true].

Example multisig_demo :
  town_starts m0 /\
  let l := notes "ms.near" m0 mevs in
  story 0 l = [NCalled 0 "alice" (near 5) ("a", two, 2); NCreated 0 "a.ms.near" (near 5); NAnswer 0 SNothing] /\
  story 1 l = [NCalled 1 "bob" (near 6) ("b", two, 3); NSent 1 "ms.near" (near 6); NAnswer 1 SFailed] /\
  story 2 l = [NCalled 2 "eve" (near 8) ("e", two, 1); NAnswer 2 SFailed] /\
  story 3 l = [NCalled 3 "carol" (near 7) ("c", two, 1)] /\
  serving_call 3 (tracked "ms.near" m0 mevs) = 1%nat.
Proof. vm_compute. repeat split. Qed.

(** C113, the multisig factory: every call either has its answer and nothing in flight serves it, or it has none
    and exactly one creation in flight serves it. The call succeeds exactly if the multisig was created with the
    whole deposit. If it fails after having been accepted, the deposit is the factory's (see C68). *)
Theorem C113_multisig_stories self t evs k :
  town_starts t -> (k < t_next (tracked self t evs))%nat ->
  let s := story k (notes self t evs) in
  (serving_call k (tracked self t evs) = 0%nat /\ (refused k s \/ lost self k s \/ built self k s)) \/
  (serving_call k (tracked self t evs) = 1%nat /\ under_way k s).
Proof. exact (MultisigStoriesProofs.multisig_stories self t evs k). Qed.
Print Assumptions C113_multisig_stories.

Theorem C113_multisig_calls self t0 evs who x gas name ms n : town_starts t0 ->
  let t := tracked self t0 evs in
  let t' := fst (track self t (ECreateCall who x gas name ms n)) in
  let l := snd (track self t (ECreateCall who x gas name ms n)) in
  if is_valid_account_id (name ++ "." ++ self) && (CREATE_CALL_GAS <=? gas)
  then l = [NCalled (t_next t) who x (name, ms, n)] /\ serving_call (t_next t) t' = 1%nat
  else l = [NCalled (t_next t) who x (name, ms, n); NAnswer (t_next t) SFailed] /\ t_world t' = t_world t.
Proof. exact (MultisigStoriesProofs.multisig_refused self t0 evs who x gas name ms n). Qed.
Print Assumptions C113_multisig_calls.

Theorem C113_multisig_same_history self t0 evs : town_starts t0 ->
  t_world (tracked self t0 evs) = final self (t_world t0) evs /\
  creations (notes self t0 evs) = logged_creations (log self (t_world t0) evs) /\
  payments (notes self t0 evs) = logged_payments (log self (t_world t0) evs) /\
  calls_made (notes self t0 evs) = incoming_calls evs /\
  t_next (tracked self t0 evs) = List.length (incoming_calls evs).
Proof. exact (MultisigStoriesProofs.multisig_same_history self t0 evs). Qed.
Print Assumptions C113_multisig_same_history.
End Multisig.
