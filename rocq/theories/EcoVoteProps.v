(** Who can have the transfers of a lockup enabled, and who can prevent it, in a deployment of the repository's own
    contracts (C120). *)
From Coq Require Import NArith List Bool String.
From Verif Require Import Prelude LockupModel LockupWorld LockupSpec LockupPoolSpec LockupProps LockupPoolLiveProps
  EcoSpec EcoProofs EcoFacts EcoVote EcoProps.
From Verif Require VotingProps VotingPowerProps VotingPowerProofs.
Import ListNotations.
Open Scope string_scope.
Open Scope N_scope.

(** C120. Let, within one epoch, every member of a group with more than two thirds of the stake vote yes and none of
    them take it back; and let the owner of the lockup ask for the result afterwards, while no termination is in
    progress. Whatever else happens before, between and after, in whatever order messages arrive: when neither the
    question nor an answer to it is in flight any more, transfers are enabled, with the result as their timestamp. *)
Theorem C120_two_thirds_enable_transfers :
  forall d e evs evs1 evs2 (group : account_id -> bool), estarts d e ->
  let e1 := efinal d e evs in
  let e2 := efinal d e (evs ++ evs1) in
  let owner := owner_account_id (w_lockup (ec_lockup e2)) in
  let all := ((evs ++ evs1) ++ ELockup (ECall owner 0 CheckTransfersVote) :: evs2)%list in
  let e3 := efinal d e all in
  Forall typed all -> all_within_limits d e all ->
  transfers_information (lockup_information (w_lockup (ec_lockup e))) = TransfersDisabled (d_voting d) ->
  ((forall n vs, ~ In (EVoting (VS.EvEpoch n vs)) evs1) /\
   2 * VS.total_stake (ec_voting e1) < 3 * VS.stake_for (ec_voting e1) group /\
   (forall a, group a = true -> exists ts, In (EVoting (VS.EvCall a 0 ts (VM.Vote true))) evs1) /\
   (forall a att ts, group a = true -> ~ In (EVoting (VS.EvCall a att ts (VM.Vote false))) evs1)) ->
  owner <> g_self (d_lockup d) -> get_termination_status (w_lockup (ec_lockup e2)) = None ->
  (forall m, In m (w_msgs (ec_lockup e3)) ->
     match m with MCall (RGetResult _) _ | MBack OnGetResultFromTransferPoll _ => true | _ => false end = false) ->
  exists t, VM.get_result (VS.w_contract (ec_voting e2)) = Some t /\
    transfers_information (lockup_information (w_lockup (ec_lockup e3))) = TransfersEnabled t.
Proof. exact two_thirds_enable. Qed.
Print Assumptions C120_two_thirds_enable_transfers.
(** alice and carol hold 75 of 100; others vote, take it back, and call ping with a deposit. The owner has selected a
    pool and stakes with it while the question is in flight. *)
Definition ballot : list eevent := map EVoting VotingPowerProps.disturbed.
Definition answered : list eevent :=
  [lock (DepositAndStake (90 * near)); EVotingServes 0; EPoolServes pool 0 0; ELockup (ERun 0)].
Definition asked_for : list eevent := ((opening ++ ballot) ++ lock CheckTransfersVote :: answered)%list.
Example C120_two_thirds_applies :
  let e1 := efinal dep eco0 opening in
  let e3 := efinal dep eco0 asked_for in
  Forall typed asked_for /\ all_within_limits dep eco0 asked_for /\
  transfers_information (lockup_information (w_lockup (ec_lockup eco0))) = TransfersDisabled (d_voting dep) /\
  (forall n vs, ~ In (EVoting (VS.EvEpoch n vs)) ballot) /\
  2 * VS.total_stake (ec_voting e1) < 3 * VS.stake_for (ec_voting e1) VotingPowerProps.group /\
  (forall a, VotingPowerProps.group a = true -> exists ts, In (EVoting (VS.EvCall a 0 ts (VM.Vote true))) ballot) /\
  (forall a att ts, VotingPowerProps.group a = true -> ~ In (EVoting (VS.EvCall a att ts (VM.Vote false))) ballot) /\
  get_termination_status (w_lockup (ec_lockup (efinal dep eco0 (opening ++ ballot)))) = None /\
  List.length (w_msgs (ec_lockup e3)) = 1%nat /\
  (forall m, In m (w_msgs (ec_lockup e3)) ->
     match m with MCall (RGetResult _) _ | MBack OnGetResultFromTransferPoll _ => true | _ => false end = false) /\
  transfers_information (lockup_information (w_lockup (ec_lockup e3))) = TransfersEnabled 7.
Proof.
  cbv zeta. destruct VotingPowerProps.C117_two_thirds_applies as (A & B & C & D & _).
  split; [repeat constructor; cbn; try (intuition congruence); reflexivity|].
  split; [apply limits_check; [reflexivity|]; vm_compute; reflexivity|].
  split; [reflexivity|].
  split; [intros n vs I; apply in_map_iff in I; destruct I as (x & [= ->] & I); exact (A _ _ I)|].
  split; [vm_compute; reflexivity|].
  split; [intros a G; destruct (C a G) as (ts & I); exists ts; now apply (in_map EVoting)|].
  split; [intros a att ts G I; apply in_map_iff in I; destruct I as (x & [= ->] & I); exact (D _ _ _ G I)|].
  split; [vm_compute; reflexivity|]. split; [vm_compute; reflexivity|]. split; [|vm_compute; reflexivity].
  intros m I. vm_compute in I. destruct I as [<-|[]]. reflexivity.
Qed.

(** Nobody else is needed: as soon as there is a result, in any state, the owner's question, its answer and the
    callback enable transfers, and change nothing else on the account. *)
Theorem C120_owner_can_enable_transfers :
  forall d e t,
  transfers_information (lockup_information (w_lockup (ec_lockup e))) = TransfersDisabled (d_voting d) ->
  VM.get_result (VS.w_contract (ec_voting e)) = Some t ->
  get_termination_status (w_lockup (ec_lockup e)) = None ->
  let owner := owner_account_id (w_lockup (ec_lockup e)) in
  owner <> g_self (d_lockup d) ->
  exists n, let e2 := efinal d e [ELockup (ECall owner 0 CheckTransfersVote); EVotingServes n; ELockup (ERun n)] in
    transfers_information (lockup_information (w_lockup (ec_lockup e2))) = TransfersEnabled t /\
    w_balance (ec_lockup e2) = w_balance (ec_lockup e) /\ w_msgs (ec_lockup e2) = w_msgs (ec_lockup e).
Proof. exact owner_enables. Qed.
Print Assumptions C120_owner_can_enable_transfers.
(** In the middle of an operation with the pool. *)
Example C120_owner_applies :
  let e := efinal dep eco0 (opening ++ ballot ++ [lock (DepositAndStake (90 * near))])%list in
  transfers_information (lockup_information (w_lockup (ec_lockup e))) = TransfersDisabled "vote.near" /\
  VM.get_result (VS.w_contract (ec_voting e)) = Some 7 /\ get_termination_status (w_lockup (ec_lockup e)) = None /\
  owner_account_id (w_lockup (ec_lockup e)) = "owner.near" /\ busy (w_lockup (ec_lockup e)) = true.
Proof. vm_compute. auto. Qed.

(** If a group that never votes yes holds, at every moment, at least a third of the stake, transfers stay disabled,
    whatever anybody does. *)
Theorem C120_a_third_prevents_transfers :
  forall d e evs (group : account_id -> bool),
  estarts d e -> Forall typed evs -> all_within_limits d e evs ->
  transfers_information (lockup_information (w_lockup (ec_lockup e))) = TransfersDisabled (d_voting d) ->
  (forall who att ts, In (EVoting (VS.EvCall who att ts (VM.Vote true))) evs -> group who = false) ->
  (forall a b, evs = (a ++ b)%list ->
     VS.total_stake (ec_voting (efinal d e a)) <= 3 * VS.stake_for (ec_voting (efinal d e a)) group) ->
  transfers_information (lockup_information (w_lockup (ec_lockup (efinal d e evs)))) = TransfersDisabled (d_voting d).
Proof. exact a_third_prevents. Qed.
Print Assumptions C120_a_third_prevents_transfers.
(** carol holds 35 of 100; everybody else votes yes, and the owner asks. *)
Definition without_carol : list eevent :=
  (opening ++ map EVoting VotingPowerProps.all_but_carol ++ [lock CheckTransfersVote; EVotingServes 0; run0])%list.
Example C120_a_third_applies :
  Forall typed without_carol /\ all_within_limits dep eco0 without_carol /\
  (forall who att ts, In (EVoting (VS.EvCall who att ts (VM.Vote true))) without_carol -> String.eqb who "carol" = false) /\
  (forall a b, without_carol = (a ++ b)%list ->
     VS.total_stake (ec_voting (efinal dep eco0 a)) <=
     3 * VS.stake_for (ec_voting (efinal dep eco0 a)) (fun x => String.eqb x "carol")) /\
  In (BAnswered (RGetResult "vote.near") (APollResult None)) (elog dep eco0 without_carol).
Proof.
  destruct VotingPowerProps.C117_a_third_applies as (A & B & _).
  split; [repeat constructor; cbn; try (intuition congruence); reflexivity|].
  split; [apply limits_check; [reflexivity|]; vm_compute; reflexivity|].
  split; [|split; [|vm_compute; auto 20]].
  - intros who att ts I. apply in_voting_history in I. exact (A _ _ _ I).
  - intros a b E. rewrite voting_sees. apply (B (voting_history a) (voting_history b)).
    rewrite <- voting_history_app, <- E. reflexivity.
Qed.
