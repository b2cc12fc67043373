(** One lockup contract and the contracts of this repository it depends on, together: the whitelist, the voting
    contract, the staking pool factory and the staking pools that the factory has created. Each contract is used
    through its own specification; messages between them are delivered one at a time, in any order.

    Not decided here, and so arbitrary: what other accounts call, when validators change, which rewards arrive, how
    receivers of plain transfers behave, and how a staking pool behaves that does not come from the factory (except
    that it pays no rewards by itself). A view of the whitelist or of the voting contract does not run out of gas. Every pool
    counts its own epochs. *)
From Coq Require Import NArith List Bool String.
From Verif Require Import Prelude LockupModel LockupWorld LockupSpec LockupPoolSpec.
From Verif Require WhitelistModel WhitelistSpec VotingModel VotingSpec PoolFactoryModel PoolFactorySpec StakingPoolModel
  StakingPoolSpec.
Import ListNotations.
Open Scope N_scope.

Module WM := WhitelistModel.
Module WS := WhitelistSpec.
Module VM := VotingModel.
Module VS := VotingSpec.
Module FM := PoolFactoryModel.
Module FS := PoolFactorySpec.
Module SM := StakingPoolModel.
Module SS := StakingPoolSpec.

(** The accounts of the contracts. *)
Record deployment := mkDeployment {
  d_lockup : genesis;
  d_whitelist : account_id;
  d_voting : account_id;
  d_factory : account_id
}.

(** A pool: its state right after its creation and everything that happened to it since. *)
Record life := mkLife { l_born : SS.world; l_past : list SS.event }.
Definition now (p : account_id) (l : life) : SS.world := SS.final p (l_born l) (l_past l).

Record eco := mkEco {
  ec_lockup : world;
  ec_whitelist : WM.contract;
  ec_voting : VS.world;
  ec_factory : FS.world;
  ec_adds : list account_id;               (** requests of the factory to the whitelist in flight *)
  ec_pools : account_id -> option life     (** the pools that the factory has created *)
}.

Inductive eevent :=
| ELockup (ev : event)                                          (** an event that the other contracts do not decide *)
| EWhitelistServes (n : nat)                                    (** the whitelist answers the lockup's request [n] *)
| EVotingServes (n : nat)                                       (** the voting contract does *)
| EPoolServes (p : account_id) (n : nat) (locked : N)           (** the pool [p] executes it *)
| EPool (p : account_id) (ev : SS.event)                        (** rewards, epochs, other customers of the pool [p] *)
| EWhitelist (who : account_id) (attached : N) (m : WM.call)    (** somebody calls the whitelist *)
| EAdd (n : nat)                                                (** the whitelist executes the factory's request [n] *)
| EVoting (ev : VS.event)
| EFactory (ev : FS.event).

(** * One event *)
Definition set_lockup (e : eco) (w : world) : eco :=
  mkEco w (ec_whitelist e) (ec_voting e) (ec_factory e) (ec_adds e) (ec_pools e).
Definition set_whitelist (e : eco) (s : WM.contract) (adds : list account_id) : eco :=
  mkEco (ec_lockup e) s (ec_voting e) (ec_factory e) adds (ec_pools e).
Definition set_life (f : account_id -> option life) (p : account_id) (l : life) : account_id -> option life :=
  fun q => if String.eqb q p then Some l else f q.

(** The lockup's request number [n], if there is one. *)
Definition asked (e : eco) (n : nat) : option remote :=
  match nth_error (w_msgs (ec_lockup e)) n with Some (MCall r _) => Some r | _ => None end.
(** What the contracts here answer to a request. *)
Definition answer_of (d : deployment) (e : eco) (r : remote) : option outcome :=
  match r with
  | RIsWhitelisted wl p =>
      if String.eqb wl (d_whitelist d)
      then Some match WM.is_whitelisted (ec_whitelist e) p with Ok b => OBool b | Panic _ => OFail end
      else None
  | RGetResult v =>
      if String.eqb v (d_voting d) then Some (OPoll (VM.get_result (VS.w_contract (ec_voting e)))) else None
  | _ => None
  end.

(** Events of the lockup's world that are decided here: answers of these contracts, and that a request to an account
    that does not exist fails. *)
Definition decided_here (d : deployment) (e : eco) (ev : event) : bool :=
  match ev with
  | EGrowth _ _ _ => true
  | EDeliver n o =>
      match asked e n with
      | Some (RPool p _) =>
          match ec_pools e p, o with
          | Some _, _ => true
          | None, OFail => false
          | None, _ => negb (smem p (FS.w_accounts (ec_factory e)))
          end
      | Some r => match answer_of d e r with Some _ => true | None => false end
      | None => false
      end
  | _ => false
  end.

Definition lockup_step (d : deployment) (e : eco) (ev : event) : eco * list obs :=
  (set_lockup e (step (d_lockup d) (ec_lockup e) ev), snd (step_obs (d_lockup d) (ec_lockup e) ev)).
(** The contract at [who] answers request [n]. *)
Definition answers_it (d : deployment) (e : eco) (n : nat) (mine : remote -> bool) : eco * list obs :=
  match asked e n with
  | Some r => match mine r, answer_of d e r with
              | true, Some o => lockup_step d e (EDeliver n o)
              | _, _ => (e, [])
              end
  | None => (e, [])
  end.
Definition to_whitelist (r : remote) : bool := match r with RIsWhitelisted _ _ => true | _ => false end.
Definition to_voting (r : remote) : bool := match r with RGetResult _ => true | _ => false end.

(** The lockup with the pool [p], as in LockupPoolSpec. *)
Definition pool_step (d : deployment) (e : eco) (p : account_id) (ev : sevent) : eco * list obs :=
  match ec_pools e p with
  | None => (e, [])
  | Some l =>
      let sys := mkSystem (ec_lockup e) (now p l) in
      let past := match pool_event (d_lockup d) p sys ev with Some x => l_past l ++ [x] | None => l_past l end in
      let '(sys', o) := sstep_obs (d_lockup d) p sys ev in
      (mkEco (sy_lockup sys') (ec_whitelist e) (ec_voting e) (ec_factory e) (ec_adds e)
         (set_life (ec_pools e) p (mkLife (l_born l) past)), o)
  end%list.

(** The call that the whitelist sees. The factory calls it only by the requests in flight. *)
Definition whitelist_event (d : deployment) (e : eco) (ev : eevent) : option WS.event :=
  match ev with
  | EWhitelist who x m => if String.eqb who (d_factory d) then None else Some (WS.mkEvent who x m)
  | EAdd n => option_map (fun p => WS.mkEvent (d_factory d) 0 (WM.AddStakingPool p)) (nth_error (ec_adds e) n)
  | _ => None
  end.

(** The requests that the factory sends to the whitelist, and the pools it creates. *)
Definition adds_of (wl : account_id) (l : list FS.obs) : list account_id :=
  flat_map (fun o => match o with FS.BWhitelist w a => if String.eqb w wl then [a] else [] | _ => [] end) l.
Definition births (l : list FS.obs) (pools : account_id -> option life) : account_id -> option life :=
  fold_left (fun f o => match o with
                        | FS.BCreated _ a x p => set_life f a (mkLife (SS.mkWorld p x (SM.last_epoch_height p)) [])
                        | _ => f
                        end) l pools.

Definition estep_obs (d : deployment) (e : eco) (ev : eevent) : eco * list obs :=
  match ev with
  | ELockup le => if decided_here d e le then (e, []) else lockup_step d e le
  | EWhitelistServes n => answers_it d e n to_whitelist
  | EVotingServes n => answers_it d e n to_voting
  | EPoolServes p n locked => pool_step d e p (SServe n locked)
  | EPool p pe => pool_step d e p (SPool pe)
  | EWhitelist _ _ _ =>
      match whitelist_event d e ev with
      | Some x => (set_whitelist e (WS.step (ec_whitelist e) x) (ec_adds e), [])
      | None => (e, [])
      end
  | EAdd n =>
      match whitelist_event d e ev with
      | Some x => (set_whitelist e (WS.step (ec_whitelist e) x) (drop_nth n (ec_adds e)), [])
      | None => (e, [])
      end
  | EVoting ve =>
      (mkEco (ec_lockup e) (ec_whitelist e) (VS.step (ec_voting e) ve) (ec_factory e) (ec_adds e) (ec_pools e), [])
  | EFactory fe =>
      let '(fw, l) := FS.step_obs (d_factory d) (ec_factory e) fe in
      (mkEco (ec_lockup e) (ec_whitelist e) (ec_voting e) fw (ec_adds e ++ adds_of (d_whitelist d) l)
         (births l (ec_pools e)), [])
  end%list.

Definition estep d e ev : eco := fst (estep_obs d e ev).
Fixpoint efinal (d : deployment) (e : eco) (evs : list eevent) : eco :=
  match evs with [] => e | ev :: r => efinal d (estep d e ev) r end.
(** What an observer of the lockup sees. *)
Fixpoint elog (d : deployment) (e : eco) (evs : list eevent) : list obs :=
  match evs with [] => [] | ev :: r => snd (estep_obs d e ev) ++ elog d (estep d e ev) r end%list.

(** The histories of the voting contract and of the factory; the calls that the whitelist sees. *)
Definition voting_history (evs : list eevent) : list VS.event :=
  flat_map (fun ev => match ev with EVoting x => [x] | _ => [] end) evs.
Definition factory_history (evs : list eevent) : list FS.event :=
  flat_map (fun ev => match ev with EFactory x => [x] | _ => [] end) evs.
Fixpoint whitelist_history (d : deployment) (e : eco) (evs : list eevent) : list WS.event :=
  match evs with
  | [] => []
  | ev :: r => match whitelist_event d e ev with
               | Some x => x :: whitelist_history d (estep d e ev) r
               | None => whitelist_history d (estep d e ev) r
               end
  end.
(** The pools that the factory has created so far. *)
Definition created (d : deployment) (e : eco) (evs : list eevent) : list account_id :=
  FS.created_pools (FS.log (d_factory d) (ec_factory e) (factory_history evs)).

(** * The hypotheses of the theorems *)

(** All contracts right after their initialisation. The lockup and the factory were given the account of this
    whitelist; the lockup's account exists, and it owns nothing at any pool yet. *)
Record estarts (d : deployment) (e : eco) : Prop := mkEStarts {
  es_lockup : starts (d_lockup d) (ec_lockup e);
  es_wl : staking_pool_whitelist_account_id (w_lockup (ec_lockup e)) = d_whitelist d;
  es_nothing : forall p, w_pools (ec_lockup e) p = (0, 0);
  es_whitelist : exists foundation, WM.new false foundation = Ok (ec_whitelist e);
  es_voting : VS.initial (ec_voting e);
  es_factory : FS.starts (d_whitelist d) (ec_factory e);
  es_exists : smem (g_self (d_lockup d)) (FS.w_accounts (ec_factory e)) = true;
  es_adds : ec_adds e = [];
  es_pools : forall p, ec_pools e p = None
}.

(** The arguments fit their types, and validator sets are those of the protocol. *)
Definition typed (ev : eevent) : Prop :=
  match ev with
  | EVoting x => VS.event_ok x
  | EFactory (FS.ECall _ _ (FM.CreateStakingPool _ _ _ fee)) =>
      SM.numerator fee < U32_BOUND /\ SM.denominator fee < U32_BOUND
  | _ => True
  end.

(** The policy of the foundation: it lists no staking pool itself, and no factory but this one. *)
Definition by_policy (d : deployment) (foundation : account_id) (ev : eevent) : Prop :=
  match ev with
  | EWhitelist who _ m =>
      who = foundation ->
      match m with
      | WM.AddStakingPool _ => False
      | WM.AddFactory f => f = d_factory d
      | _ => True
      end
  | _ => True
  end.
Definition policy (d : deployment) (e : eco) (evs : list eevent) : Prop :=
  Forall (by_policy d (WM.foundation_account_id (ec_whitelist e))) evs.

(** At all times so far every pool was within its limits. *)
Definition all_within_limits (d : deployment) (e : eco) (evs : list eevent) : Prop :=
  forall n p l, ec_pools (efinal d e (firstn n evs)) p = Some l -> SS.within_limits p (l_born l) (l_past l).

(** A condition on the events of the lockup that the contracts here do not decide. *)
Fixpoint all_lockup (P : world -> event -> Prop) (d : deployment) (e : eco) (evs : list eevent) : Prop :=
  match evs with
  | [] => True
  | ev :: r => match ev with ELockup le => decided_here d e le = false -> P (ec_lockup e) le | _ => True end /\
               all_lockup P d (estep d e ev) r
  end.

(** What the pool that the lockup has selected reports for it. *)
Definition reported (d : deployment) (e : eco) (b : N) : Prop :=
  match get_staking_pool_account_id (w_lockup (ec_lockup e)) with
  | None => b = 0
  | Some p => exists l, ec_pools e p = Some l /\
                SM.get_account_total_balance (SS.w_pool (now p l)) (g_self (d_lockup d)) = Ok b
  end.

(** * Continuations in which only one account acts *)

(** The only events are calls of the given methods of the lockup by [who], deliveries of what is outstanding, and
    epochs of the pool [p]. Only requests to others than the contracts here are answered by [answers]. *)
Definition ealone (answers : world -> remote -> outcome) (lk : system -> N) (p who : account_id)
    (methods : call -> bool) (e : eco) (ev : eevent) : Prop :=
  match ev with
  | ELockup (ECall x 0 m) => x = who /\ methods m = true
  | ELockup (EDeliver n o) => exists r, asked e n = Some r /\ o = answers (ec_lockup e) r
  | ELockup (ERun _) => True
  | EWhitelistServes _ | EVotingServes _ => True
  | EPoolServes q _ locked => q = p /\ forall l, ec_pools e p = Some l -> locked = lk (mkSystem (ec_lockup e) (now p l))
  | EPool q (SS.EvEpoch _) => q = p
  | _ => False
  end.
Fixpoint all_ealone answers lk (d : deployment) (p who : account_id) (methods : call -> bool) (e : eco)
    (evs : list eevent) : Prop :=
  match evs with
  | [] => True
  | ev :: r => ealone answers lk p who methods e ev /\ all_ealone answers lk d p who methods (estep d e ev) r
  end.

(** The pool [p] does not belong to the lockup; it has room for two more stake and unstake calls and for four more
    epochs; all tokens fit in 128 bits. *)
Definition ready (d : deployment) (e : eco) (p : account_id) : Prop :=
  forall l, ec_pools e p = Some l ->
    SM.owner_id (SS.w_pool (now p l)) <> g_self (d_lockup d) /\
    SS.stake_calls (SS.history p (l_born l) (l_past l)) + 2 <= SM.STAKE_SHARE_PRICE_GUARANTEE_FUND /\
    wealth (mkSystem (ec_lockup e) (now p l)) < U128_BOUND /\
    SS.w_epoch (now p l) + SM.NUM_EPOCHS_TO_UNLOCK < U64_BOUND.
