(** A contract governed by an account that a multisig guards: both together. Specification: the account is that of
    MultisigAccount or Multisig2Account, the contract any one whose calls are events of a world of its own; below, the
    staking pool and the whitelist. What the account sends is on its way until it is delivered, in whatever order. *)
From Coq Require Import NArith List Bool String.
From Verif Require Import Prelude OwnedLockup.
From Verif Require StakingPoolModel StakingPoolSpec WhitelistModel WhitelistSpec.
Import ListNotations.
Open Scope N_scope.

Section Governed.
Context {A H P W C E X : Type}.
(** What happens at the governing account, with what leaves it; what of that is for the contract; how the contract
    reads a method and its arguments: as nonsense, as one of the methods that only look, as one of the others. *)
Variable happens : A -> H -> A * list P.
Variable for_contract : P -> option (list act).
Variable read : string -> string -> option (option C).
(** The contract: its events and which of them are accepted; its events when tokens arrive; the event of the
    governing account calling it with a deposit, in whatever circumstances [X]; the calls of that account. *)
Variable step : W -> E -> W.
Variable accepted : W -> E -> bool.
Variable pays : N -> list E.
Variable calls : X -> N -> C -> E.
Variable said : E -> option C.

Record state := mkState { g_account : A; g_flying : list P; g_contract : W }.

Definition run (w : W) (es : list E) : W := fold_left step es w.

(** A batch is executed entirely or not at all. *)
Fixpoint serve (x : X) (acts : list act) (w : W) : option (list E) :=
  match acts with
  | [] => Some []
  | APay n :: r => option_map (app (pays n)) (serve x r (run w (pays n)))
  | ACall name args deposit :: r =>
      match read name args with
      | None => None
      | Some None => serve x r w
      | Some (Some m) =>
          if accepted w (calls x deposit m)
          then option_map (cons (calls x deposit m)) (serve x r (step w (calls x deposit m)))
          else None
      end
  | AOther :: _ => None
  end.
Definition arrive (x : X) (p : P) (w : W) : list E :=
  match for_contract p with
  | Some acts => match serve x acts w with Some es => es | None => [] end
  | None => []
  end.

(** Something happens at the governing account; something it sent is delivered; something else happens at the
    contract, where the governing account acts only through what it sends. *)
Inductive gevent := GAccount (h : H) | GDeliver (n : nat) (x : X) | GContract (e : E).
Fixpoint without {T} (n : nat) (l : list T) : list T :=
  match n, l with
  | _, [] => []
  | O, _ :: r => r
  | S n, x :: r => x :: without n r
  end.
(** The next state, and what happened at the contract. *)
Definition gstep (j : state) (ev : gevent) : state * list E :=
  match ev with
  | GAccount h => (mkState (fst (happens (g_account j) h)) (g_flying j ++ snd (happens (g_account j) h)) (g_contract j), [])
  | GDeliver n x =>
      match nth_error (g_flying j) n with
      | Some p => (mkState (g_account j) (without n (g_flying j)) (run (g_contract j) (arrive x p (g_contract j))),
                   arrive x p (g_contract j))
      | None => (j, [])
      end
  | GContract e =>
      match said e with
      | Some _ => (j, [])
      | None => (mkState (g_account j) (g_flying j) (step (g_contract j) e), [e])
      end
  end%list.
Fixpoint gfinal (j : state) (js : list gevent) : state :=
  match js with [] => j | ev :: r => gfinal (fst (gstep j ev)) r end.
(** Everything that happened at the contract, oldest first. *)
Fixpoint gevents (j : state) (js : list gevent) : list E :=
  match js with [] => [] | ev :: r => snd (gstep j ev) ++ gevents (fst (gstep j ev)) r end%list.
(** What happened at the governing account. *)
Definition at_account (js : list gevent) : list H :=
  flat_map (fun ev => match ev with GAccount h => [h] | _ => [] end) js.

(** The calls of the contract that a batch asks for. *)
Definition asking (p : P) : list C :=
  match for_contract p with
  | Some acts => flat_map (fun a => match a with
                                    | ACall name args _ => match read name args with Some (Some m) => [m] | _ => [] end
                                    | _ => []
                                    end) acts
  | None => []
  end.
End Governed.
Arguments mkState {A P W} _ _ _.
Arguments GAccount {H E X} _.
Arguments GDeliver {H E X} _ _.
Arguments GContract {H E X} _.

(** * The staking pool, governed by its owner. The circumstances of a call are how much of the balance is locked. *)
Section Pool.
Import StakingPoolModel StakingPoolSpec.
Variable pool owner : account_id.
Definition pool_step (w : world) (e : event) : world := fst (StakingPoolSpec.step pool w e).
Definition pool_accepted (w : world) (e : event) : bool :=
  match snd (StakingPoolSpec.step pool w e) with Some _ => true | None => false end.
Definition pool_pays (n : N) : list event := [EvIncome n].
Definition pool_calls (locked deposit : N) (m : call) : event := EvCall owner deposit locked [] m.
Definition pool_said (e : event) : option call :=
  match e with EvCall who _ _ _ m => if String.eqb who owner then Some m else None | _ => None end.
(** The accepted calls of the owner, in order. *)
Definition owners_calls (h : list entry) : list call :=
  flat_map (fun en => match en_event en, en_promises en with
                      | EvCall who _ _ _ m, Some _ => if String.eqb who owner then [m] else []
                      | _, _ => []
                      end) h.
(** In one entry of its history, the owner's decisions about the pool (its fee, its key, whether it stakes, its vote)
    change, and tokens go to the owner, only by calls that were asked for. *)
Definition steered (asked : call -> Prop) (en : entry) : Prop :=
  let p := w_pool (en_before en) in
  let p' := w_pool (en_after en) in
  owner_id p' = owner_id p /\
  (reward_fee_fraction p' = reward_fee_fraction p \/ asked (UpdateRewardFeeFraction (reward_fee_fraction p'))) /\
  (stake_public_key p' = stake_public_key p \/ asked (UpdateStakingKey (stake_public_key p'))) /\
  (paused p' = paused p \/ asked (if paused p' then PauseStaking else ResumeStaking)) /\
  forall ps, en_promises en = Some ps ->
    (forall v b, In (PVote v b) ps -> asked (Vote v b)) /\
    (sent_to owner ps = 0 \/ asked WithdrawAll \/ asked (Withdraw (sent_to owner ps))).
End Pool.

(** * The whitelist, governed by the foundation *)
Section Whitelist.
Import WhitelistModel WhitelistSpec.
Variable foundation : account_id.
Definition list_pays (n : N) : list event := [].
Definition list_calls (x : unit) (deposit : N) (m : call) : event := mkEvent foundation deposit m.
Definition list_said (e : event) : option call := if String.eqb (e_who e) foundation then Some (e_call e) else None.
(** A call leaves the lists as they are, or it was asked for, or it lists a pool and comes from a factory whose listing
    was asked for. *)
Definition steered_list (asked : call -> Prop) (s : contract) (e : event) : Prop :=
  step s e = s \/ (e_who e = foundation /\ asked (e_call e)) \/
  exists q, e_call e = AddStakingPool q /\ asked (AddFactory (e_who e)).
End Whitelist.
