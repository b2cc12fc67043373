(** A lockup whose owner is an account guarded by a multisig: both contracts together. Specification: the account is
    that of MultisigAccount or Multisig2Account, the lockup that of LockupWorld; what the account sends to the lockup
    account is executed there when it is delivered. *)
From Coq Require Import NArith List Bool String.
From Verif Require Import Prelude LockupModel LockupWorld.
From Verif Require MultisigModel MultisigSpec MultisigAccount Multisig2Model Multisig2Spec Multisig2Account.
Import ListNotations.
Open Scope N_scope.

(** An action of a batch as the lockup account meets it: others may send it tokens and call it, nothing else. *)
Inductive act := APay (x : N) | ACall (method args : string) (deposit : N) | AOther.

Section Pair.
Context {A H P : Type}.
(** What happens at the owner's account, with what leaves it; what of that is for the lockup; how the lockup reads a
    method and its arguments: as nonsense, as one of the methods that only look, as one of the others. *)
Variable happens : A -> H -> A * list P.
Variable for_lockup : P -> option (list act).
Variable read : string -> string -> option (option call).
Variable g : genesis.
Variable owner : account_id.

Record pair := mkPair { j_account : A; j_lockup : world }.

(** A batch is executed entirely or not at all. *)
Fixpoint serve (acts : list act) (w : world) : option (world * list obs) :=
  match acts with
  | [] => Some (w, [])
  | APay x :: r => serve r (step g w (EIncome x))
  | ACall name args deposit :: r =>
      match read name args with
      | None => None
      | Some None => serve r w
      | Some (Some m) =>
          match run g w owner deposit [] m with
          | (Some w', l) =>
              match serve r w' with
              | Some (w'', l') => Some (w'', BCalled owner m true :: l ++ l')%list
              | None => None
              end
          | (None, _) => None
          end
      end
  | AOther :: _ => None
  end.
Definition receive (w : world) (p : P) : world * list obs :=
  match for_lockup p with
  | Some acts => match serve acts w with Some r => r | None => (w, []) end
  | None => (w, [])
  end.
Fixpoint receive_all (w : world) (ps : list P) : world * list obs :=
  match ps with
  | [] => (w, [])
  | p :: r => (fst (receive_all (fst (receive w p)) r), snd (receive w p) ++ snd (receive_all (fst (receive w p)) r))%list
  end.

(** Something happens at the owner's account, or at the lockup; there the owner acts only through its account. *)
Inductive jevent := JAccount (h : H) | JLockup (ev : event).
Definition by_owner (ev : event) : bool := match ev with ECall who _ _ => String.eqb who owner | _ => false end.
Definition jstep_obs (j : pair) (ev : jevent) : pair * list obs :=
  match ev with
  | JAccount h =>
      let w := receive_all (j_lockup j) (snd (happens (j_account j) h)) in
      (mkPair (fst (happens (j_account j) h)) (fst w), snd w)
  | JLockup ev =>
      if by_owner ev then (j, [])
      else (mkPair (j_account j) (step g (j_lockup j) ev), snd (step_obs g (j_lockup j) ev))
  end.
Definition jstep (j : pair) (ev : jevent) : pair := fst (jstep_obs j ev).
Fixpoint jfinal (j : pair) (evs : list jevent) : pair :=
  match evs with [] => j | ev :: r => jfinal (jstep j ev) r end.
(** Everything observed at the lockup, oldest first. *)
Fixpoint jlog (j : pair) (evs : list jevent) : list obs :=
  match evs with [] => [] | ev :: r => snd (jstep_obs j ev) ++ jlog (jstep j ev) r end%list.
(** What happened at the owner's account. *)
Definition account_part (evs : list jevent) : list H :=
  flat_map (fun ev => match ev with JAccount h => [h] | JLockup _ => [] end) evs.

(** The calls of the lockup that a batch asks for. *)
Definition asks (p : P) : list call :=
  match for_lockup p with
  | Some acts => flat_map (fun a => match a with
                                    | ACall name args _ => match read name args with Some (Some m) => [m] | _ => [] end
                                    | _ => []
                                    end) acts
  | None => []
  end.
End Pair.
Arguments mkPair {A} _ _.
Arguments JAccount {H} _.
Arguments JLockup {H} _.

(** The owner's accepted calls. *)
Definition owner_calls (owner : account_id) (l : list obs) : list call :=
  flat_map (fun o => match o with BCalled who m true => if String.eqb who owner then [m] else [] | _ => [] end) l.

(** How often [x] was paid to [to] out of the lockup, not counting what the termination of a vesting pays; how often
    such a payment is among these calls. *)
Definition payouts (to : account_id) (x : N) (l : list obs) : nat :=
  List.length (filter (fun o => match o with BPaid t a false => String.eqb t to && (a =? x) | _ => false end) l).
Definition orders (to : account_id) (x : N) (l : list call) : nat :=
  List.length (filter (fun m => match m with Transfer a t => String.eqb t to && (a =? x) | _ => false end) l).

(** Some elements of a list, in its order. *)
Inductive some_of {A} : list A -> list A -> Prop :=
| some_nil : some_of [] []
| some_take x l l' : some_of l l' -> some_of (x :: l) (x :: l')
| some_skip x l l' : some_of l l' -> some_of l (x :: l').

(** * The first multisig *)
Definition act1 (b : MultisigModel.batch_action) : act :=
  match b with
  | MultisigModel.BTransfer x => APay x
  | MultisigModel.BFunctionCall name args deposit _ => ACall name args deposit
  | _ => AOther
  end.
Definition for_lockup1 (lockup : account_id) (p : MultisigModel.promise) : option (list act) :=
  if String.eqb (MultisigModel.p_receiver p) lockup then Some (map act1 (MultisigModel.p_actions p)) else None.

(** [p] is what a request asked for that as many different keys as required had confirmed; each of them was on the
    account from the start or was added to it by a request executed before. *)
Definition by_quorum1 (self : account_id) (s0 : MultisigModel.contract) (ks : umap public_key MultisigAccount.access)
    (calls : list MultisigSpec.event) (p : MultisigModel.promise) : Prop :=
  exists evs1 ev evs2 id l1 e0 l2 r,
    calls = (evs1 ++ ev :: evs2)%list /\
    MultisigSpec.confirmed (ev, MultisigSpec.outcome self (MultisigSpec.final self s0 evs1) ev) = Some (id, Some p) /\
    MultisigSpec.log self s0 (evs1 ++ [ev]) = (l1 ++ e0 :: l2)%list /\
    MultisigSpec.added e0 = Some (id, r) /\ p = MultisigSpec.asked r /\
    NoDup (MultisigSpec.confirmers (e0 :: l2) id) /\
    MultisigModel.get_num_confirmations (MultisigSpec.final self s0 evs1) <=
      N.of_nat (List.length (MultisigSpec.confirmers (e0 :: l2) id)) /\
    forall pk, In pk (MultisigSpec.confirmers (e0 :: l2) id) ->
      In pk (mkeys ks) \/ In pk (MultisigAccount.added_keys self (MultisigAccount.executions self s0 evs1)).

(** * The second multisig *)
Definition act2 (b : Multisig2Model.batch_action) : act :=
  match b with
  | Multisig2Model.BTransfer x => APay x
  | Multisig2Model.BFunctionCall name args deposit _ => ACall name args deposit
  | _ => AOther
  end.
Definition for_lockup2 (lockup : account_id) (p : Multisig2Model.promise) : option (list act) :=
  if String.eqb (Multisig2Model.p_receiver p) lockup then Some (map act2 (Multisig2Model.p_actions p)) else None.

(** [p] is what a request asked for that as many different members as required had confirmed, all of them members at
    that time. *)
Definition by_quorum2 (self : account_id) (s0 : Multisig2Model.contract) (calls : list Multisig2Spec.event)
    (p : Multisig2Model.promise) : Prop :=
  exists evs1 ev evs2 id l1 e0 l2 r,
    calls = (evs1 ++ ev :: evs2)%list /\
    Multisig2Spec.confirmed (Multisig2Spec.entry_of self (Multisig2Spec.final self s0 evs1) ev) = Some (id, Some p) /\
    Multisig2Spec.log self s0 (evs1 ++ [ev]) = (l1 ++ e0 :: l2)%list /\
    Multisig2Spec.added e0 = Some (id, r) /\ p = Multisig2Spec.asked self r /\
    NoDup (Multisig2Spec.confirmers (e0 :: l2) id) /\
    Multisig2Model.get_num_confirmations (Multisig2Spec.final self s0 evs1) <=
      N.of_nat (List.length (Multisig2Spec.confirmers (e0 :: l2) id)) /\
    forall e, In e (e0 :: l2) -> Multisig2Spec.confirmed e <> None -> In (Multisig2Spec.l_caller e) (Multisig2Spec.l_members e).
