(** The account that the second multisig contract guards: its access keys, the transactions they sign, and
    the receipts that leave it. Specification: the contract is used only through [exec] and [new]; the rest
    are the rules of the protocol for access keys and batches of actions (not in /repo). *)
From Coq Require Import NArith List Bool String Ascii Permutation.
From Verif Require Import Prelude Multisig2Model Multisig2Spec.
Import ListNotations.
Open Scope N_scope.

(** An access key may do everything, or call some methods (all of them if none is named) of one account,
    with no deposit. *)
Inductive access :=
| FullAccess
| CallAccess (receiver : account_id) (methods : list string).

Definition permits (a : access) (to : account_id) (acts : list batch_action) : bool :=
  match a, acts with
  | FullAccess, _ => true
  | CallAccess r ms, [BFunctionCall m _ deposit _] =>
      String.eqb to r && (deposit =? 0) &&
      match ms with [] => true | _ => existsb (String.eqb m) ms end
  | _, _ => false
  end.

(** The methods of a key are given as one comma-separated text, the empty one for all. *)
Definition methods_of (names : string) : list string :=
  if String.eqb names "" then [] else split_names names.

(** What the account sends: a batch for one receiver, and the key that signed the transaction behind it. *)
Record receipt := mkReceipt { rc_key : public_key; rc_batch : promise }.

(** The contract, the access keys of its account, what the account has sent and is not yet delivered, and
    the calls to the contract that succeeded so far. *)
Record world := mkWorld {
  w_contract : contract;
  w_keys : umap public_key access;
  w_flight : list receipt;
  w_calls : list event
}.

(** The promise that a successful call schedules. *)
Definition scheduled (o : output) : list promise :=
  match o with OAddedAndConfirmed _ (Some p) | OConfirmed (Some p) => [p] | _ => [] end.

Section Account.
Variable self : account_id.
(** How the arguments of a method are read. *)
Variable decode : string -> string -> option call.

Definition invoke (w : world) (ev : event) : option world :=
  match exec (ctx_of self ev) (w_contract w) (e_call ev) with
  | Ok (s, o) => Some (mkWorld s (w_keys w) (w_flight w ++ map (mkReceipt (e_key ev)) (scheduled o))
                         (w_calls w ++ [ev]))
  | Panic _ => None
  end.

Definition with_keys (w : world) (ks : umap public_key access) : world :=
  mkWorld (w_contract w) ks (w_flight w) (w_calls w).

(** A batch delivered to the account itself takes effect entirely or not at all. Keys are added when
    absent and deleted when present. Replacing the code of the contract is outside the model: such a batch
    is taken to fail, and the theorems exclude it. *)
Fixpoint apply (key : public_key) (t : N) (acts : list batch_action) (w : world) : option world :=
  match acts with
  | [] => Some w
  | a :: rest =>
      match a with
      | BTransfer _ => apply key t rest w
      | BCreateAccount | BDeployContract _ => None
      | BAddAccessKey pk _ r names =>
          if mmem pk (w_keys w) then None
          else apply key t rest (with_keys w (minsert pk (CallAccess r (methods_of names)) (w_keys w)))
      | BAddFullAccessKey pk =>
          if mmem pk (w_keys w) then None
          else apply key t rest (with_keys w (minsert pk FullAccess (w_keys w)))
      | BDeleteKey pk =>
          if mmem pk (w_keys w) then apply key t rest (with_keys w (mremove pk (w_keys w))) else None
      | BFunctionCall m args deposit _ =>
          match decode m args with
          | Some c => match invoke w (mkEvent self key deposit t c) with
                      | Some w' => apply key t rest w'
                      | None => None
                      end
          | None => None
          end
      end
  end.

(** What can happen: a transaction signed with a key of the account, the delivery of something in flight
    at a block time, a call by another account. *)
Inductive happening :=
| HTx (key : public_key) (to : account_id) (acts : list batch_action)
| HDeliver (i : nat) (t : N)
| HCall (pred : account_id) (key : public_key) (attached t : N) (m : call).

(** The world after it, and what leaves the account for another one. *)
Definition happen_obs (w : world) (h : happening) : world * list promise :=
  match h with
  | HTx key to acts =>
      match mget key (w_keys w) with
      | Some a =>
          if permits a to acts
          then (mkWorld (w_contract w) (w_keys w) (w_flight w ++ [mkReceipt key (mkPromise to acts)]) (w_calls w), [])
          else (w, [])
      | None => (w, [])
      end
  | HDeliver i t =>
      match nth_error (w_flight w) i with
      | Some rc =>
          let w := mkWorld (w_contract w) (w_keys w) (firstn i (w_flight w) ++ skipn (S i) (w_flight w)) (w_calls w) in
          if String.eqb (p_receiver (rc_batch rc)) self
          then (match apply (rc_key rc) t (p_actions (rc_batch rc)) w with Some w' => w' | None => w end, [])
          else (w, [rc_batch rc])
      | None => (w, [])
      end
  | HCall pred key attached t m =>
      if String.eqb pred self then (w, [])
      else (match invoke w (mkEvent pred key attached t m) with Some w' => w' | None => w end, [])
  end.
Definition happen (w : world) (h : happening) : world := fst (happen_obs w h).

Fixpoint run (w : world) (hs : list happening) : world :=
  match hs with [] => w | h :: r => run (happen w h) r end.
(** Everything that left the account for other accounts. *)
Fixpoint departures (w : world) (hs : list happening) : list promise :=
  match hs with [] => [] | h :: r => (snd (happen_obs w h) ++ departures (happen w h) r)%list end.
End Account.

(** The promises of the requests executed in a history of calls. *)
Definition executions (self : account_id) (s0 : contract) (evs : list event) : list promise :=
  flat_map (fun e => match confirmed e with Some (_, Some p) => [p] | _ => [] end) (log self s0 evs).

(** A batch that leaves the multisig in charge of its account: no code is deployed and every key that is
    added is limited to calling the multisig. *)
Definition keeps_guard (self : account_id) (acts : list batch_action) : Prop :=
  forall a, In a acts -> match a with
                         | BDeployContract _ | BAddFullAccessKey _ => False
                         | BAddAccessKey _ _ r _ => r = self
                         | _ => True
                         end.
(** A key that can only call the multisig. *)
Definition limited (self : account_id) (a : access) : Prop := exists ms, a = CallAccess self ms.

(** The multisig starts on an account with keys [ks]; the promise of [new] is in flight. *)
Definition start (s0 : contract) (p0 : promise) (ks : umap public_key access) (key : public_key) : world :=
  mkWorld s0 ks [mkReceipt key p0] [].

(** Who can act on the account: another account, or a key that may call the two methods needed. *)
Definition can_act (self : account_id) (w : world) (m : member) : Prop :=
  match m with
  | AccessKey pk => exists a, mget pk (w_keys w) = Some a /\
      forall args, permits a self [BFunctionCall "add_request" args 0 0] = true /\
                   permits a self [BFunctionCall "confirm" args 0 0] = true
  | Account a => a <> self
  end.
(** A happening at block time [t] that takes no more than these members, and deliveries. *)
Definition by_members (ms : list member) (t : N) (h : happening) : Prop :=
  match h with
  | HTx key _ _ => In (AccessKey key) ms
  | HCall pred _ _ t' _ => In (Account pred) ms /\ t' = t
  | HDeliver _ t' => t' = t
  end.
