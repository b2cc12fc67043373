(** Histories of calls to the multisig contract, and the log an outside observer could keep of them.
    Specification: the contract is used only through [exec], [new] and its views. *)
From Coq Require Import NArith List Bool String.
From Verif Require Import Prelude MultisigModel.
Import ListNotations.
Open Scope N_scope.

(** One call: the predecessor, the key that signed the transaction, the deposit, the block time. *)
Record event := mkEvent {
  e_pred : account_id;
  e_key : public_key;
  e_attached : N;
  e_time : N;
  e_call : call
}.

Definition ctx_of (self : account_id) (ev : event) : ctx :=
  mkCtx self (e_pred ev) (e_key ev) (e_attached ev) (e_time ev).

Definition outcome (self : account_id) (s : contract) (ev : event) : option output :=
  match exec (ctx_of self ev) s (e_call ev) with Ok (_, o) => Some o | Panic _ => None end.
Definition step (self : account_id) (s : contract) (ev : event) : contract :=
  match exec (ctx_of self ev) s (e_call ev) with Ok (s', _) => s' | Panic _ => s end.

Fixpoint final (self : account_id) (s : contract) (evs : list event) : contract :=
  match evs with [] => s | ev :: r => final self (step self s ev) r end.

(** The log: every call with what it answered ([None] when it failed). *)
Definition entry := (event * option output)%type.
Fixpoint log (self : account_id) (s : contract) (evs : list event) : list entry :=
  match evs with
  | [] => []
  | ev :: r => (ev, outcome self s ev) :: log self (step self s ev) r
  end.

(** A successful add: the request, and the id it was given. *)
Definition added (e : entry) : option (request_id * request) :=
  match e_call (fst e), snd e with
  | CAddRequest r, Some (OAdded id) => Some (id, r)
  | CAddRequestAndConfirm r, Some (OAddedAndConfirmed id _) => Some (id, r)
  | _, _ => None
  end.

(** A successful confirmation: the id, and the promise it scheduled if it executed the request. *)
Definition confirmed (e : entry) : option (request_id * option promise) :=
  match e_call (fst e), snd e with
  | CConfirm id, Some (OConfirmed p) => Some (id, p)
  | CAddRequestAndConfirm _, Some (OAddedAndConfirmed id p) => Some (id, p)
  | _, _ => None
  end.

(** A successful deletion. *)
Definition deleted (e : entry) : option request_id :=
  match e_call (fst e), snd e with
  | CDeleteRequest id, Some (ODeleted _) => Some id
  | _, _ => None
  end.

(** The keys that confirmed request [id], in the order of the log. *)
Definition confirmers (l : list entry) (id : request_id) : list public_key :=
  flat_map (fun e => match confirmed e with
                     | Some (id', _) => if id' =? id then [e_key (fst e)] else []
                     | None => []
                     end) l.

(** The key that created request [id]. *)
Fixpoint creator (l : list entry) (id : request_id) : option public_key :=
  match l with
  | [] => None
  | e :: r => match added e with
              | Some (id', _) => if id' =? id then Some (e_key (fst e)) else creator r id
              | None => creator r id
              end
  end.

(** The batch of actions a request asks for. The settings actions are no batch actions. *)
Definition batch_of (a : action) : list batch_action :=
  match a with
  | Transfer amount => [BTransfer amount]
  | CreateAccount => [BCreateAccount]
  | DeployContract code => [BDeployContract code]
  | AddKey pk (Some p) =>
      [BAddAccessKey pk (match allowance p with Some x => x | None => 0 end)
         (perm_receiver p) (String.concat "," (method_names p))]
  | AddKey pk None => [BAddFullAccessKey pk]
  | DeleteKey pk => [BDeleteKey pk]
  | FunctionCall m args deposit gas => [BFunctionCall m args deposit gas]
  | SetNumConfirmations _ | SetActiveRequestsLimit _ => []
  end.
Definition asked (r : request) : promise :=
  mkPromise (receiver_id r) (flat_map batch_of (actions r)).

(** Actions on the keys of an account, and settings of the multisig. *)
Definition key_action (a : action) : bool :=
  match a with AddKey _ _ | DeleteKey _ => true | _ => false end.
Definition setting_action (a : action) : bool :=
  match a with SetNumConfirmations _ | SetActiveRequestsLimit _ => true | _ => false end.

(** The ids handed out, in the order of the log. *)
Definition granted (l : list entry) : list request_id :=
  flat_map (fun e => match added e with Some (id, _) => [id] | None => [] end) l.
(** The ids of the requests that were executed or deleted by [delete_request], in the order of the log. *)
Definition finished (l : list entry) : list request_id :=
  flat_map (fun e => match confirmed e with
                     | Some (id, Some _) => [id]
                     | _ => match deleted e with Some id => [id] | None => [] end
                     end) l.

(** The panics that only a state with a request and no confirmation set could raise. *)
Definition internal_error (m : string) : Prop :=
  In m ["Internal error: confirmations mismatch requests"; "Failed to remove existing element";
        "called `Option::unwrap()` on a `None` value"]%string.

(** The keys that executed requests have deleted from the account. *)
Definition deleted_keys (self : account_id) (l : list entry) : list public_key :=
  flat_map (fun e => match confirmed e with
                     | Some (_, Some p) =>
                         if String.eqb (p_receiver p) self
                         then flat_map (fun b => match b with BDeleteKey pk => [pk] | _ => [] end) (p_actions p)
                         else []
                     | _ => []
                     end) l.

(** A request that can be executed: what concerns the keys or the settings of the account is addressed to
    the account itself, and a setting is changed by a request of its own. *)
Definition executable (self : account_id) (r : request) : Prop :=
  (existsb key_action (actions r) = true -> receiver_id r = self) /\
  (existsb setting_action (actions r) = true -> receiver_id r = self /\ List.length (actions r) = 1%nat).
