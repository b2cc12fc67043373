(** Histories of calls to the second multisig contract, and the log an outside observer could keep of them.
    Specification: the contract is used only through [exec], [new] and its views. *)
From Coq Require Import NArith List Bool String Ascii.
From Verif Require Import Prelude Multisig2Model.
Import ListNotations.
Open Scope N_scope.

(** One call: the predecessor, the key that signed the transaction, the deposit, the block time. *)
Record event := mkEvent {
  e_pred : account_id;
  e_key : public_key;
  e_attached : N;
  e_time : N;
  e_call : call
}.

Definition ctx_of (self : account_id) (ev : event) : ctx :=
  mkCtx self (e_pred ev) (e_key ev) (e_attached ev) (e_time ev).

Definition outcome (self : account_id) (s : contract) (ev : event) : option output :=
  match exec (ctx_of self ev) s (e_call ev) with Ok (_, o) => Some o | Panic _ => None end.
Definition step (self : account_id) (s : contract) (ev : event) : contract :=
  match exec (ctx_of self ev) s (e_call ev) with Ok (s', _) => s' | Panic _ => s end.

Fixpoint final (self : account_id) (s : contract) (evs : list event) : contract :=
  match evs with [] => s | ev :: r => final self (step self s ev) r end.

(** Who makes a call: the key that signed it if the account calls itself, or another account. *)
Definition caller (self : account_id) (ev : event) : member :=
  if String.eqb (e_pred ev) self then AccessKey (e_key ev) else Account (e_pred ev).

(** The log: every call, who made it, who the members were then, and what it answered ([None] when it
    failed). *)
Record entry := mkEntry {
  l_event : event;
  l_caller : member;
  l_members : list member;
  l_output : option output
}.
Definition entry_of (self : account_id) (s : contract) (ev : event) : entry :=
  mkEntry ev (caller self ev) (get_members s) (outcome self s ev).
Fixpoint log (self : account_id) (s : contract) (evs : list event) : list entry :=
  match evs with
  | [] => []
  | ev :: r => entry_of self s ev :: log self (step self s ev) r
  end.

(** A successful add: the request, and the id it was given. *)
Definition added (e : entry) : option (request_id * request) :=
  match e_call (l_event e), l_output e with
  | CAddRequest r, Some (OAdded id) => Some (id, r)
  | CAddRequestAndConfirm r, Some (OAddedAndConfirmed id _) => Some (id, r)
  | _, _ => None
  end.

(** A successful confirmation: the id, and the promise it scheduled if it executed the request. *)
Definition confirmed (e : entry) : option (request_id * option promise) :=
  match e_call (l_event e), l_output e with
  | CConfirm id, Some (OConfirmed p) => Some (id, p)
  | CAddRequestAndConfirm _, Some (OAddedAndConfirmed id p) => Some (id, p)
  | _, _ => None
  end.

(** A successful deletion. *)
Definition deleted (e : entry) : option request_id :=
  match e_call (l_event e), l_output e with
  | CDeleteRequest id, Some (ODeleted _) => Some id
  | _, _ => None
  end.

(** The members that confirmed request [id], in the order of the log. *)
Definition confirmers (l : list entry) (id : request_id) : list member :=
  flat_map (fun e => match confirmed e with
                     | Some (id', _) => if id' =? id then [l_caller e] else []
                     | None => []
                     end) l.

(** The member that created request [id]. *)
Fixpoint creator (l : list entry) (id : request_id) : option member :=
  match l with
  | [] => None
  | e :: r => match added e with
              | Some (id', _) => if id' =? id then Some (l_caller e) else creator r id
              | None => creator r id
              end
  end.

(** The batch of actions a request asks for. The settings actions are no batch actions. *)
Definition batch_of (self : account_id) (a : action) : list batch_action :=
  match a with
  | Transfer amount => [BTransfer amount]
  | CreateAccount => [BCreateAccount]
  | DeployContract code => [BDeployContract code]
  | AddKey pk (Some p) =>
      [BAddAccessKey pk (match allowance p with Some x => x | None => 0 end)
         (perm_receiver p) (String.concat "," (method_names p))]
  | AddKey pk None => [BAddFullAccessKey pk]
  | AddMember (AccessKey pk) => [BAddAccessKey pk 0 self MULTISIG_METHOD_NAMES]
  | DeleteMember (AccessKey pk) => [BDeleteKey pk]
  | AddMember (Account _) | DeleteMember (Account _) => []
  | FunctionCall m args deposit gas => [BFunctionCall m args deposit gas]
  | SetNumConfirmations _ | SetActiveRequestsLimit _ => []
  end.
Definition asked (self : account_id) (r : request) : promise :=
  mkPromise (receiver_id r) (flat_map (batch_of self) (actions r)).

(** Actions on the keys and members of an account, and settings of the multisig. *)
Definition key_action (a : action) : bool :=
  match a with AddKey _ _ | AddMember _ | DeleteMember _ => true | _ => false end.
Definition member_action (a : action) : bool :=
  match a with AddMember _ | DeleteMember _ => true | _ => false end.
Definition setting_action (a : action) : bool :=
  match a with SetNumConfirmations _ | SetActiveRequestsLimit _ => true | _ => false end.

(** The ids handed out, in the order of the log. *)
Definition granted (l : list entry) : list request_id :=
  flat_map (fun e => match added e with Some (id, _) => [id] | None => [] end) l.
(** The ids of the requests that were executed or deleted by [delete_request], in the order of the log. *)
Definition finished (l : list entry) : list request_id :=
  flat_map (fun e => match confirmed e with
                     | Some (id, Some _) => [id]
                     | _ => match deleted e with Some id => [id] | None => [] end
                     end) l.

(** The panics that only a state with a request and no confirmation set could raise. *)
Definition internal_error (m : string) : Prop :=
  In m ["Internal error: confirmations mismatch requests"; "Failed to remove existing element";
        "called `Option::unwrap()` on a `None` value"; "Must be validated above"]%string.

(** The members an executed request removes. *)
Definition removes (m : member) (r : request) : Prop := In (DeleteMember m) (actions r).

(** The names in a comma-separated list: how an access key lists the methods it may call. *)
Fixpoint split_names (s : string) : list string :=
  match s with
  | EmptyString => [""%string]
  | String c r =>
      if Ascii.eqb c ","%char then ""%string :: split_names r
      else match split_names r with [] => [String c ""] | w :: ws => String c w :: ws end
  end.

(** The members after a list of actions. *)
Definition member_effect (a : action) (ms : list member) : list member :=
  match a with
  | AddMember m => sinsert m ms
  | DeleteMember m => sremove m ms
  | _ => ms
  end.
Definition members_after (l : list action) (ms : list member) : list member :=
  fold_left (fun ms a => member_effect a ms) l ms.

(** A request that can be executed now: what concerns the keys, the members or the settings is addressed to
    the account itself, a setting is changed by a request of its own, and every member is removed while
    there are more members than confirmations required. *)
Definition executable (self : account_id) (s : contract) (r : request) : Prop :=
  (existsb key_action (actions r) = true -> receiver_id r = self) /\
  (existsb setting_action (actions r) = true -> receiver_id r = self /\ List.length (actions r) = 1%nat) /\
  (forall l1 m l2, actions r = (l1 ++ DeleteMember m :: l2)%list ->
     get_num_confirmations s < N.of_nat (List.length (members_after l1 (get_members s)))).
