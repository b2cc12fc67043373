(** Model of the multisig contract: multisig/src/lib.rs. Definitions only. Gas is not modelled;
    public keys, contract code and call arguments are opaque strings. Deserialisation of the arguments
    is not modelled: numbers in requests range over all of [N], a superset of what fits. *)
From Coq Require Import NArith List Bool String.
From Verif Require Import Prelude.
Import ListNotations.
Open Scope string_scope.
Open Scope N_scope.

(** multisig/src/lib.rs:11, 14 *)
Definition DEFAULT_ALLOWANCE : N := 0.
Definition REQUEST_COOLDOWN : N := 900000000000.

Notation request_id := N (only parsing).

(** multisig/src/lib.rs:19-25 *)
Record permission := mkPermission {
  allowance : option N;
  perm_receiver : account_id;
  method_names : list string
}.

(** multisig/src/lib.rs:28-60 *)
Inductive action :=
| Transfer (amount : N)
| CreateAccount
| DeployContract (code : string)
| AddKey (pk : public_key) (perm : option permission)
| DeleteKey (pk : public_key)
| FunctionCall (method_name args : string) (deposit gas : N)
| SetNumConfirmations (num_confirmations : N)
| SetActiveRequestsLimit (active_requests_limit : N).

(** multisig/src/lib.rs:63-68 *)
Record request := mkRequest { receiver_id : account_id; actions : list action }.

(** multisig/src/lib.rs:71-77 *)
Record signed_request := mkSigned {
  the_request : request;
  signer_pk : public_key;
  added_timestamp : N
}.

(** multisig/src/lib.rs:79-89 *)
Record contract := mkContract {
  num_confirmations : N;
  request_nonce : N;
  requests : umap request_id signed_request;
  confirmations : umap request_id (uset public_key);
  num_requests_pk : umap public_key N;
  active_requests_limit : N
}.

Record ctx := mkCtx {
  ctx_current : account_id;
  ctx_predecessor : account_id;
  ctx_signer_pk : public_key;
  ctx_attached : N;
  ctx_timestamp : N
}.

(** The actions of a batch receipt. *)
Inductive batch_action :=
| BTransfer (amount : N)
| BCreateAccount
| BDeployContract (code : string)
| BAddAccessKey (pk : public_key) (allowance : N) (receiver : account_id) (methods : string)
| BAddFullAccessKey (pk : public_key)
| BDeleteKey (pk : public_key)
| BFunctionCall (method_name args : string) (deposit gas : N).
(** A promise is a batch of actions for one receiver. *)
Record promise := mkPromise { p_receiver : account_id; p_actions : list batch_action }.

(** multisig/src/lib.rs:103-113 *)
Definition new (state_exists : bool) (k : N) : res contract :=
  assert! negb state_exists orelse "Already initialized" ;;
  Ok (mkContract k 0 [] [] [] 12).

Definition num_requests_of (s : contract) (pk : public_key) : N :=
  match mget pk (num_requests_pk s) with Some n => n | None => 0 end.

(** multisig/src/lib.rs:116-146 *)
Definition add_request (c : ctx) (s : contract) (r : request) : res (contract * request_id) :=
  assert! String.eqb (ctx_current c) (ctx_predecessor c)
    orelse "Predecessor account must much current account" ;;
  let! n := add32 (num_requests_of s (ctx_signer_pk c)) 1 in
  assert! n <=? active_requests_limit s
    orelse "Account has too many active requests. Confirm or delete some." ;;
  let id := request_nonce s in
  let! nonce := add32 id 1 in
  Ok (mkContract (num_confirmations s) nonce
        (minsert id (mkSigned r (ctx_signer_pk c) (ctx_timestamp c)) (requests s))
        (minsert id [] (confirmations s))
        (minsert (ctx_signer_pk c) n (num_requests_pk s))
        (active_requests_limit s),
      id).

(** multisig/src/lib.rs:293-310 *)
Definition assert_valid_request (c : ctx) (s : contract) (id : request_id) : res unit :=
  assert! String.eqb (ctx_current c) (ctx_predecessor c)
    orelse "Predecessor account must much current account" ;;
  assert! mmem id (requests s)
    orelse "No such request: either wrong number or already confirmed" ;;
  assert! mmem id (confirmations s)
    orelse "Internal error: confirmations mismatch requests" ;;
  Ok tt.

(** multisig/src/lib.rs:272-290 *)
Definition remove_request (s : contract) (id : request_id) : res (contract * request) :=
  let! rs := expect (mget id (requests s)) "Failed to remove existing element" in
  let pk := signer_pk rs in
  let n := num_requests_of s pk in
  let n := if 0 <? n then n - 1 else n in
  Ok (mkContract (num_confirmations s) (request_nonce s) (mremove id (requests s))
        (mremove id (confirmations s)) (minsert pk n (num_requests_pk s)) (active_requests_limit s),
      the_request rs).

(** multisig/src/lib.rs:312-318 *)
Definition assert_self_request (c : ctx) (receiver : account_id) : res unit :=
  require (String.eqb receiver (ctx_current c))
    "This method only works when receiver_id is equal to current_account_id".

(** multisig/src/lib.rs:320-323 *)
Definition assert_one_action_only (c : ctx) (receiver : account_id) (num_actions : nat) : res unit :=
  let! _ := assert_self_request c receiver in
  require (Nat.eqb num_actions 1) "This method should be a separate request".

(** multisig/src/lib.rs:198-215: drop every request of a key, their confirmations and its counter. *)
Definition drop_requests_of (s : contract) (pk : public_key) : contract :=
  let ids := map fst (filter (fun kr => String.eqb (signer_pk (snd kr)) pk) (requests s)) in
  mkContract (num_confirmations s) (request_nonce s)
    (fold_left (fun m id => mremove id m) ids (requests s))
    (fold_left (fun m id => mremove id m) ids (confirmations s))
    (mremove pk (num_requests_pk s)) (active_requests_limit s).

(** multisig/src/lib.rs:171-242: the loop of [execute_request]; [acc] holds the batch built so far. The
    two settings actions return [Value(true)] at once; the promise under construction is then dropped,
    which in near-sdk 2.0.0 schedules it with the actions it has (none). *)
Fixpoint execute_actions (c : ctx) (receiver : account_id) (num_actions : nat) (l : list action)
    (s : contract) (acc : list batch_action) : res (contract * list batch_action) :=
  match l with
  | [] => Ok (s, acc)
  | a :: rest =>
      let continue s b := execute_actions c receiver num_actions rest s (acc ++ [b])%list in
      match a with
      | Transfer amount => continue s (BTransfer amount)
      | CreateAccount => continue s BCreateAccount
      | DeployContract code => continue s (BDeployContract code)
      | AddKey pk perm =>
          let! _ := assert_self_request c receiver in
          match perm with
          | Some p => continue s (BAddAccessKey pk
                                    (match allowance p with Some x => x | None => DEFAULT_ALLOWANCE end)
                                    (perm_receiver p) (String.concat "," (method_names p)))
          | None => continue s (BAddFullAccessKey pk)
          end
      | DeleteKey pk =>
          let! _ := assert_self_request c receiver in
          continue (drop_requests_of s pk) (BDeleteKey pk)
      | FunctionCall m args deposit gas => continue s (BFunctionCall m args deposit gas)
      | SetNumConfirmations n =>
          let! _ := assert_one_action_only c receiver num_actions in
          Ok (mkContract n (request_nonce s) (requests s) (confirmations s) (num_requests_pk s)
                (active_requests_limit s), acc)
      | SetActiveRequestsLimit n =>
          let! _ := assert_one_action_only c receiver num_actions in
          Ok (mkContract (num_confirmations s) (request_nonce s) (requests s) (confirmations s)
                (num_requests_pk s) n, acc)
      end
  end.

(** multisig/src/lib.rs:167-244 *)
Definition execute_request (c : ctx) (s : contract) (r : request) : res (contract * promise) :=
  let! '(s, acts) := execute_actions c (receiver_id r) (List.length (actions r)) (actions r) s [] in
  Ok (s, mkPromise (receiver_id r) acts).

(** multisig/src/lib.rs:248-268. [None] stands for the plain answer [Value(true)] of a confirmation
    that was only recorded. *)
Definition confirm (c : ctx) (s : contract) (id : request_id) : res (contract * option promise) :=
  let! _ := assert_valid_request c s id in
  let! confs := expect (mget id (confirmations s)) "called `Option::unwrap()` on a `None` value" in
  assert! negb (smem (ctx_signer_pk c) confs)
    orelse "Already confirmed this request with this key" ;;
  let! n := add32 (slength confs mod U32_BOUND) 1 in
  if num_confirmations s <=? n then
    let! '(s, r) := remove_request s id in
    let! '(s, p) := execute_request c s r in
    Ok (s, Some p)
  else
    Ok (mkContract (num_confirmations s) (request_nonce s) (requests s)
          (minsert id (sinsert (ctx_signer_pk c) confs) (confirmations s))
          (num_requests_pk s) (active_requests_limit s), None).

(** multisig/src/lib.rs:149-153. The promise of [confirm] is dropped, which schedules it. *)
Definition add_request_and_confirm (c : ctx) (s : contract) (r : request)
    : res (contract * (request_id * option promise)) :=
  let! '(s, id) := add_request c s r in
  let! '(s, p) := confirm c s id in
  Ok (s, (id, p)).

(** multisig/src/lib.rs:156-165 *)
Definition delete_request (c : ctx) (s : contract) (id : request_id) : res (contract * request) :=
  let! _ := assert_valid_request c s id in
  let! rs := expect (mget id (requests s)) "No such request" in
  let! t := add64 (added_timestamp rs) REQUEST_COOLDOWN in
  assert! t <? ctx_timestamp c
    orelse "Request cannot be deleted immediately after creation." ;;
  remove_request s id.

Inductive call :=
| CAddRequest (r : request)
| CAddRequestAndConfirm (r : request)
| CDeleteRequest (id : request_id)
| CConfirm (id : request_id).

(** What a successful call returns, with the promise it schedules. *)
Inductive output :=
| OAdded (id : request_id)
| OAddedAndConfirmed (id : request_id) (p : option promise)
| ODeleted (r : request)
| OConfirmed (p : option promise).

(** The [#[near_bindgen]] entry points; none is [#[payable]]. *)
Definition exec (c : ctx) (s : contract) (m : call) : res (contract * output) :=
  assert! ctx_attached c =? 0 orelse "Method doesn't accept deposit" ;;
  match m with
  | CAddRequest r => let! '(s, id) := add_request c s r in Ok (s, OAdded id)
  | CAddRequestAndConfirm r =>
      let! '(s, (id, p)) := add_request_and_confirm c s r in Ok (s, OAddedAndConfirmed id p)
  | CDeleteRequest id => let! '(s, r) := delete_request c s id in Ok (s, ODeleted r)
  | CConfirm id => let! '(s, p) := confirm c s id in Ok (s, OConfirmed p)
  end.

(** multisig/src/lib.rs:327-354 *)
Definition get_request (s : contract) (id : request_id) : res request :=
  let! rs := expect (mget id (requests s)) "No such request" in Ok (the_request rs).
Definition get_num_requests_pk (s : contract) (pk : public_key) : N := num_requests_of s pk.
Definition list_request_ids (s : contract) : list request_id := mkeys (requests s).
Definition get_confirmations (s : contract) (id : request_id) : res (list public_key) :=
  expect (mget id (confirmations s)) "No such request".
Definition get_num_confirmations (s : contract) : N := num_confirmations s.
Definition get_request_nonce (s : contract) : N := request_nonce s.
