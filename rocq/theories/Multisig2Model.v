(** Model of the second multisig contract: multisig2/src/lib.rs. Definitions only. Gas is not modelled;
    public keys, contract code and call arguments are opaque strings; deserialisation of the arguments is
    not modelled (numbers in requests range over all of [N], a superset of what fits). *)
From Coq Require Import NArith List Bool String Ascii.
From Verif Require Import Prelude Json.
Import ListNotations.
Open Scope string_scope.
Open Scope N_scope.

(** multisig2/src/lib.rs:14, 17, 20, 23 *)
Definition DEFAULT_ALLOWANCE : N := 0.
Definition REQUEST_COOLDOWN : N := 900000000000.
Definition ACTIVE_REQUESTS_LIMIT : N := 12.
Definition MULTISIG_METHOD_NAMES : string :=
  "add_request,delete_request,confirm,add_and_confirm_request".

Notation request_id := N (only parsing).

(** multisig2/src/lib.rs:97-100 *)
Inductive member :=
| AccessKey (pk : public_key)
| Account (a : account_id).

(** The derived [PartialEq] of multisig2/src/lib.rs:95, also the identity of the Borsh bytes under which
    [UnorderedSet] finds an element. *)
Definition member_eqb (a b : member) : bool :=
  match a, b with
  | AccessKey x, AccessKey y => String.eqb x y
  | Account x, Account y => String.eqb x y
  | _, _ => false
  end.
Lemma member_eqb_spec a b : reflect (a = b) (member_eqb a b).
Proof.
  destruct a as [x|x], b as [y|y]; cbn; try (constructor; discriminate);
    destruct (String.eqb_spec x y); constructor; congruence.
Qed.
#[global] Instance EqKey_member : EqKey member :=
  {| keqb := member_eqb; keqb_spec := member_eqb_spec |}.

(** multisig2/src/lib.rs:102-106: the JSON text of an untagged variant. *)
Definition quote : string := String """"%char "".
Definition text (m : member) : string :=
  match m with
  | AccessKey pk => "{" ++ quote ++ "public_key" ++ quote ++ ":" ++ quote ++ escape pk ++ quote ++ "}"
  | Account a => "{" ++ quote ++ "account_id" ++ quote ++ ":" ++ quote ++ escape a ++ quote ++ "}"
  end.

(** multisig2/src/lib.rs:31-35 *)
Record permission := mkPermission {
  allowance : option N;
  perm_receiver : account_id;
  method_names : list string
}.

(** multisig2/src/lib.rs:41-73 *)
Inductive action :=
| Transfer (amount : N)
| CreateAccount
| DeployContract (code : string)
| AddMember (m : member)
| DeleteMember (m : member)
| AddKey (pk : public_key) (perm : option permission)
| FunctionCall (method_name args : string) (deposit gas : N)
| SetNumConfirmations (num_confirmations : N)
| SetActiveRequestsLimit (active_requests_limit : N).

(** multisig2/src/lib.rs:79-82 *)
Record request := mkRequest { receiver_id : account_id; actions : list action }.

(** multisig2/src/lib.rs:88-92 *)
Record signed_request := mkSigned {
  the_request : request;
  the_member : member;
  added_timestamp : N
}.

(** multisig2/src/lib.rs:118-133. The order of [members] after removals (swap-remove) is not modelled. *)
Record contract := mkContract {
  members : uset member;
  num_confirmations : N;
  request_nonce : N;
  requests : umap request_id signed_request;
  confirmations : umap request_id (uset string);
  num_requests_pk : umap string N;
  active_requests_limit : N
}.

Record ctx := mkCtx {
  ctx_current : account_id;
  ctx_predecessor : account_id;
  ctx_signer_pk : public_key;
  ctx_attached : N;
  ctx_timestamp : N
}.

(** The actions of a batch receipt. *)
Inductive batch_action :=
| BTransfer (amount : N)
| BCreateAccount
| BDeployContract (code : string)
| BAddAccessKey (pk : public_key) (allowance : N) (receiver : account_id) (methods : string)
| BAddFullAccessKey (pk : public_key)
| BDeleteKey (pk : public_key)
| BFunctionCall (method_name args : string) (deposit gas : N).
Record promise := mkPromise { p_receiver : account_id; p_actions : list batch_action }.

(** multisig2/src/lib.rs:322-339 *)
Definition current_member (c : ctx) (s : contract) : option member :=
  let m := if String.eqb (ctx_current c) (ctx_predecessor c)
           then AccessKey (ctx_signer_pk c) else Account (ctx_predecessor c) in
  if smem m (members s) then Some m else None.

(** multisig2/src/lib.rs:342-353: the state, and what is appended to the promise. *)
Definition add_member (c : ctx) (s : contract) (m : member) : contract * list batch_action :=
  (mkContract (sinsert m (members s)) (num_confirmations s) (request_nonce s) (requests s)
     (confirmations s) (num_requests_pk s) (active_requests_limit s),
   match m with
   | AccessKey pk => [BAddAccessKey pk DEFAULT_ALLOWANCE (ctx_current c) MULTISIG_METHOD_NAMES]
   | Account _ => []
   end).

(** multisig2/src/lib.rs:361-374: drop every request of a member, their confirmations, its counter, and
    the member. *)
Definition drop_member (s : contract) (m : member) : contract :=
  let ids := map fst (filter (fun kr => member_eqb (the_member (snd kr)) m) (requests s)) in
  mkContract (sremove m (members s)) (num_confirmations s) (request_nonce s)
    (fold_left (fun r id => mremove id r) ids (requests s))
    (fold_left (fun r id => mremove id r) ids (confirmations s))
    (mremove (text m) (num_requests_pk s)) (active_requests_limit s).

(** multisig2/src/lib.rs:356-379 *)
Definition delete_member (s : contract) (m : member) : res (contract * list batch_action) :=
  let! n := sub_chk (slength (members s)) 1 in
  assert! num_confirmations s <=? n
    orelse "Removing given member will make total number of members below number of confirmations" ;;
  Ok (drop_member s m, match m with AccessKey pk => [BDeleteKey pk] | Account _ => [] end).

(** multisig2/src/lib.rs:148-167: the contract, and the promise to itself that installs the keys. *)
Definition new (current : account_id) (state_exists : bool) (ms : list member) (k : N)
    : res (contract * promise) :=
  assert! negb state_exists orelse "The contract has already been initialized" ;;
  assert! k <=? N.of_nat (List.length ms)
    orelse "Members list must be equal or larger than number of confirmations" ;;
  let s := mkContract [] k 0 [] [] [] ACTIVE_REQUESTS_LIMIT in
  let c := mkCtx current current "" 0 0 in
  let '(s, acts) :=
    fold_left (fun '(s, acts) m => let '(s, b) := add_member c s m in (s, acts ++ b)%list) ms (s, []) in
  Ok (s, mkPromise current acts).

Definition num_requests_of (s : contract) (m : member) : N :=
  match mget (text m) (num_requests_pk s) with Some n => n | None => 0 end.

(** multisig2/src/lib.rs:170-200 *)
Definition add_request (c : ctx) (s : contract) (r : request) : res (contract * request_id) :=
  let! m := expect (current_member c s)
    "Predecessor must be a member or transaction signed with key of given account" in
  let! n := add32 (num_requests_of s m) 1 in
  assert! n <=? active_requests_limit s
    orelse "Account has too many active requests. Confirm or delete some." ;;
  let id := request_nonce s in
  let! nonce := add32 id 1 in
  Ok (mkContract (members s) (num_confirmations s) nonce
        (minsert id (mkSigned r m (ctx_timestamp c)) (requests s))
        (minsert id [] (confirmations s))
        (minsert (text m) n (num_requests_pk s))
        (active_requests_limit s),
      id).

(** multisig2/src/lib.rs:407-423 *)
Definition assert_valid_request (c : ctx) (s : contract) (id : request_id) : res unit :=
  assert! match current_member c s with Some _ => true | None => false end
    orelse "Caller (predecessor or signer) is not a member of this multisig" ;;
  assert! mmem id (requests s)
    orelse "No such request: either wrong number or already confirmed" ;;
  assert! mmem id (confirmations s)
    orelse "Internal error: confirmations mismatch requests" ;;
  Ok tt.

(** multisig2/src/lib.rs:382-404 *)
Definition remove_request (s : contract) (id : request_id) : res (contract * request) :=
  let! rs := expect (mget id (requests s)) "Failed to remove existing element" in
  let m := the_member rs in
  let n := num_requests_of s m in
  let n := if 0 <? n then n - 1 else n in
  Ok (mkContract (members s) (num_confirmations s) (request_nonce s) (mremove id (requests s))
        (mremove id (confirmations s)) (minsert (text m) n (num_requests_pk s)) (active_requests_limit s),
      the_request rs).

(** multisig2/src/lib.rs:426-431 *)
Definition assert_self_request (c : ctx) (receiver : account_id) : res unit :=
  require (String.eqb receiver (ctx_current c))
    "This method only works when receiver_id is equal to current_account_id".

(** multisig2/src/lib.rs:434-437 *)
Definition assert_one_action_only (c : ctx) (receiver : account_id) (num_actions : nat) : res unit :=
  let! _ := assert_self_request c receiver in
  require (Nat.eqb num_actions 1) "This method should be a separate request".

(** multisig2/src/lib.rs:228-289: the loop of [execute_request]; [acc] holds the batch built so far. The
    two settings actions return at once; the promise under construction, still empty, is dropped. *)
Fixpoint execute_actions (c : ctx) (receiver : account_id) (num_actions : nat) (l : list action)
    (s : contract) (acc : list batch_action) : res (contract * list batch_action) :=
  match l with
  | [] => Ok (s, acc)
  | a :: rest =>
      let continue s b := execute_actions c receiver num_actions rest s (acc ++ b)%list in
      match a with
      | Transfer amount => continue s [BTransfer amount]
      | CreateAccount => continue s [BCreateAccount]
      | DeployContract code => continue s [BDeployContract code]
      | AddMember m =>
          let! _ := assert_self_request c receiver in
          let '(s, b) := add_member c s m in
          continue s b
      | DeleteMember m =>
          let! _ := assert_self_request c receiver in
          let! '(s, b) := delete_member s m in
          continue s b
      | AddKey pk perm =>
          let! _ := assert_self_request c receiver in
          match perm with
          | Some p => continue s [BAddAccessKey pk
                                    (match allowance p with Some x => x | None => DEFAULT_ALLOWANCE end)
                                    (perm_receiver p) (String.concat "," (method_names p))]
          | None => continue s [BAddFullAccessKey pk]
          end
      | FunctionCall m args deposit gas => continue s [BFunctionCall m args deposit gas]
      | SetNumConfirmations n =>
          let! _ := assert_one_action_only c receiver num_actions in
          Ok (mkContract (members s) n (request_nonce s) (requests s) (confirmations s) (num_requests_pk s)
                (active_requests_limit s), acc)
      | SetActiveRequestsLimit n =>
          let! _ := assert_one_action_only c receiver num_actions in
          Ok (mkContract (members s) (num_confirmations s) (request_nonce s) (requests s) (confirmations s)
                (num_requests_pk s) n, acc)
      end
  end.

(** multisig2/src/lib.rs:224-290 *)
Definition execute_request (c : ctx) (s : contract) (r : request) : res (contract * promise) :=
  let! '(s, acts) := execute_actions c (receiver_id r) (List.length (actions r)) (actions r) s [] in
  Ok (s, mkPromise (receiver_id r) acts).

(** multisig2/src/lib.rs:294-315. [None] stands for the plain answer [Value(true)] of a confirmation that
    was only recorded. *)
Definition confirm (c : ctx) (s : contract) (id : request_id) : res (contract * option promise) :=
  let! _ := assert_valid_request c s id in
  let! m := expect (current_member c s) "Must be validated above" in
  let! confs := expect (mget id (confirmations s)) "called `Option::unwrap()` on a `None` value" in
  assert! negb (smem (text m) confs)
    orelse "Already confirmed this request with this key" ;;
  let! n := add32 (slength confs mod U32_BOUND) 1 in
  if num_confirmations s <=? n then
    let! '(s, r) := remove_request s id in
    let! '(s, p) := execute_request c s r in
    Ok (s, Some p)
  else
    Ok (mkContract (members s) (num_confirmations s) (request_nonce s) (requests s)
          (minsert id (sinsert (text m) confs) (confirmations s))
          (num_requests_pk s) (active_requests_limit s), None).

(** multisig2/src/lib.rs:203-207 *)
Definition add_request_and_confirm (c : ctx) (s : contract) (r : request)
    : res (contract * (request_id * option promise)) :=
  let! '(s, id) := add_request c s r in
  let! '(s, p) := confirm c s id in
  Ok (s, (id, p)).

(** multisig2/src/lib.rs:210-222. The removed request is returned here for the log; the method itself
    returns nothing. *)
Definition delete_request (c : ctx) (s : contract) (id : request_id) : res (contract * request) :=
  let! _ := assert_valid_request c s id in
  let! rs := expect (mget id (requests s)) "No such request" in
  let! t := add64 (added_timestamp rs) REQUEST_COOLDOWN in
  assert! t <? ctx_timestamp c
    orelse "Request cannot be deleted immediately after creation." ;;
  remove_request s id.

Inductive call :=
| CAddRequest (r : request)
| CAddRequestAndConfirm (r : request)
| CDeleteRequest (id : request_id)
| CConfirm (id : request_id).

(** The exported name of each method: multisig2/src/lib.rs:170, 203, 210, 294. *)
Definition method_name (m : call) : string :=
  match m with
  | CAddRequest _ => "add_request"
  | CAddRequestAndConfirm _ => "add_request_and_confirm"
  | CDeleteRequest _ => "delete_request"
  | CConfirm _ => "confirm"
  end.

(** What a successful call returns, with the promise it schedules. *)
Inductive output :=
| OAdded (id : request_id)
| OAddedAndConfirmed (id : request_id) (p : option promise)
| ODeleted (r : request)
| OConfirmed (p : option promise).

(** The [#[near_bindgen]] entry points; none is [#[payable]]. *)
Definition exec (c : ctx) (s : contract) (m : call) : res (contract * output) :=
  assert! ctx_attached c =? 0 orelse "Method doesn't accept deposit" ;;
  match m with
  | CAddRequest r => let! '(s, id) := add_request c s r in Ok (s, OAdded id)
  | CAddRequestAndConfirm r =>
      let! '(s, (id, p)) := add_request_and_confirm c s r in Ok (s, OAddedAndConfirmed id p)
  | CDeleteRequest id => let! '(s, r) := delete_request c s id in Ok (s, ODeleted r)
  | CConfirm id => let! '(s, p) := confirm c s id in Ok (s, OConfirmed p)
  end.

(** multisig2/src/lib.rs:444-478 *)
Definition get_members (s : contract) : list member := members s.
Definition get_request (s : contract) (id : request_id) : res request :=
  let! rs := expect (mget id (requests s)) "No such request" in Ok (the_request rs).
Definition get_num_requests_per_member (s : contract) (m : member) : N := num_requests_of s m.
Definition list_request_ids (s : contract) : list request_id := mkeys (requests s).
Definition get_confirmations (s : contract) (id : request_id) : res (list string) :=
  expect (mget id (confirmations s)) "No such request".
Definition get_num_confirmations (s : contract) : N := num_confirmations s.
Definition get_request_nonce (s : contract) : N := request_nonce s.
