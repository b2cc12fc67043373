(** The multisig as a board on which requests hang: what every call does to it. There are no counters and no maps:
    a request is one item with its confirmations on it, and the number of requests of a key is counted. Nothing
    here is used by the model; of the model only its types are used. *)
From Coq Require Import NArith List Bool String Permutation.
From Verif Require Import Prelude MultisigModel MultisigSpec.
Import ListNotations.
Open Scope N_scope.

Record item := mkItem {
  i_id : N;
  i_request : request;
  i_by : public_key;              (** the key that added it *)
  i_at : N;                       (** when *)
  i_confirmed : list public_key   (** the keys that confirmed it, in that order *)
}.
Record board := mkBoard {
  b_quorum : N;
  b_next : N;
  b_limit : N;                    (** how many requests a key may have on the board *)
  b_items : list item             (** in the order in which they were added *)
}.

Definition blank (k : N) : board := mkBoard k 0 12 [].

Definition lookup (id : N) (l : list item) : option item := find (fun i => i_id i =? id) l.
Definition without (id : N) (l : list item) : list item := filter (fun i => negb (i_id i =? id)) l.
Definition count_of (k : public_key) (l : list item) : N :=
  N.of_nat (List.length (filter (fun i => String.eqb (i_by i) k) l)).
Definition with_items (b : board) (l : list item) : board := mkBoard (b_quorum b) (b_next b) (b_limit b) l.

(** Add a request: the key has less than the limit, and there is an unused 32-bit id. *)
Definition put_up (k : public_key) (now : N) (r : request) (b : board) : option (board * N) :=
  if (count_of k (b_items b) <? b_limit b) && (b_next b + 1 <? U32_BOUND)
  then Some (mkBoard (b_quorum b) (b_next b + 1) (b_limit b) (b_items b ++ [mkItem (b_next b) r k now []]), b_next b)
  else None.

(** Whether a request can be carried out by the account: keys and settings are its own business, and a setting is
    changed by a request of its own. *)
Definition can_be_done (self : account_id) (r : request) : bool :=
  (negb (existsb key_action (actions r)) || String.eqb (receiver_id r) self) &&
  (negb (existsb setting_action (actions r)) ||
   String.eqb (receiver_id r) self && Nat.eqb (List.length (actions r)) 1).
(** What carrying it out does to the board: a setting changes; the requests of deleted keys come down. *)
Definition deletes_key (k : public_key) (a : action) : bool :=
  match a with DeleteKey k' => String.eqb k k' | _ => false end.
Definition done_on_board (r : request) (b : board) : board :=
  mkBoard (match actions r with [SetNumConfirmations n] => n | _ => b_quorum b end)
    (b_next b)
    (match actions r with [SetActiveRequestsLimit n] => n | _ => b_limit b end)
    (filter (fun i => negb (existsb (deletes_key (i_by i)) (actions r))) (b_items b)).

(** Confirm: the item hangs there without the key's confirmation. If that completes the quorum, the item comes down
    and the account does what it asks for; otherwise the confirmation is noted. *)
Definition agree (self : account_id) (k : public_key) (id : N) (b : board) : option (board * option promise) :=
  match lookup id (b_items b) with
  | None => None
  | Some i =>
      let n := N.of_nat (List.length (i_confirmed i)) + 1 in
      if existsb (String.eqb k) (i_confirmed i) || negb (n <? U32_BOUND) then None
      else if b_quorum b <=? n then
        if can_be_done self (i_request i)
        then Some (done_on_board (i_request i) (with_items b (without id (b_items b))), Some (asked (i_request i)))
        else None
      else Some (with_items b (map (fun j => if i_id j =? id
                                             then mkItem id (i_request j) (i_by j) (i_at j) (i_confirmed j ++ [k])
                                             else j) (b_items b)), None)
  end.

(** Take down an item that has hung for more than 15 minutes (900 seconds). *)
Definition take_down (now id : N) (b : board) : option (board * request) :=
  match lookup id (b_items b) with
  | Some i => if (i_at i + 900000000000 <? now) && (i_at i + 900000000000 <? U64_BOUND)
              then Some (with_items b (without id (b_items b)), i_request i) else None
  | None => None
  end.

(** One call. Only the account itself can make it, with any of its keys, and attaches nothing. *)
Definition play (self : account_id) (ev : event) (b : board) : option (board * output) :=
  if String.eqb (e_pred ev) self && (e_attached ev =? 0) then
    match e_call ev with
    | CAddRequest r =>
        match put_up (e_key ev) (e_time ev) r b with Some (b', id) => Some (b', OAdded id) | None => None end
    | CAddRequestAndConfirm r =>
        match put_up (e_key ev) (e_time ev) r b with
        | Some (b1, id) => match agree self (e_key ev) id b1 with
                           | Some (b2, p) => Some (b2, OAddedAndConfirmed id p)
                           | None => None
                           end
        | None => None
        end
    | CConfirm id =>
        match agree self (e_key ev) id b with Some (b', p) => Some (b', OConfirmed p) | None => None end
    | CDeleteRequest id =>
        match take_down (e_time ev) id b with Some (b', r) => Some (b', ODeleted r) | None => None end
    end
  else None.

(** A history: what every call answers, and the board in the end. *)
Definition board_after (self : account_id) (b : board) (ev : event) : board :=
  match play self ev b with Some (b', _) => b' | None => b end.
Fixpoint play_all (self : account_id) (b : board) (evs : list event) : board * list entry :=
  match evs with
  | [] => (b, [])
  | ev :: r => let '(b', l) := play_all self (board_after self b ev) r in
               (b', (ev, option_map snd (play self ev b)) :: l)
  end.

(** All views show the board; the order in which ids and confirmations are listed is not specified. *)
Definition shows (s : contract) (b : board) : Prop :=
  get_num_confirmations s = b_quorum b /\
  get_request_nonce s = b_next b /\
  active_requests_limit s = b_limit b /\
  (forall k, get_num_requests_pk s k = count_of k (b_items b)) /\
  (forall id, In id (list_request_ids s) <-> In id (map i_id (b_items b))) /\
  NoDup (list_request_ids s) /\
  (forall id, match get_request s id with Ok r => Some r | Panic _ => None end
              = option_map i_request (lookup id (b_items b))) /\
  (forall id, match get_confirmations s id, lookup id (b_items b) with
              | Ok l, Some i => Permutation l (i_confirmed i)
              | Panic _, None => True
              | _, _ => False
              end).
