(** The second multisig as a board on which requests hang, next to a list of members: what every call does to it.
    There are no counters and no maps: a request is one item with its confirmations on it, and the number of requests
    of a member is counted. Nothing here is used by the model; of the model only its types, the comparison of members
    and the text that stands for a member in a view are used. *)
From Coq Require Import NArith List Bool String Permutation.
From Verif Require Import Prelude Multisig2Model Multisig2Spec.
Import ListNotations.
Open Scope N_scope.

Record item := mkItem {
  i_id : N;
  i_request : request;
  i_by : member;                  (** the member that added it *)
  i_at : N;                       (** when *)
  i_confirmed : list member       (** the members that confirmed it, in that order *)
}.
Record board := mkBoard {
  b_members : list member;
  b_quorum : N;
  b_next : N;
  b_limit : N;                    (** how many requests a member may have on the board *)
  b_items : list item             (** in the order in which they were added *)
}.

Definition is_member (m : member) (l : list member) : bool := existsb (member_eqb m) l.
Definition joined (m : member) (l : list member) : list member := if is_member m l then l else (l ++ [m])%list.

(** A fresh board: the given members, each once. As many as the quorum must be given, repetitions counted. *)
Definition opened (ms : list member) (k : N) : option board :=
  if k <=? N.of_nat (List.length ms)
  then Some (mkBoard (fold_left (fun l m => joined m l) ms []) k 0 12 []) else None.

Definition lookup (id : N) (l : list item) : option item := find (fun i => i_id i =? id) l.
Definition without (id : N) (l : list item) : list item := filter (fun i => negb (i_id i =? id)) l.
Definition count_of (m : member) (l : list item) : N :=
  N.of_nat (List.length (filter (fun i => member_eqb (i_by i) m) l)).
Definition with_items (b : board) (l : list item) : board :=
  mkBoard (b_members b) (b_quorum b) (b_next b) (b_limit b) l.

(** Add a request: the member has less than the limit, and there is an unused 32-bit id. *)
Definition put_up (m : member) (now : N) (r : request) (b : board) : option (board * N) :=
  if (count_of m (b_items b) <? b_limit b) && (b_next b + 1 <? U32_BOUND)
  then Some (mkBoard (b_members b) (b_quorum b) (b_next b + 1) (b_limit b)
               (b_items b ++ [mkItem (b_next b) r m now []]), b_next b)
  else None.

(** What one action does to the board. A deletion must leave as many members as the quorum; the requests of a
    deleted member come down. *)
Definition act (a : action) (b : board) : option board :=
  match a with
  | AddMember m => Some (mkBoard (joined m (b_members b)) (b_quorum b) (b_next b) (b_limit b) (b_items b))
  | DeleteMember m =>
      if b_quorum b <? N.of_nat (List.length (b_members b))
      then Some (mkBoard (filter (fun x => negb (member_eqb m x)) (b_members b)) (b_quorum b) (b_next b) (b_limit b)
                   (filter (fun i => negb (member_eqb (i_by i) m)) (b_items b)))
      else None
  | SetNumConfirmations n => Some (mkBoard (b_members b) n (b_next b) (b_limit b) (b_items b))
  | SetActiveRequestsLimit n => Some (mkBoard (b_members b) (b_quorum b) (b_next b) n (b_items b))
  | _ => Some b
  end.
Fixpoint act_all (l : list action) (b : board) : option board :=
  match l with [] => Some b | a :: r => match act a b with Some b' => act_all r b' | None => None end end.

(** Keys, members and settings are the account's own business, and a setting is changed by a request of its own. *)
Definition own_business (self : account_id) (r : request) : bool :=
  (negb (existsb key_action (actions r)) || String.eqb (receiver_id r) self) &&
  (negb (existsb setting_action (actions r)) ||
   String.eqb (receiver_id r) self && Nat.eqb (List.length (actions r)) 1).
Definition carried_out (self : account_id) (r : request) (b : board) : option board :=
  if own_business self r then act_all (actions r) b else None.

(** Confirm: the item hangs there without the member's confirmation. If that completes the quorum, the item comes
    down and the account does what it asks for; otherwise the confirmation is noted. *)
Definition agree (self : account_id) (m : member) (id : N) (b : board) : option (board * option promise) :=
  match lookup id (b_items b) with
  | None => None
  | Some i =>
      let n := N.of_nat (List.length (i_confirmed i)) + 1 in
      if is_member m (i_confirmed i) || negb (n <? U32_BOUND) then None
      else if b_quorum b <=? n then
        match carried_out self (i_request i) (with_items b (without id (b_items b))) with
        | Some b' => Some (b', Some (asked self (i_request i)))
        | None => None
        end
      else Some (with_items b (map (fun j => if i_id j =? id
                                             then mkItem id (i_request j) (i_by j) (i_at j) (i_confirmed j ++ [m])
                                             else j) (b_items b)), None)
  end.

(** Take down an item that has hung for more than 15 minutes (900 seconds). *)
Definition take_down (now id : N) (b : board) : option (board * request) :=
  match lookup id (b_items b) with
  | Some i => if (i_at i + 900000000000 <? now) && (i_at i + 900000000000 <? U64_BOUND)
              then Some (with_items b (without id (b_items b)), i_request i) else None
  | None => None
  end.

(** One call. Only members make it, and attach nothing. *)
Definition play (self : account_id) (ev : event) (b : board) : option (board * output) :=
  let m := caller self ev in
  if is_member m (b_members b) && (e_attached ev =? 0) then
    match e_call ev with
    | CAddRequest r =>
        match put_up m (e_time ev) r b with Some (b', id) => Some (b', OAdded id) | None => None end
    | CAddRequestAndConfirm r =>
        match put_up m (e_time ev) r b with
        | Some (b1, id) => match agree self m id b1 with
                           | Some (b2, p) => Some (b2, OAddedAndConfirmed id p)
                           | None => None
                           end
        | None => None
        end
    | CConfirm id =>
        match agree self m id b with Some (b', p) => Some (b', OConfirmed p) | None => None end
    | CDeleteRequest id =>
        match take_down (e_time ev) id b with Some (b', r) => Some (b', ODeleted r) | None => None end
    end
  else None.

(** A history: what every call answers, and the board in the end. *)
Definition board_after (self : account_id) (b : board) (ev : event) : board :=
  match play self ev b with Some (b', _) => b' | None => b end.
Fixpoint play_all (self : account_id) (b : board) (evs : list event) : board * list (option output) :=
  match evs with
  | [] => (b, [])
  | ev :: r => let '(b', l) := play_all self (board_after self b ev) r in
               (b', option_map snd (play self ev b) :: l)
  end.

(** All views show the board; the order in which members, ids and confirmations are listed is
    not specified. *)
Definition shows (s : contract) (b : board) : Prop :=
  (forall m, In m (get_members s) <-> In m (b_members b)) /\
  NoDup (get_members s) /\
  get_num_confirmations s = b_quorum b /\
  get_request_nonce s = b_next b /\
  active_requests_limit s = b_limit b /\
  (forall m, get_num_requests_per_member s m = count_of m (b_items b)) /\
  (forall id, In id (list_request_ids s) <-> In id (map i_id (b_items b))) /\
  NoDup (list_request_ids s) /\
  (forall id, match get_request s id with Ok r => Some r | Panic _ => None end
              = option_map i_request (lookup id (b_items b))) /\
  (forall id, match get_confirmations s id, lookup id (b_items b) with
              | Ok l, Some i => Permutation l (map text (i_confirmed i))
              | Panic _, None => True
              | _, _ => False
              end).
