(** The world around the wrapped NEAR contract, and the vocabulary of its properties.

    The world has the token, the balance of its account, and the receipts in flight, executed one at a time in any
    order. Assumed of the runtime: a failed call changes nothing and the deposit goes back; the tokens of a transfer
    that fails come back to the contract; a call cannot send more than the account has. The contract account has
    no access key, so it calls itself only through its callback. Callers are accounts with a valid name. *)
From Coq Require Import NArith List Bool String.
From Verif Require Import Prelude Messages WNearModel.
Import ListNotations.
Open Scope string_scope.
Open Scope N_scope.

Inductive msg :=
| MTransfer (to : account_id) (x : N)
| MOnTransfer (sender receiver : account_id) (x : N)
| MResolve (sender receiver : account_id) (x : N) (r : result).

Record world := mkWorld {
  w_token : token;
  w_balance : N;
  w_msgs : list msg
}.

(** Just initialised on an account that holds [b]. *)
Definition start (b : N) : world := mkWorld new b [].

Inductive event :=
| ECall (who : account_id) (attached gas : N) (cl : call)
| EPay (n : nat) (ok : bool)             (** receipt [n], a transfer, is executed; [ok]: the account exists *)
| EReceive (n : nat) (r : result)        (** receipt [n], an [ft_on_transfer], ends with [r] *)
| EResolve (n : nat) (enough_gas : bool) (** receipt [n], an [ft_resolve_transfer], is executed *)
| EIncome (x : N).                       (** somebody sends tokens, or the contract's share of the gas *)

Inductive obs :=
| BAccepted (who : account_id) (attached : N) (cl : call) (v : value)
| BRejected (who : account_id) (cl : call)
| BPaid (to : account_id) (x : N)
| BBounced (to : account_id) (x : N)
| BResolved (sender receiver : account_id) (x used : N)
| BUnresolved (sender receiver : account_id) (x : N).

Definition message (p : promise) : msg :=
  match p with
  | PTransfer to x => MTransfer to x
  | PTransferCall s r x _ => MOnTransfer s r x
  end.
(** Tokens that leave with the promises of a call. *)
Definition sent (ps : list promise) : N :=
  fold_right (fun p x => match p with PTransfer _ y => y + x | _ => x end) 0 ps.

Definition step_obs (self : account_id) (w : world) (ev : event) : world * list obs :=
  match ev with
  | ECall who attached gas cl =>
      if String.eqb who self || negb (is_valid_account_id who) then (w, [])
      else match exec (mkCtx self who attached gas None) (w_token w) cl with
           | Ok (t, ps, v) =>
               if sent ps <=? w_balance w + attached
               then (mkWorld t (w_balance w + attached - sent ps) (w_msgs w ++ map message ps),
                     [BAccepted who attached cl v])
               else (w, [BRejected who cl])
           | Panic _ => (w, [BRejected who cl])
           end
  | EPay n ok =>
      match nth_error (w_msgs w) n with
      | Some (MTransfer to x) =>
          if ok then (mkWorld (w_token w) (w_balance w) (drop_nth n (w_msgs w)), [BPaid to x])
          else (mkWorld (w_token w) (w_balance w + x) (drop_nth n (w_msgs w)), [BBounced to x])
      | _ => (w, [])
      end
  | EReceive n r =>
      match nth_error (w_msgs w) n with
      | Some (MOnTransfer s d x) =>
          (mkWorld (w_token w) (w_balance w) (drop_nth n (w_msgs w) ++ [MResolve s d x r]), [])
      | _ => (w, [])
      end
  | EResolve n enough_gas =>
      match nth_error (w_msgs w) n with
      | Some (MResolve s d x r) =>
          match exec (mkCtx self self 0 GAS_FOR_RESOLVE_TRANSFER (Some r)) (w_token w) (FtResolveTransfer s d x) with
          | Ok (t, ps, VAmount used) =>
              if enough_gas && (sent ps <=? w_balance w)
              then (mkWorld t (w_balance w - sent ps) (drop_nth n (w_msgs w) ++ map message ps), [BResolved s d x used])
              else (mkWorld (w_token w) (w_balance w) (drop_nth n (w_msgs w)), [BUnresolved s d x])
          | _ => (mkWorld (w_token w) (w_balance w) (drop_nth n (w_msgs w)), [BUnresolved s d x])
          end
      | _ => (w, [])
      end
  | EIncome x => (mkWorld (w_token w) (w_balance w + x) (w_msgs w), [])
  end%list.

Definition step (self : account_id) (w : world) (ev : event) : world := fst (step_obs self w ev).
Fixpoint final (self : account_id) (w : world) (evs : list event) : world :=
  match evs with [] => w | ev :: r => final self (step self w ev) r end.
Fixpoint log (self : account_id) (w : world) (evs : list event) : list obs :=
  match evs with [] => [] | ev :: r => snd (step_obs self w ev) ++ log self (step self w ev) r end%list.

(** * Vocabulary *)

(** What the views say. *)
Definition bal (w : world) (a : account_id) : N := ft_balance_of (w_token w) a.
Definition supply (w : world) : N := ft_total_supply (w_token w).
Definition registered (w : world) (a : account_id) : Prop := exists s, storage_balance_of (w_token w) a = Ok (Some s).

Definition sum (l : list N) : N := fold_right N.add 0 l.
(** The price of a registration: 125 bytes, 0.00125 NEAR. *)
Definition DEPOSIT : N := 125 * 10 ^ 19.

(** Receipts in flight that pay an account. *)
Definition due (w : world) (a : account_id) : list N :=
  flat_map (fun m => match m with MTransfer b x => if String.eqb a b then [x] else [] | _ => [] end) (w_msgs w).
(** Transfer calls accepted, and where they are. *)
Definition transfer_calls (l : list obs) : list (account_id * account_id * N) :=
  flat_map (fun o => match o with BAccepted who _ (FtTransferCall r x) _ => [(who, r, x)] | _ => [] end) l.
Definition resolved (l : list obs) : list (account_id * account_id * N) :=
  flat_map (fun o => match o with BResolved s r x _ => [(s, r, x)] | _ => [] end) l.
Definition unresolved (l : list obs) : list (account_id * account_id * N) :=
  flat_map (fun o => match o with BUnresolved s r x => [(s, r, x)] | _ => [] end) l.
Definition in_flight (w : world) : list (account_id * account_id * N) :=
  flat_map (fun m => match m with MOnTransfer s r x | MResolve s r x _ => [(s, r, x)] | _ => [] end) (w_msgs w).
(** The tokens that came in and went out. *)
Definition attached_total (l : list obs) : N :=
  sum (map (fun o => match o with BAccepted _ x _ _ => x | _ => 0 end) l).
Definition paid_total (l : list obs) : N :=
  sum (map (fun o => match o with BPaid _ x => x | _ => 0 end) l).
Definition due_total (w : world) : N :=
  sum (map (fun m => match m with MTransfer _ x => x | _ => 0 end) (w_msgs w)).
Definition incomes (evs : list event) : N :=
  sum (map (fun ev => match ev with EIncome x => x | _ => 0 end) evs).

(** [who] calls the contract and the call succeeds. *)
Definition accepts (self : account_id) (w : world) (who : account_id) (attached gas : N) (cl : call) : Prop :=
  exists v, snd (step_obs self w (ECall who attached gas cl)) = [BAccepted who attached cl v].
(** When a transfer is possible, and what it does. *)
Definition can_transfer (w : world) (who r : account_id) (attached x : N) : Prop :=
  attached = 1 /\ is_valid_account_id r = true /\ who <> r /\ 0 < x /\ registered w who /\ x <= bal w who /\ registered w r.
Definition transferred (w w' : world) (who r : account_id) (x : N) : Prop :=
  bal w' who + x = bal w who /\ bal w' r = bal w r + x /\ (forall a, a <> who -> a <> r -> bal w' a = bal w a) /\
  supply w' = supply w /\ (forall a, registered w' a <-> registered w a).
(** The account [storage_deposit] is about. *)
Definition target (who : account_id) (o : option account_id) : account_id := match o with Some a => a | None => who end.
(** What is left of the attached deposit goes back to the caller. *)
Definition change (who : account_id) (x : N) : list msg := if 0 <? x then [MTransfer who x] else [].
(** How much of a transfer call the receiver did not use, and how much of that it can still give back. *)
Definition unused_of (r : result) (x : N) : N := match r with Unused n => N.min x n | _ => x end.
Definition refund_of (w : world) (d : account_id) (x : N) (r : result) : N := N.min (bal w d) (unused_of r x).

(** Storage that the runtime counts for one record of [accounts]: 40 bytes of overhead, the key (the prefix "a", a
    length of 4 bytes, the name) and a value of 16 bytes. *)
Definition record_usage (a : account_id) : N := 40 + (1 + 4 + slen a) + 16.
