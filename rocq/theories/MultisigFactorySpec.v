(** The world around one multisig factory: its account balance, the accounts that exist, and the creations in
    flight, executed one at a time in any order.

    Specification: the factory is used only through [create], the multisig only through its [new]. Assumed of the
    runtime: a receipt that fails does so as a whole, and its tokens go back to the account that made it, which is
    the factory; an account can be created only by the account named by what follows its first dot. *)
From Coq Require Import NArith List Bool String Ascii.
From Verif Require Import Prelude Messages MultisigFactoryModel.
From Verif Require Multisig2Model.
Import ListNotations.
Open Scope string_scope.
Open Scope N_scope.
Module MM := Multisig2Model.

Record world := mkWorld {
  w_balance : N;                               (** balance of the factory account *)
  w_accounts : uset account_id;                (** the accounts that exist *)
  w_msgs : list (account_id * promise)         (** creations in flight, with their callers *)
}.

Inductive event :=
| ECreateCall (who : account_id) (attached gas : N) (name : string) (ms : list member) (k : N)
                                                (** somebody calls [create] *)
| ECreate (n : nat) (enough_gas : bool)         (** creation number [n] in flight is executed *)
| EIncome (x : N)                               (** somebody sends tokens to the factory *)
| EAccount (a : account_id).                    (** an account is created by other means *)

(** What an observer sees. *)
Inductive obs :=
| BAccepted (who : account_id) (a : account_id) (amount : N)
| BRejected (who : account_id)
| BCreated (who : account_id) (a : account_id) (amount : N) (m : MM.contract)
| BSent (to : account_id) (amount : N)    (** tokens of a receipt went to an account other than the new one *).

Fixpoint has_dot (s : string) : bool :=
  match s with
  | EmptyString => false
  | String c r => Ascii.eqb c "."%char || has_dot r
  end.
(** What follows the first dot. *)
Fixpoint parent (s : string) : string :=
  match s with
  | EmptyString => ""
  | String c r => if Ascii.eqb c "."%char then r else parent r
  end.

(** The receipt that creates a multisig. *)
Definition create_multisig (self : account_id) (w : world) (p : promise) (enough_gas : bool) : option MM.contract :=
  if smem (p_account p) (w_accounts w) || negb (String.eqb (parent (p_account p)) self) || negb enough_gas then None
  else match MM.new (p_account p) false (p_members p) (p_num_confirmations p) with
       | Ok (s, _) => Some s
       | Panic _ => None
       end.

Definition step_obs (self : account_id) (w : world) (ev : event) : world * list obs :=
  match ev with
  | ECreateCall who attached gas name ms k =>
      match create (mkCtx self who attached gas) name ms k with
      | Ok p => if p_amount p <=? w_balance w + attached
                then (mkWorld (w_balance w + attached - p_amount p) (w_accounts w) (w_msgs w ++ [(who, p)]),
                      [BAccepted who (p_account p) (p_amount p)])
                else (w, [BRejected who])
      | Panic _ => (w, [BRejected who])
      end
  | ECreate n gas =>
      match nth_error (w_msgs w) n with
      | Some (who, p) =>
          match create_multisig self w p gas with
          | Some m => (mkWorld (w_balance w) (sinsert (p_account p) (w_accounts w)) (drop_nth n (w_msgs w)),
                       [BCreated who (p_account p) (p_amount p) m])
          | None => (mkWorld (w_balance w + p_amount p) (w_accounts w) (drop_nth n (w_msgs w)),
                     [BSent self (p_amount p)])
          end
      | None => (w, [])
      end
  | EIncome x => (mkWorld (w_balance w + x) (w_accounts w) (w_msgs w), [])
  | EAccount a => (mkWorld (w_balance w) (sinsert a (w_accounts w)) (w_msgs w), [])
  end%list.

Definition step (self : account_id) (w : world) (ev : event) : world := fst (step_obs self w ev).
Fixpoint final (self : account_id) (w : world) (evs : list event) : world :=
  match evs with [] => w | ev :: r => final self (step self w ev) r end.
Fixpoint log (self : account_id) (w : world) (evs : list event) : list obs :=
  match evs with [] => [] | ev :: r => snd (step_obs self w ev) ++ log self (step self w ev) r end%list.

(** * Reading the log *)
Definition accepted (l : list obs) : list (account_id * N) :=
  flat_map (fun o => match o with BAccepted who _ x => [(who, x)] | _ => [] end) l.
Definition created (l : list obs) : list (account_id * N) :=
  flat_map (fun o => match o with BCreated who _ x _ => [(who, x)] | _ => [] end) l.
Definition pending (w : world) : list (account_id * N) :=
  map (fun m => (fst m, p_amount (snd m))) (w_msgs w).
(** Amounts sent to an account. *)
Definition sent_to (a : account_id) (l : list obs) : list N :=
  flat_map (fun o => match o with BSent b x => if String.eqb a b then [x] else [] | _ => [] end) l.
Definition incomes (evs : list event) : N :=
  fold_right (fun ev x => match ev with EIncome y => y + x | _ => x end) 0 evs.
Definition sum (l : list N) : N := fold_right N.add 0 l.
Definition amounts (l : list (account_id * N)) : N := sum (map snd l).
