(** Histories of calls to the whitelist contract, and what the lists should contain after them, told
    from the history alone. *)
From Coq Require Import NArith List Bool String.
From Verif Require Import Prelude WhitelistModel.
Import ListNotations.
Open Scope N_scope.

(** Anybody may call any method with any deposit. *)
Record event := mkEvent { e_who : account_id; e_attached : N; e_call : call }.

Definition step (s : contract) (ev : event) : contract :=
  match exec (mkCtx (e_who ev) (e_attached ev)) s (e_call ev) with
  | Ok (s', _) => s'
  | Panic _ => s
  end.
Definition final (s : contract) (evs : list event) : contract := fold_left step evs s.

Definition accepted (s : contract) (ev : event) : bool :=
  is_ok (exec (mkCtx (e_who ev) (e_attached ev)) s (e_call ev)).

(** A call that is formally in order: a valid account name and no deposit. *)
Definition in_order (ev : event) : bool :=
  (e_attached ev =? 0) &&
  match e_call ev with
  | AddStakingPool a | RemoveStakingPool a | AddFactory a | RemoveFactory a => is_valid_account_id a
  end.

(** [past] is a history, latest call first. A factory is listed when the last call about it that was
    in order and made by the foundation was an add. *)
Fixpoint factory_listed (foundation : account_id) (past : list event) (f : account_id) : bool :=
  match past with
  | [] => false
  | ev :: earlier =>
      let rest := factory_listed foundation earlier f in
      if in_order ev && String.eqb (e_who ev) foundation then
        match e_call ev with
        | AddFactory g => if String.eqb g f then true else rest
        | RemoveFactory g => if String.eqb g f then false else rest
        | _ => rest
        end
      else rest
  end.

(** A pool is listed when the last authorised call about it was an add: an add is authorised for the
    foundation and for whoever is a listed factory at that moment, a removal for the foundation. *)
Fixpoint pool_listed (foundation : account_id) (past : list event) (p : account_id) : bool :=
  match past with
  | [] => false
  | ev :: earlier =>
      let rest := pool_listed foundation earlier p in
      if in_order ev then
        match e_call ev with
        | AddStakingPool q =>
            if String.eqb q p &&
               (String.eqb (e_who ev) foundation || factory_listed foundation earlier (e_who ev))
            then true else rest
        | RemoveStakingPool q =>
            if String.eqb q p && String.eqb (e_who ev) foundation then false else rest
        | _ => rest
        end
      else rest
  end.

(** Whether a call is authorised after the history [past]. *)
Definition authorised (foundation : account_id) (past : list event) (ev : event) : bool :=
  in_order ev &&
  (String.eqb (e_who ev) foundation ||
   match e_call ev with
   | AddStakingPool _ => factory_listed foundation past (e_who ev)
   | _ => false
   end).
