(** Reading the logs of the factories and of the wrapped token.

    Specification: what each line says, the lines of a history, and what is counted in them. *)
From Coq Require Import NArith List Bool String Ascii.
From Verif Require Import Prelude OtherLogsModel.
From Verif Require JsonModel PoolFactorySpec LockupFactorySpec WNearSpec LockupLogSpec.
Import ListNotations.
Open Scope string_scope.
Open Scope N_scope.
Module PS := PoolFactorySpec.
Module LS := LockupFactorySpec.
Module WS := WNearSpec.

(** What a line says. [a]: the new account, [x]: an amount, [who]: an account. *)
Inductive fact :=
| FPoolCreated (a : account_id)
| FPoolFailed (a : account_id) (x : N) (who : account_id)
| FLockupCreated (a : account_id)
| FLockupFailed (a : account_id) (x : N) (who : account_id)
| FWrapped (x : N) (who : account_id)
| FUnwrapped (x : N) (who : account_id).

(** A name in the middle of a line is a word: it has no space. Numbers are decimal numerals without leading zeros. *)
Definition has_space := LockupLogSpec.has_space.
Definition dec (n : N) : string := JsonModel.decimal n.
Inductive says : string -> fact -> Prop :=
| say_pool_created a : has_space a = false ->
    says ("The staking pool @" ++ a ++ " was successfully created. Whitelisting...") (FPoolCreated a)
| say_pool_failed a x who : has_space a = false ->
    says ("The staking pool @" ++ a ++ " creation has failed. Returning attached deposit of " ++ dec x ++ " to @" ++ who)
      (FPoolFailed a x who)
| say_lockup_created a : has_space a = false ->
    says ("The lockup contract " ++ a ++ " was successfully created.") (FLockupCreated a)
| say_lockup_failed a x who : has_space a = false ->
    says ("The lockup " ++ a ++ " creation has failed. Returning attached deposit of " ++ dec x ++ " to " ++ who)
      (FLockupFailed a x who)
| say_wrapped x who : says ("Deposit " ++ dec x ++ " NEAR to " ++ who) (FWrapped x who)
| say_unwrapped x who : says ("Withdraw " ++ dec x ++ " yoctoNEAR from " ++ who) (FUnwrapped x who).

Definition said_created (fs : list fact) : list account_id :=
  flat_map (fun f => match f with FPoolCreated a | FLockupCreated a => [a] | _ => [] end) fs.
(** The deposits said to be returned, and to whom. *)
Definition said_returned (fs : list fact) : list (account_id * N) :=
  flat_map (fun f => match f with FPoolFailed _ x who | FLockupFailed _ x who => [(who, x)] | _ => [] end) fs.
(** The creations said to have failed: payer, account, deposit. *)
Definition said_failed (fs : list fact) : list (account_id * account_id * N) :=
  flat_map (fun f => match f with FPoolFailed a x who | FLockupFailed a x who => [(who, a, x)] | _ => [] end) fs.
Definition said_wrapped (fs : list fact) : N :=
  fold_right (fun f y => match f with FWrapped x _ => x + y | _ => y end) 0 fs.
Definition said_unwrapped (fs : list fact) : N :=
  fold_right (fun f y => match f with FUnwrapped x _ => x + y | _ => y end) 0 fs.

(** * The lines of a history: those of the accepted calls and callbacks *)
Definition pool_run_log (self : account_id) (w : PS.world) (who : account_id) (attached : N) (results : list bool)
    (m : PF.call) : list string :=
  match PS.run self w who attached results m,
        pool_factory_l (PF.mkCtx self who attached results) (PS.w_factory w) m with
  | Some _, Ok (_, _, l) => l
  | _, _ => []
  end.
Definition pool_step_log (self : account_id) (w : PS.world) (ev : PS.event) : list string :=
  match ev with
  | PS.ECall who attached m => pool_run_log self w who attached [] m
  | PS.ERun n =>
      match nth_error (PS.w_msgs w) n with
      | Some (PS.MBack cb ok) =>
          pool_run_log self
            (PS.mkWorld (PS.w_factory w) (PS.w_balance w) (PS.w_accounts w) (Messages.drop_nth n (PS.w_msgs w)))
            self 0 [ok] cb
      | _ => []
      end
  | _ => []
  end.
Fixpoint pool_factory_log (self : account_id) (w : PS.world) (evs : list PS.event) : list string :=
  match evs with
  | [] => []
  | ev :: r => pool_step_log self w ev ++ pool_factory_log self (PS.step self w ev) r
  end%list.

(** Creations asked for and made: payer, account, deposit. *)
Definition pools_asked (l : list PS.obs) : list (account_id * account_id * N) :=
  flat_map (fun o => match o with PS.BAccepted who a x => [(who, a, x)] | _ => [] end) l.
Definition pools_made (l : list PS.obs) : list (account_id * account_id * N) :=
  flat_map (fun o => match o with PS.BCreated who a x _ => [(who, a, x)] | _ => [] end) l.

Definition lockup_run_log (g : LS.genesis) (w : LS.world) (who : account_id) (attached : N) (results : list bool)
    (m : LF.call) : list string :=
  match LS.run g w who attached results m,
        lockup_factory_l (LF.mkCtx (LS.g_self g) who attached results (LS.g_sha256 g)) (LS.w_factory w) m with
  | Some _, Ok (_, _, l) => l
  | _, _ => []
  end.
Definition lockup_step_log (g : LS.genesis) (w : LS.world) (ev : LS.event) : list string :=
  match ev with
  | LS.ECall who attached m => lockup_run_log g w who attached [] m
  | LS.ERun n =>
      match nth_error (LS.w_msgs w) n with
      | Some (LS.MBack cb ok) =>
          lockup_run_log g
            (LS.mkWorld (LS.w_factory w) (LS.w_balance w) (LS.w_accounts w) (Messages.drop_nth n (LS.w_msgs w)))
            (LS.g_self g) 0 [ok] cb
      | _ => []
      end
  | _ => []
  end.
Fixpoint lockup_factory_log (g : LS.genesis) (w : LS.world) (evs : list LS.event) : list string :=
  match evs with
  | [] => []
  | ev :: r => lockup_step_log g w ev ++ lockup_factory_log g (LS.step g w ev) r
  end%list.
Definition lockups_asked (l : list LS.obs) : list (account_id * account_id * N) :=
  flat_map (fun o => match o with LS.BAccepted who a x => [(who, a, x)] | _ => [] end) l.
Definition lockups_made (l : list LS.obs) : list (account_id * account_id * N) :=
  flat_map (fun o => match o with LS.BCreated who a x _ _ => [(who, a, x)] | _ => [] end) l.
(** Creations that are neither finished nor refunded. *)
Definition lockups_pending (w : LS.world) : list (account_id * account_id * N) :=
  flat_map (fun m => match m with
                     | LS.MCreate a x _ (LF.OnLockupCreate _ _ who) => [(who, a, x)]
                     | LS.MBack (LF.OnLockupCreate a x who) false => [(who, a, x)]
                     | _ => []
                     end) (LS.w_msgs w).
(** Lockups that exist and for which the callback is due. *)
Definition lockups_to_report (w : LS.world) : list account_id :=
  flat_map (fun m => match m with LS.MBack (LF.OnLockupCreate a _ _) true => [a] | _ => [] end) (LS.w_msgs w).

(** Only calls write lines; [ft_resolve_transfer] is the library's. *)
Definition wrapped_step_log (self : account_id) (w : WS.world) (ev : WS.event) : list string :=
  match ev with
  | WS.ECall who attached gas cl =>
      match snd (WS.step_obs self w ev), wrapped_l (WN.mkCtx self who attached gas None) (WS.w_token w) cl with
      | [WS.BAccepted _ _ _ _], Ok (_, l) => l
      | _, _ => []
      end
  | _ => []
  end.
Fixpoint wrapped_log (self : account_id) (w : WS.world) (evs : list WS.event) : list string :=
  match evs with
  | [] => []
  | ev :: r => wrapped_step_log self w ev ++ wrapped_log self (WS.step self w ev) r
  end%list.
(** Wrapped tokens destroyed by an event other than a withdrawal: by a forced unregistration, or when nobody is left to
    take a refund. *)
Definition burnt (self : account_id) (w : WS.world) (ev : WS.event) : N :=
  match ev with
  | WS.ECall _ _ _ WN.NearDeposit | WS.ECall _ _ _ (WN.NearWithdraw _) => 0
  | _ => WS.supply w - WS.supply (WS.step self w ev)
  end.
Fixpoint burnt_in (self : account_id) (w : WS.world) (evs : list WS.event) : N :=
  match evs with [] => 0 | ev :: r => burnt self w ev + burnt_in self (WS.step self w ev) r end.
