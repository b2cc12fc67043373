(** Reading the log of a lockup.

    Specification: what each kind of line says, and a bookkeeper who sees only the lines, notes what they say, and
    stops at the first line that does not fit the notes. *)
From Coq Require Import NArith List Bool String Ascii.
From Verif Require Import Prelude LockupModel LockupWorld LockupSpec LockupLogModel.
From Verif Require JsonModel.
Import ListNotations.
Open Scope string_scope.
Open Scope N_scope.

(** What a line says. [x]: an amount, [p]: a staking pool, [r]: a receiver, [ok]: it succeeded. *)
Inductive fact :=
| FSelecting (p : account_id)
| FUnselected (p : account_id)
| FDepositing (x : N) (p : account_id)
| FDepositingAndStaking (x : N) (p : account_id)
| FFetching (p : account_id)
| FWithdrawing (x : N) (p : account_id)
| FQuerying (p : account_id)
| FStaking (x : N) (p : account_id)
| FUnstaking (x : N) (p : account_id)
| FUnstakingAll (p : account_id)
| FChecking (poll : account_id)
| FTransferring (x : N) (r : account_id)
| FAddingKey
| FDeposit (ok : bool) (x : N) (p : account_id)
| FDepositAndStake (ok : bool) (x : N) (p : account_id)
| FWithdrawal (ok : bool) (x : N) (p : account_id)
| FStake (ok : bool) (x : N) (p : account_id)
| FUnstake (ok : bool) (x : N) (p : account_id)
| FUnstakeAll (ok : bool) (p : account_id)
| FEnabled (t : N)
| FNotEnabled
| FTotal (x : N)
| FNothingUnstaked
| FTerminating (x : N)
| FGoingToUnstake
| FGoingToWithdraw
| FPaying (x : N) (r : account_id)
| FTUnstaking (x : N) (p : account_id)
| FTNothingStaked
| FTUnstake (ok : bool) (x : N) (p : account_id)
| FTWithdrawing (x : N) (p : account_id)
| FTNothingUnstaked
| FTWithdrawal (ok : bool) (x : N) (p : account_id)
| FPayment (ok : bool) (x : N) (r : account_id)
| FRemaining (x : N)
| FNoMoreBalance
| FCompleted.

(** A name in a line is a word: it has no space. *)
Fixpoint has_space (s : string) : bool :=
  match s with
  | EmptyString => false
  | String c r => Ascii.eqb c " "%char || has_space r
  end.

(** [says line f]: [line] is the sentence for [f]. Numbers are decimal numerals without leading zeros. *)
Definition dec (n : N) : string := JsonModel.decimal n.
Inductive says : string -> fact -> Prop :=
| say_selecting p : has_space p = false ->
    says ("Selecting staking pool @" ++ p ++ ". Going to check whitelist first.") (FSelecting p)
| say_unselected p : has_space p = false -> says ("Unselected current staking pool @" ++ p ++ ".") (FUnselected p)
| say_depositing x p : has_space p = false ->
    says ("Depositing " ++ dec x ++ " to the staking pool @" ++ p) (FDepositing x p)
| say_depositing_and_staking x p : has_space p = false ->
    says ("Depositing and staking " ++ dec x ++ " to the staking pool @" ++ p) (FDepositingAndStaking x p)
| say_fetching p : has_space p = false -> says ("Fetching total balance from the staking pool @" ++ p) (FFetching p)
| say_withdrawing x p : has_space p = false ->
    says ("Withdrawing " ++ dec x ++ " from the staking pool @" ++ p) (FWithdrawing x p)
| say_querying p : has_space p = false ->
    says ("Going to query the unstaked balance at the staking pool @" ++ p) (FQuerying p)
| say_staking x p : has_space p = false -> says ("Staking " ++ dec x ++ " at the staking pool @" ++ p) (FStaking x p)
| say_unstaking x p : has_space p = false ->
    says ("Unstaking " ++ dec x ++ " from the staking pool @" ++ p) (FUnstaking x p)
| say_unstaking_all p : has_space p = false ->
    says ("Unstaking all tokens from the staking pool @" ++ p) (FUnstakingAll p)
| say_checking p : has_space p = false ->
    says ("Checking that transfers are enabled at the transfer poll contract @" ++ p) (FChecking p)
| say_transferring x r : has_space r = false ->
    says ("Transferring " ++ dec x ++ " to account @" ++ r) (FTransferring x r)
| say_adding_key : says "Adding a full access key" FAddingKey
| say_deposit_ok x p : has_space p = false ->
    says ("The deposit of " ++ dec x ++ " to @" ++ p ++ " succeeded") (FDeposit true x p)
| say_deposit_failed x p : has_space p = false ->
    says ("The deposit of " ++ dec x ++ " to @" ++ p ++ " has failed") (FDeposit false x p)
| say_deposit_and_stake_ok x p : has_space p = false ->
    says ("The deposit and stake of " ++ dec x ++ " to @" ++ p ++ " succeeded") (FDepositAndStake true x p)
| say_deposit_and_stake_failed x p : has_space p = false ->
    says ("The deposit and stake of " ++ dec x ++ " to @" ++ p ++ " has failed") (FDepositAndStake false x p)
| say_withdrawal_ok x p : has_space p = false ->
    says ("The withdrawal of " ++ dec x ++ " from @" ++ p ++ " succeeded") (FWithdrawal true x p)
| say_withdrawal_failed x p : has_space p = false ->
    says ("The withdrawal of " ++ dec x ++ " from @" ++ p ++ " failed") (FWithdrawal false x p)
| say_stake_ok x p : has_space p = false ->
    says ("Staking of " ++ dec x ++ " at @" ++ p ++ " succeeded") (FStake true x p)
| say_stake_failed x p : has_space p = false ->
    says ("Staking " ++ dec x ++ " at @" ++ p ++ " has failed") (FStake false x p)
| say_unstake_ok x p : has_space p = false ->
    says ("Unstaking of " ++ dec x ++ " at @" ++ p ++ " succeeded") (FUnstake true x p)
| say_unstake_failed x p : has_space p = false ->
    says ("Unstaking " ++ dec x ++ " at @" ++ p ++ " has failed") (FUnstake false x p)
| say_unstake_all_ok p : has_space p = false -> says ("Unstaking all at @" ++ p ++ " succeeded") (FUnstakeAll true p)
| say_unstake_all_failed p : has_space p = false ->
    says ("Unstaking all at @" ++ p ++ " has failed") (FUnstakeAll false p)
| say_enabled t : says ("Transfers were successfully enabled at " ++ dec t) (FEnabled t)
| say_not_enabled : says "The transfers are not enabled yet" FNotEnabled
| say_total x : says ("The current total balance on the staking pool is " ++ dec x) (FTotal x)
| say_nothing_unstaked : says "No unstaked balance on the staking pool to withdraw" FNothingUnstaked
| say_terminating x : says ("Terminating vesting. The remaining unvested balance is " ++ dec x) (FTerminating x)
| say_going_to_unstake : says "Termination Step: Going to unstake everything from the staking pool" FGoingToUnstake
| say_going_to_withdraw : says "Termination Step: Going to withdraw everything from the staking pool" FGoingToWithdraw
| say_paying x r : has_space r = false ->
    says ("Termination Step: Withdrawing " ++ dec x ++ " of terminated unvested balance to account @" ++ r) (FPaying x r)
| say_t_unstaking x p : has_space p = false ->
    says ("Termination Step: Unstaking " ++ dec x ++ " from the staking pool @" ++ p) (FTUnstaking x p)
| say_t_nothing_staked : says "Termination Step: Nothing to unstake. Moving to the next status." FTNothingStaked
| say_t_unstake_ok x p : has_space p = false ->
    says ("Termination Step: Unstaking of " ++ dec x ++ " at @" ++ p ++ " succeeded") (FTUnstake true x p)
| say_t_unstake_failed x p : has_space p = false ->
    says ("Termination Step: Unstaking " ++ dec x ++ " at @" ++ p ++ " has failed") (FTUnstake false x p)
| say_t_withdrawing x p : has_space p = false ->
    says ("Termination Step: Withdrawing " ++ dec x ++ " from the staking pool @" ++ p) (FTWithdrawing x p)
| say_t_nothing_unstaked :
    says "Termination Step: Nothing to withdraw from the staking pool. Ready to withdraw from the account."
      FTNothingUnstaked
| say_t_withdrawal_ok x p : has_space p = false ->
    says ("Termination Step: The withdrawal of " ++ dec x ++ " from @" ++ p ++ " succeeded") (FTWithdrawal true x p)
| say_t_withdrawal_failed x p : has_space p = false ->
    says ("Termination Step: The withdrawal of " ++ dec x ++ " from @" ++ p ++ " failed") (FTWithdrawal false x p)
| say_payment_ok x r : has_space r = false ->
    says ("Termination Step: The withdrawal of the terminated unvested amount of " ++ dec x ++ " to @" ++ r ++
          " succeeded.") (FPayment true x r)
| say_payment_failed x r : has_space r = false ->
    says ("Termination Step: The withdrawal of the terminated unvested amount of " ++ dec x ++ " to @" ++ r ++
          " failed") (FPayment false x r)
| say_remaining x :
    says ("Termination Step: There is still terminated unvested balance of " ++ dec x ++ " remaining to be withdrawn")
      (FRemaining x)
| say_no_more : says "The withdrawal is completed: no more balance can be withdrawn in a future call" FNoMoreBalance
| say_completed : says "Vesting schedule termination and withdrawal are completed" FCompleted.

(** An operation with the staking pool that was announced and has not been reported. *)
Inductive operation :=
| ODeposit (x : N) (p : account_id)
| ODepositAndStake (x : N) (p : account_id)
| OFetch (p : account_id)
| OWithdraw (x : N) (p : account_id)
| OQuery (p : account_id)
| OStake (x : N) (p : account_id)
| OUnstake (x : N) (p : account_id)
| OUnstakeAll (p : account_id)
| OTQueryStaked
| OTUnstake (x : N) (p : account_id)
| OTQueryUnstaked
| OTWithdraw (x : N) (p : account_id).

(** How far a termination is. The first line does not say whether the account is short of tokens. *)
Inductive stage :=
| SAnnounced
| SDeficit
| SUnstaking
| SUnstaked
| SWithdrawing
| SReady
| SPaying (x : N) (r : account_id)
| SPaid (x : N).

(** The bookkeeper's notes. *)
Record notes := mkNotes {
  n_known : N;                       (** the known deposit at the staking pool *)
  n_op : option operation;           (** the operation under way *)
  n_pool : option account_id;        (** the staking pool, if a line named it since the last unselection *)
  n_enabled : option N;              (** since when transfers are enabled *)
  n_term : option (N * stage);       (** the unvested balance to be withdrawn, and how far the termination is *)
  n_taken : N;                       (** unvested tokens withdrawn so far *)
  n_foundation : bool;               (** the foundation may still terminate *)
  n_sent : account_id -> N           (** tokens sent so far to each account *)
}.
Definition set_n_known (x : N) (n : notes) : notes :=
  mkNotes x (n_op n) (n_pool n) (n_enabled n) (n_term n) (n_taken n) (n_foundation n) (n_sent n).
Definition set_n_op (o : option operation) (n : notes) : notes :=
  mkNotes (n_known n) o (n_pool n) (n_enabled n) (n_term n) (n_taken n) (n_foundation n) (n_sent n).
Definition set_n_pool (p : option account_id) (n : notes) : notes :=
  mkNotes (n_known n) (n_op n) p (n_enabled n) (n_term n) (n_taken n) (n_foundation n) (n_sent n).
Definition set_n_enabled (t : option N) (n : notes) : notes :=
  mkNotes (n_known n) (n_op n) (n_pool n) t (n_term n) (n_taken n) (n_foundation n) (n_sent n).
Definition set_n_term (t : option (N * stage)) (n : notes) : notes :=
  mkNotes (n_known n) (n_op n) (n_pool n) (n_enabled n) t (n_taken n) (n_foundation n) (n_sent n).
Definition set_n_taken (x : N) (n : notes) : notes :=
  mkNotes (n_known n) (n_op n) (n_pool n) (n_enabled n) (n_term n) x (n_foundation n) (n_sent n).
Definition set_n_foundation (b : bool) (n : notes) : notes :=
  mkNotes (n_known n) (n_op n) (n_pool n) (n_enabled n) (n_term n) (n_taken n) b (n_sent n).
Definition set_n_sent (f : account_id -> N) (n : notes) : notes :=
  mkNotes (n_known n) (n_op n) (n_pool n) (n_enabled n) (n_term n) (n_taken n) (n_foundation n) f.

Definition note := notes -> option notes.
Definition next (k : option notes) (f : note) : option notes := match k with Some n => f n | None => None end.
Notation "f >> g" := (fun n => next (f n) g) (at level 58, left associativity).
Definition fits (b : notes -> bool) : note := fun n => if b n then Some n else None.
Definition sets (f : notes -> notes) : note := fun n => Some (f n).

(** [p] is the pool, as far as lines told; from now on it is told. *)
Definition names (p : account_id) : note := fun n =>
  match n_pool n with
  | Some q => if String.eqb p q then Some n else None
  | None => Some (set_n_pool (Some p) n)
  end.
Definition is_none {A} (o : option A) : bool := match o with None => true | Some _ => false end.
(** The owner begins an operation: none is under way, and the vesting is not being terminated. *)
Definition begins (o : operation) : note :=
  fits (fun n => is_none (n_op n) && is_none (n_term n)) >> sets (set_n_op (Some o)).
(** The operation under way is [o]; it is over, or goes on as [o']. *)
Definition under_way (o : operation) : notes -> bool := fun n =>
  match n_op n, o with
  | Some (ODeposit x p), ODeposit x' p' | Some (ODepositAndStake x p), ODepositAndStake x' p'
  | Some (OWithdraw x p), OWithdraw x' p' | Some (OStake x p), OStake x' p' | Some (OUnstake x p), OUnstake x' p'
  | Some (OTUnstake x p), OTUnstake x' p' | Some (OTWithdraw x p), OTWithdraw x' p' => (x =? x') && String.eqb p p'
  | Some (OFetch p), OFetch p' | Some (OQuery p), OQuery p' | Some (OUnstakeAll p), OUnstakeAll p' => String.eqb p p'
  | Some OTQueryStaked, OTQueryStaked | Some OTQueryUnstaked, OTQueryUnstaked => true
  | _, _ => false
  end.
Definition ends (o : operation) : note := fits (under_way o) >> sets (set_n_op None).
Definition goes_on (o o' : operation) : note := fits (under_way o) >> sets (set_n_op (Some o')).
Definition known (f : N -> N) : note := fun n => Some (set_n_known (f (n_known n)) n).
(** The termination goes from one of the stages [from] to [to]. *)
Definition same_stage (a b : stage) : bool :=
  match a, b with
  | SAnnounced, SAnnounced | SDeficit, SDeficit | SUnstaking, SUnstaking | SUnstaked, SUnstaked
  | SWithdrawing, SWithdrawing | SReady, SReady => true
  | SPaying x r, SPaying x' r' => (x =? x') && String.eqb r r'
  | SPaid x, SPaid x' => x =? x'
  | _, _ => false
  end.
Definition moves (from : list stage) (to : stage) : note := fun n =>
  match n_term n with
  | Some (u, st) => if existsb (same_stage st) from then Some (set_n_term (Some (u, to)) n) else None
  | None => None
  end.
Definition sends (x : N) (r : account_id) : note := fun n =>
  Some (set_n_sent (fun a => if String.eqb r a then n_sent n a + x else n_sent n a) n).

Definition note_fact (f : fact) : note :=
  match f with
  | FSelecting p => fits (fun n => is_none (n_pool n) && is_none (n_op n) && is_none (n_term n) && (n_known n =? 0))
  | FUnselected p =>
      names p >> fits (fun n => is_none (n_op n) && is_none (n_term n) && (n_known n =? 0)) >> sets (set_n_pool None)
  | FDepositing x p => fits (fun _ => 0 <? x) >> names p >> begins (ODeposit x p)
  | FDepositingAndStaking x p => fits (fun _ => 0 <? x) >> names p >> begins (ODepositAndStake x p)
  | FFetching p => names p >> begins (OFetch p)
  | FWithdrawing x p => fits (fun _ => 0 <? x) >> names p >>
      (fun n => if under_way (OQuery p) n then goes_on (OQuery p) (OWithdraw x p) n else begins (OWithdraw x p) n)
  | FQuerying p => names p >> begins (OQuery p)
  | FStaking x p => fits (fun _ => 0 <? x) >> names p >> begins (OStake x p)
  | FUnstaking x p => fits (fun _ => 0 <? x) >> names p >> begins (OUnstake x p)
  | FUnstakingAll p => names p >> begins (OUnstakeAll p)
  | FChecking _ => fits (fun n => is_none (n_enabled n) && is_none (n_term n))
  | FTransferring x r =>
      fits (fun n => (0 <? x) && negb (is_none (n_enabled n)) && is_none (n_op n) && is_none (n_term n)) >> sends x r
  | FAddingKey => fits (fun n => negb (is_none (n_enabled n)) && is_none (n_op n) && is_none (n_term n))
  | FDeposit ok x p => ends (ODeposit x p) >> (if ok then known (fun d => d + x) else sets (fun n => n))
  | FDepositAndStake ok x p => ends (ODepositAndStake x p) >> (if ok then known (fun d => d + x) else sets (fun n => n))
  | FWithdrawal ok x p => ends (OWithdraw x p) >> (if ok then known (fun d => d - x) else sets (fun n => n))
  | FStake _ x p => ends (OStake x p)
  | FUnstake _ x p => ends (OUnstake x p)
  | FUnstakeAll _ p => ends (OUnstakeAll p)
  | FEnabled t => fits (fun n => is_none (n_enabled n)) >> sets (set_n_enabled (Some t))
  | FNotEnabled => fits (fun n => is_none (n_enabled n))
  | FTotal x => (fun n => match n_op n with Some (OFetch p) => ends (OFetch p) n | _ => None end) >> known (fun _ => x)
  | FNothingUnstaked => fun n => match n_op n with Some (OQuery p) => ends (OQuery p) n | _ => None end
  | FTerminating x => fits (fun n => (0 <? x) && n_foundation n && is_none (n_term n) && (n_taken n =? 0)) >>
      sets (set_n_term (Some (x, SAnnounced)))
  | FGoingToUnstake => moves [SAnnounced; SDeficit] SUnstaking >> fits (fun n => is_none (n_op n)) >>
      sets (set_n_op (Some OTQueryStaked))
  | FTUnstaking x p => fits (fun _ => 0 <? x) >> names p >> goes_on OTQueryStaked (OTUnstake x p)
  | FTNothingStaked => moves [SUnstaking] SUnstaked >> ends OTQueryStaked
  | FTUnstake ok x p => moves [SUnstaking] (if ok then SUnstaked else SDeficit) >> ends (OTUnstake x p)
  | FGoingToWithdraw => moves [SUnstaked] SWithdrawing >> fits (fun n => is_none (n_op n)) >>
      sets (set_n_op (Some OTQueryUnstaked))
  | FTWithdrawing x p => fits (fun _ => 0 <? x) >> names p >> goes_on OTQueryUnstaked (OTWithdraw x p)
  | FTNothingUnstaked => moves [SWithdrawing] SReady >> ends OTQueryUnstaked
  | FTWithdrawal ok x p => moves [SWithdrawing] (if ok then SReady else SUnstaked) >> ends (OTWithdraw x p) >>
      (if ok then known (fun d => d - x) else sets (fun n => n))
  | FPaying x r => fits (fun n => 0 <? x) >> moves [SAnnounced; SReady] (SPaying x r) >>
      fits (fun n => match n_term n with Some (u, _) => x <=? u | None => false end) >> sends x r
  | FPayment true x r => moves [SPaying x r] (SPaid x) >> sets (fun n => set_n_taken (n_taken n + x) n)
  | FPayment false x r => moves [SPaying x r] SReady
  | FRemaining y => fun n =>
      match n_term n with
      | Some (u, SPaid x) => if (0 <? y) && (u =? x + y) then Some (set_n_term (Some (y, SReady)) n) else None
      | _ => None
      end
  | FNoMoreBalance => fits (fun n => match n_term n with Some (_, SReady) => true | _ => false end)
  | FCompleted => fun n =>
      match n_term n with
      | Some (u, SPaid x) => if u =? x then Some (set_n_foundation false (set_n_term None n)) else None
      | _ => None
      end
  end.
Fixpoint note_facts (n : notes) (l : list fact) : option notes :=
  match l with
  | [] => Some n
  | f :: r => next (note_fact f n) (fun n' => note_facts n' r)
  end.

(** The notes before the first line: what [new] was given. *)
Definition blank (w : world) : notes :=
  mkNotes 0 None None
    (match transfers_information (lockup_information (w_lockup w)) with TransfersEnabled t => Some t | _ => None end)
    None 0 (negb (is_none (foundation_account_id (w_lockup w)))) (fun _ => 0).

(** What the notes tell about a lockup. *)
Definition tells_status (st : stage) (t : termination_status) : Prop :=
  match st, t with
  | SAnnounced, VestingTerminatedWithDeficit | SAnnounced, ReadyToWithdraw => True
  | SDeficit, VestingTerminatedWithDeficit => True
  | SUnstaking, UnstakingInProgress => True
  | SUnstaked, EverythingUnstaked => True
  | SWithdrawing, WithdrawingFromStakingPoolInProgress => True
  | SReady, ReadyToWithdraw => True
  | SPaying _ _, WithdrawingFromAccountInProgress => True
  | _, _ => False
  end.
Record tells (n : notes) (s : contract) : Prop := mkTells {
  tl_known : n_known n = get_known_deposited_balance s;
  tl_busy : is_none (n_op n) = negb (busy s);
  tl_pool : forall p, n_pool n = Some p -> get_staking_pool_account_id s = Some p;
  tl_enabled : n_enabled n = match transfers_information (lockup_information s) with
                             | TransfersEnabled t => Some t
                             | TransfersDisabled _ => None
                             end;
  tl_term : match n_term n with
            | Some (u, st) => u = get_terminated_unvested_balance s /\
                              exists t, get_termination_status s = Some t /\ tells_status st t
            | None => get_termination_status s = None
            end;
  tl_taken : n_taken n = termination_withdrawn_tokens (lockup_information s);
  tl_foundation : n_foundation n = negb (is_none (foundation_account_id s))
}.

(** The lines of a history: those of the accepted calls and callbacks. *)
Definition run_log (g : genesis) (w : world) (who : account_id) (attached : N) (results : list (option answer))
    (m : call) : list string :=
  match fst (run g w who attached results m),
        exec_l (mkCtx (g_self g) who attached (w_time w) (w_balance w + attached) results (g_hash g)) (w_lockup w) m with
  | Some _, Ok (_, _, l) => l
  | _, _ => []
  end.
Definition step_log (g : genesis) (w : world) (ev : event) : list string :=
  match ev with
  | ECall who attached m => if String.eqb who (g_self g) then [] else run_log g w who attached [] m
  | ERun n =>
      match nth_error (w_msgs w) n with
      | Some (MBack m r) =>
          run_log g (mkWorld (w_lockup w) (w_balance w) (w_time w) (w_pools w) (drop_nth n (w_msgs w)))
            (g_self g) 0 [r] m
      | _ => []
      end
  | _ => []
  end.
Fixpoint lockup_log (g : genesis) (w : world) (evs : list event) : list string :=
  match evs with [] => [] | ev :: r => step_log g w ev ++ lockup_log g (step g w ev) r end%list.

(** Tokens the lockup sent to [a]: transfers of the owner and withdrawals of the foundation. *)
Definition sent_to (a : account_id) (l : list obs) : N :=
  total (fun b => match b with BSent (RTransfer r x) => if String.eqb r a then x else 0 | _ => 0 end) l.

(** * One call *)
(** The line for a request: what is asked, and which callback is waiting for it. *)
Definition announces (r : remote) (cb : option call) : option fact :=
  match r, cb with
  | RIsWhitelisted _ p, _ => Some (FSelecting p)
  | RGetResult poll, _ => Some (FChecking poll)
  | RTransfer r x, None => Some (FTransferring x r)
  | RTransfer r x, Some _ => Some (FPaying x r)
  | RAddFullAccessKey _, _ => Some FAddingKey
  | RPool p (PDeposit x), _ => Some (FDepositing x p)
  | RPool p (PDepositAndStake x), _ => Some (FDepositingAndStaking x p)
  | RPool p (PStake x), _ => Some (FStaking x p)
  | RPool p PUnstakeAll, _ => Some (FUnstakingAll p)
  | RPool p PGetTotal, _ => Some (FFetching p)
  | RPool p (PWithdraw x), Some (OnStakingPoolWithdraw _) => Some (FWithdrawing x p)
  | RPool p (PWithdraw x), Some (OnStakingPoolWithdrawForTermination _) => Some (FTWithdrawing x p)
  | RPool p (PUnstake x), Some (OnStakingPoolUnstake _) => Some (FUnstaking x p)
  | RPool p (PUnstake x), Some (OnStakingPoolUnstakeForTermination _) => Some (FTUnstaking x p)
  | RPool p PGetUnstaked, Some OnGetAccountUnstakedBalanceToWithdrawByOwner => Some (FQuerying p)
  | RPool p PGetUnstaked, Some OnGetAccountUnstakedBalanceToWithdraw => Some FGoingToWithdraw
  | RPool p PGetStaked, Some OnGetAccountStakedBalanceToUnstake => Some FGoingToUnstake
  | _, _ => None
  end.
(** The lines of a call that asks for nothing more: what the callback was told ([ok]: the request succeeded), at
    which pool, and what is left. *)
Definition reports (c : ctx) (s : contract) (m : call) (s' : contract) : list fact :=
  let p := match get_staking_pool_account_id s with Some p => p | None => "" end in
  let ok := match ctx_results c with [Some _] => true | _ => false end in
  match m with
  | UnselectStakingPool => [FUnselected p]
  | TerminateVesting _ => [FTerminating (get_terminated_unvested_balance s')]
  | OnStakingPoolDeposit x => [FDeposit ok x p]
  | OnStakingPoolDepositAndStake x => [FDepositAndStake ok x p]
  | OnStakingPoolWithdraw x => [FWithdrawal ok x p]
  | OnStakingPoolStake x => [FStake ok x p]
  | OnStakingPoolUnstake x => [FUnstake ok x p]
  | OnStakingPoolUnstakeAll => [FUnstakeAll ok p]
  | OnGetResultFromTransferPoll =>
      match ctx_results c with Some (APollResult (Some t)) :: _ => [FEnabled t] | _ => [FNotEnabled] end
  | OnGetAccountTotalBalance => match ctx_results c with Some (ABalance x) :: _ => [FTotal x] | _ => [] end
  | OnGetAccountUnstakedBalanceToWithdrawByOwner => [FNothingUnstaked]
  | OnGetAccountStakedBalanceToUnstake => [FTNothingStaked]
  | OnStakingPoolUnstakeForTermination x => [FTUnstake ok x p]
  | OnGetAccountUnstakedBalanceToWithdraw => [FTNothingUnstaked]
  | OnStakingPoolWithdrawForTermination x => [FTWithdrawal ok x p]
  | OnWithdrawUnvestedAmount x r =>
      FPayment ok x r ::
      if ok then match get_termination_status s' with
                 | Some _ => FRemaining (get_terminated_unvested_balance s') ::
                             if ctx_balance c <=? MIN_BALANCE_FOR_STORAGE then [FNoMoreBalance] else []
                 | None => [FCompleted]
                 end
      else []
  | _ => []
  end.
(** The names a call may write down have no space. *)
Definition plain_names (s : contract) (m : call) : Prop :=
  (forall p, get_staking_pool_account_id s = Some p -> has_space p = false) /\
  (forall p, transfers_information (lockup_information s) = TransfersDisabled p -> has_space p = false) /\
  match m with OnWithdrawUnvestedAmount _ r => has_space r = false | _ => True end.
