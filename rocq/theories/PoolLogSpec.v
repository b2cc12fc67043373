(** Reading the log of a staking pool.

    Specification: what each kind of line says, and a bookkeeper who sees only the lines, notes what they say, and
    stops at the first line that does not fit the notes. *)
From Coq Require Import NArith List Bool String Ascii.
From Verif Require Import Prelude StakingPoolModel StakingPoolSpec PoolLogModel.
From Verif Require JsonModel.
Import ListNotations.
Open Scope string_scope.
Open Scope N_scope.

(** What a line says. *)
Inductive fact :=
| FDeposit (a : account_id) (amount unstaked : N)
| FWithdraw (a : account_id) (amount unstaked : N)
| FStake (a : account_id) (amount shares unstaked total_shares : N)
| FUnstake (a : account_id) (amount shares unstaked total_shares : N)
| FTotals (staked shares : N)
| FReward (epoch reward staked shares : N)
| FFee (shares : N).

(** A name in a line is a word: it has no space. *)
Fixpoint has_space (s : string) : bool :=
  match s with
  | EmptyString => false
  | String c r => Ascii.eqb c " "%char || has_space r
  end.

(** [says line f]: [line] is the sentence for [f]. Numbers are decimal numerals without leading zeros. *)
Definition dec (n : N) : string := JsonModel.decimal n.
Inductive says : string -> fact -> Prop :=
| say_deposit a x u : has_space a = false ->
    says ("@" ++ a ++ " deposited " ++ dec x ++ ". New unstaked balance is " ++ dec u) (FDeposit a x u)
| say_withdraw a x u : has_space a = false ->
    says ("@" ++ a ++ " withdrawing " ++ dec x ++ ". New unstaked balance is " ++ dec u) (FWithdraw a x u)
| say_stake a x n u s : has_space a = false ->
    says ("@" ++ a ++ " staking " ++ dec x ++ ". Received " ++ dec n ++ " new staking shares. Total " ++ dec u ++
          " unstaked balance and " ++ dec s ++ " staking shares") (FStake a x n u s)
| say_unstake a x n u s : has_space a = false ->
    says ("@" ++ a ++ " unstaking " ++ dec x ++ ". Spent " ++ dec n ++ " staking shares. Total " ++ dec u ++
          " unstaked balance and " ++ dec s ++ " staking shares") (FUnstake a x n u s)
| say_totals t s :
    says ("Contract total staked balance is " ++ dec t ++ ". Total number of shares " ++ dec s) (FTotals t s)
| say_reward e r t s :
    says ("Epoch " ++ dec e ++ ": Contract received total rewards of " ++ dec r ++
          " tokens. New total staked balance is " ++ dec t ++ ". Total number of shares " ++ dec s) (FReward e r t s)
| say_fee n : says ("Total rewards fee is " ++ dec n ++ " stake shares.") (FFee n).

(** The bookkeeper's notes. *)
Record notes := mkNotes {
  n_unstaked : account_id -> N;     (** unstaked balances *)
  n_shares_of : account_id -> N;    (** shares of accounts *)
  n_in : account_id -> N;           (** deposited so far *)
  n_out : account_id -> N;          (** withdrawn so far *)
  n_staked : N;                     (** total staked balance *)
  n_shares : N;                     (** total number of shares *)
  n_epoch : N;                      (** the epoch of the last rewards *)
  n_fee : N                         (** shares issued as a fee and not yet attributed *)
}.

Definition put (f : account_id -> N) (a : account_id) (x : N) : account_id -> N :=
  fun b => if String.eqb b a then x else f b.

(** One line: what it says has to fit. [owner]: the owner of the pool. *)
Definition note_fact (owner : account_id) (n : notes) (f : fact) : option notes :=
  let fits (b : bool) (n' : notes) := if b then Some n' else None in
  match f with
  | FDeposit a x u => fits (u =? n_unstaked n a + x)
      (mkNotes (put (n_unstaked n) a u) (n_shares_of n) (put (n_in n) a (n_in n a + x)) (n_out n)
         (n_staked n) (n_shares n) (n_epoch n) (n_fee n))
  | FWithdraw a x u => fits (n_unstaked n a =? u + x)
      (mkNotes (put (n_unstaked n) a u) (n_shares_of n) (n_in n) (put (n_out n) a (n_out n a + x))
         (n_staked n) (n_shares n) (n_epoch n) (n_fee n))
  | FStake a x k u s => fits ((n_unstaked n a =? u + x) && (s =? n_shares_of n a + k))
      (mkNotes (put (n_unstaked n) a u) (put (n_shares_of n) a s) (n_in n) (n_out n)
         (n_staked n) (n_shares n + k) (n_epoch n) (n_fee n))
  | FUnstake a x k u s => fits ((u =? n_unstaked n a + x) && (n_shares_of n a =? s + k) && (k <=? n_shares n))
      (mkNotes (put (n_unstaked n) a u) (put (n_shares_of n) a s) (n_in n) (n_out n)
         (n_staked n) (n_shares n - k) (n_epoch n) (n_fee n))
  | FTotals t s => fits (s =? n_shares n)
      (mkNotes (n_unstaked n) (n_shares_of n) (n_in n) (n_out n) t (n_shares n) (n_epoch n) (n_fee n))
  | FReward e r t s => fits ((n_epoch n <? e) && (0 <? r) && (t =? n_staked n + r) && (n_shares n <=? s))
      (mkNotes (n_unstaked n) (n_shares_of n) (n_in n) (n_out n) t s e (s - n_shares n))
  | FFee k => fits ((0 <? k) && (k =? n_fee n))
      (mkNotes (n_unstaked n) (put (n_shares_of n) owner (n_shares_of n owner + k)) (n_in n) (n_out n)
         (n_staked n) (n_shares n) (n_epoch n) 0)
  end.
Fixpoint note_facts (owner : account_id) (n : notes) (l : list fact) : option notes :=
  match l with
  | [] => Some n
  | f :: r => match note_fact owner n f with Some n' => note_facts owner n' r | None => None end
  end.

(** The notes before the first line: nobody has anything, and the pool is as [get_total_staked_balance] and the
    number of shares tell. *)
Definition blank (w : world) : notes :=
  mkNotes (fun _ => 0) (fun _ => 0) (fun _ => 0) (fun _ => 0)
    (total_staked_balance (w_pool w)) (total_stake_shares (w_pool w)) (w_epoch w) 0.

(** The lines of a history: those of the accepted calls. *)
Definition step_log (self : account_id) (w : world) (e : event) : list string :=
  match e with
  | EvCall who attached locked results m =>
      match snd (step self w e),
            exec_l (mkCtx self who attached (w_total w - locked + attached) locked (w_epoch w) results) (w_pool w) m with
      | Some _, Ok (_, _, l) => l
      | _, _ => []
      end
  | _ => []
  end.
Fixpoint pool_log (self : account_id) (w : world) (evs : list event) : list string :=
  match evs with [] => [] | e :: r => step_log self w e ++ pool_log self (fst (step self w e)) r end%list.

(** Every caller has a valid account name. *)
Definition callers_valid (evs : list event) : Prop :=
  Forall (fun e => match e with EvCall who _ _ _ _ => is_valid_account_id who = true | _ => True end) evs.

(** The lines of one accepted call of [who]: first those about rewards, at most once per epoch, then those about what
    the call does. *)
Definition rewards_part (epoch : N) (l : list fact) : Prop :=
  l = [] \/ (exists r t s, l = [FReward epoch r t s]) \/ (exists r t s k, l = [FReward epoch r t s; FFee k]).
Definition action_part (who : account_id) (attached : N) (m : call) (l : list fact) : Prop :=
  match m with
  | Deposit => exists u, l = [FDeposit who attached u]
  | DepositAndStake => exists u x k u' s t s', l = [FDeposit who attached u; FStake who x k u' s; FTotals t s']
  | WithdrawAll => exists x, l = [FWithdraw who x 0]
  | Withdraw x => exists u, l = [FWithdraw who x u]
  | StakeAll | Stake _ => exists x k u s t s', l = [FStake who x k u s; FTotals t s']
  | UnstakeAll | Unstake _ => exists x k u s t s', l = [FUnstake who x k u s; FTotals t s']
  | _ => l = []
  end.
Definition silent_call (m : call) : bool := match m with OnStakeAction | Vote _ _ => true | _ => false end.
