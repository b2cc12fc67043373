(** C114: the log of a staking pool tells its books. *)
From Coq Require Import NArith List Bool String.
From Verif Require Import Prelude StakingPoolModel StakingPoolSpec StakingPoolDemo PoolLogModel PoolLogSpec PoolLogProofs.
Import ListNotations.
Open Scope string_scope.
Open Scope N_scope.

(** The model with lines is the model of the other properties: every call has the same outcome in both. *)
Theorem C114_same_calls c p m :
  exec c p m = match exec_l c p m with Ok (p', ps, _) => Ok (p', ps) | Panic e => Panic e end.
Proof. exact (same_calls c p m). Qed.
Print Assumptions C114_same_calls.

(** A line can be read in one way only. *)
Theorem C114_unambiguous line f f' : says line f -> says line f' -> f = f'.
Proof. exact (says_inj line f f'). Qed.
Print Assumptions C114_unambiguous.

(** The lines of an accepted call: what they are about, whom they name and which epoch. *)
Theorem C114_call_lines c p m p' ps l :
  is_valid_account_id (ctx_predecessor c) = true -> exec_l c p m = Ok (p', ps, l) ->
  exists rewards action, Forall2 says l (rewards ++ action) /\
    rewards_part (ctx_epoch c) rewards /\ action_part (ctx_predecessor c) (ctx_attached c) m action /\
    (silent_call m = true \/ last_epoch_height p = ctx_epoch c -> rewards = []).
Proof. exact (call_lines c p m p' ps l). Qed.
Print Assumptions C114_call_lines.

(** After any history, every line of the log can be read, and somebody who read nothing but the log, in order, found
    every line fitting the ones before, and knows every balance and every share, what everybody paid in and was
    paid, and the totals of the pool. *)
Theorem C114_log_tells_the_books self w0 evs : initial self w0 -> callers_valid evs ->
  let log := pool_log self w0 evs in
  let p := w_pool (final self w0 evs) in
  let h := history self w0 evs in
  (exists facts, Forall2 says log facts) /\
  forall facts, Forall2 says log facts ->
    exists n, note_facts (owner_id (w_pool w0)) (blank w0) facts = Some n /\
      (forall a, n_unstaked n a = unstaked (internal_get_account p a) /\
                 n_shares_of n a = stake_shares (internal_get_account p a) /\
                 n_in n a = deposited a h /\ n_out n a = paid a h) /\
      n_staked n = total_staked_balance p /\ n_shares n = total_stake_shares p.
Proof. exact (log_tells_the_books self w0 evs). Qed.
Print Assumptions C114_log_tells_the_books.

(** Deposits, stakes, rewards with a fee, an unstake, and a withdrawal after one that is refused and leaves no line. *)
Example C114_example :
  initial demo_self demo0 /\ callers_valid demo_evs /\
  pool_log demo_self demo0 demo_evs =
    ["@alice deposited 5000000. New unstaked balance is 5000000";
     "@alice staking 3000001. Received 3000001 new staking shares. Total 1999999 unstaked balance and 3000001 staking shares";
     "Contract total staked balance is 1000003000001. Total number of shares 1000003000001";
     "@bob deposited 1000000000. New unstaked balance is 1000000000";
     "@bob staking 1000000000. Received 1000000000 new staking shares. Total 0 unstaked balance and 1000000000 staking shares";
     "Contract total staked balance is 1001003000001. Total number of shares 1001003000001";
     "Epoch 11: Contract received total rewards of 100000000000 tokens. New total staked balance is 1101003000001. Total number of shares 1010178071013";
     "Total rewards fee is 9175071012 stake shares.";
     "@alice unstaking 2000001. Spent 1835015 staking shares. Total 4000000 unstaked balance and 1164986 staking shares";
     "Contract total staked balance is 1101001000001. Total number of shares 1010176235998";
     "@alice withdrawing 1999999. New unstaked balance is 2000001"].
Proof.
  split; [exact demo_init|]. split; [unfold callers_valid, demo_evs; repeat constructor|vm_compute; reflexivity].
Qed.

(** A bookkeeper stops at a line that does not fit. *)
Example C114_misfit :
  note_facts "owner" (blank demo0) [FDeposit "alice" 5 5; FWithdraw "alice" 2 2] = None /\
  (exists n, note_facts "owner" (blank demo0) [FDeposit "alice" 5 5; FWithdraw "alice" 2 3] = Some n /\ n_out n "alice" = 2).
Proof. split; [reflexivity|]. eexists. split; reflexivity. Qed.
