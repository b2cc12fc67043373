(** C115: the log of a lockup tells its books. *)
From Coq Require Import NArith List Bool String.
From Verif Require Import Prelude LockupModel LockupWorld LockupSpec LockupProps LockupLogModel LockupLogSpec LockupLogProofs LockupLogLines LockupLogWorld.
Import ListNotations.
Open Scope string_scope.
Open Scope N_scope.

(** The model with lines is the model of the other properties: every call has the same outcome in both. *)
Theorem C115_same_calls c s m :
  exec c s m = match exec_l c s m with Ok (s', pr, _) => Ok (s', pr) | Panic e => Panic e end.
Proof. exact (same_calls c s m). Qed.
Print Assumptions C115_same_calls.

(** A line can be read in one way only. *)
Theorem C115_unambiguous line f f' : says line f -> says line f' -> f = f'.
Proof. exact (says_inj line f f'). Qed.
Print Assumptions C115_unambiguous.

(** An accepted call that sends a request writes one line, which announces that request; one that sends none
    reports what its callback was told, or what it did. *)
Theorem C115_call_lines c s m s' pr l : plain_names s m -> exec_l c s m = Ok (s', pr, l) ->
  match pr with
  | Some q => exists f, announces (p_remote q) (option_map fst (p_then q)) = Some f /\ Forall2 says l [f]
  | None => Forall2 says l (reports c s m s')
  end.
Proof. exact (call_lines c s m s' pr l). Qed.
Print Assumptions C115_call_lines.
(** The states of [C115_call_lines] are the reachable ones, and the callbacks those that are due. *)
Theorem C115_reachable_names g w evs : starts g w ->
  (forall m, (forall x r, m <> OnWithdrawUnvestedAmount x r) -> plain_names (w_lockup (final g w evs)) m) /\
  (forall cb r, In (MBack cb r) (w_msgs (final g w evs)) -> plain_names (w_lockup (final g w evs)) cb).
Proof. exact (reachable_names g w evs). Qed.
Print Assumptions C115_reachable_names.

(** After any history, every line of the log can be read, and somebody who read nothing but the log, in order, found
    every line fitting the ones before, and knows the recorded deposit, whether an operation with the pool is under
    way, which pool was last dealt with, whether transfers are enabled and since when, how far a termination got and
    what it still owes, what the foundation has taken, and how much was sent to whom. *)
Theorem C115_log_tells_the_books g w evs : starts g w ->
  let lines := lockup_log g w evs in
  (exists facts, Forall2 says lines facts) /\
  forall facts, Forall2 says lines facts ->
    exists n, note_facts (blank w) facts = Some n /\ tells n (w_lockup (final g w evs)) /\
      forall a, n_sent n a = sent_to a (log g w evs).
Proof. exact (log_tells_the_books g w evs). Qed.
Print Assumptions C115_log_tells_the_books.

(** A vote, a stake with a reward, refused calls without a line, a failed transfer to the foundation, and a termination
    up to its end. *)
Definition told_life : list event :=
  (vote ++ staked ++
   [by_owner (DepositAndStake 0); ECall "thief.near" 0 UnstakeAll; by_owner (Transfer (6 * near) "friend.near");
    EDeliver 0 ODone; terminate; by_owner UnstakeAll] ++ fetched ++
   [by_foundation (TerminationWithdraw "found.near"); EDeliver 0 OFail; ERun 0; ERun 0] ++ paid_out)%list.
Example C115_example :
  starts gen w2 /\
  lockup_log gen w2 told_life =
    ["Checking that transfers are enabled at the transfer poll contract @vote.near";
     "The transfers are not enabled yet";
     "Checking that transfers are enabled at the transfer poll contract @vote.near";
     "Transfers were successfully enabled at 7";
     "Selecting staking pool @pool.near. Going to check whitelist first.";
     "Depositing and staking 90000000000000000000000000 to the staking pool @pool.near";
     "The deposit and stake of 90000000000000000000000000 to @pool.near succeeded";
     "Fetching total balance from the staking pool @pool.near";
     "The current total balance on the staking pool is 100000000000000000000000000";
     "Transferring 6000000000000000000000000 to account @friend.near";
     "Terminating vesting. The remaining unvested balance is 50000000000000000000000000";
     "Termination Step: Going to unstake everything from the staking pool";
     "Termination Step: Unstaking 100000000000000000000000000 from the staking pool @pool.near";
     "Termination Step: Unstaking of 100000000000000000000000000 at @pool.near succeeded";
     "Termination Step: Going to withdraw everything from the staking pool";
     "Termination Step: Withdrawing 100000000000000000000000000 from the staking pool @pool.near";
     "Termination Step: The withdrawal of 100000000000000000000000000 from @pool.near succeeded";
     "Termination Step: Withdrawing 50000000000000000000000000 of terminated unvested balance to account @found.near";
     "Termination Step: The withdrawal of the terminated unvested amount of 50000000000000000000000000 to @found.near failed";
     "Termination Step: Withdrawing 50000000000000000000000000 of terminated unvested balance to account @found.near";
     "Termination Step: The withdrawal of the terminated unvested amount of 50000000000000000000000000 to @found.near succeeded.";
     "Vesting schedule termination and withdrawal are completed"].
Proof. split; [exact starts_w2|reflexivity]. Qed.
(** What the reader of that log knows at the end. *)
Example C115_example_notes :
  exists facts n, Forall2 says (lockup_log gen w2 told_life) facts /\ note_facts (blank w2) facts = Some n /\
    n_known n = 0 /\ n_op n = None /\ n_enabled n = Some 7 /\ n_term n = None /\
    n_taken n = 50 * near /\ n_foundation n = false /\ n_sent n "friend.near" = 6 * near /\
    n_sent n "found.near" = 100 * near.
Proof.
  destruct (log_tells_the_books gen w2 told_life starts_w2) as [(facts & F) H].
  destruct (H facts F) as (n & N & [T1 T2 T3 T4 T5 T6 T7] & S). exists facts, n. split; [exact F|]. split; [exact N|].
  assert (E : w_lockup (final gen w2 told_life) =
    mkContract "owner.near" (mkLockup (100 * near) (50 * near) 15 (Some 40) None (TransfersEnabled 7)) VNone "white.near"
      (Some (mkStaking "pool.near" Idle 0)) None) by (vm_compute; reflexivity).
  rewrite E in *. rewrite T1, T4, T6, T7, !S.
  repeat split; try (vm_compute; reflexivity).
  - destruct (n_op n); [discriminate T2|reflexivity].
  - destruct (n_term n) as [[u st]|]; [|reflexivity]. destruct T5 as (_ & t & T5 & _). discriminate T5.
Qed.
(** A report of something that was not announced does not fit. *)
Example C115_misfit :
  note_facts (blank w2) [FSelecting "pool.near"; FDepositing 5 "pool.near"; FDeposit true 6 "pool.near"] = None /\
  note_facts (blank w2) [FTransferring 5 "friend.near"] = None /\
  note_facts (blank w2) [FTerminating 5; FPaying 6 "found.near"] = None.
Proof. repeat split. Qed.
