(** C111: what a call of the lockup is answered tells what has happened. [evs] is an arbitrary list of events, as in
    LockupProps. *)
From Coq Require Import NArith List Bool String.
From Verif Require Import Prelude LockupModel LockupWorld LockupSpec LockupProps LockupBookProps LockupAnswersSpec
  LockupAnswersProofs.
Import ListNotations.
Open Scope string_scope.
Open Scope N_scope.

(** Writing down who waits for what changes nothing. *)
Theorem C111_same_history :
  forall g w evs, t_world (tracked_to g (begin w) evs) = final g w evs.
Proof. exact (fun g w evs => tracked_world g (begin w) evs). Qed.
Print Assumptions C111_same_history.

(** C111. Whenever a caller sees an answer, it is an answer to one call, and it says truly what that call has led to
    at the receivers of its requests and in the lockup. *)
Theorem C111_answers_are_true :
  forall g w evs ev, starts g w -> forall k a,
  In (NAnswer k a) (snd (track g (tracked_to g (begin w) evs) ev)) ->
  exists who m, calls_of k (notes g (begin w) (evs ++ [ev])) = [(who, m)] /\
    tells m a (requests_of k (notes g (begin w) (evs ++ [ev])))
      (w_lockup (final g w evs)) (w_lockup (final g w (evs ++ [ev]))).
Proof. exact answers_tell. Qed.
Print Assumptions C111_answers_are_true.

(** Every call is answered at most once. While it is not, exactly one message in flight leads on to its answer; once
    it is, nothing is in flight for it but tokens. *)
Theorem C111_answered_once :
  forall g w evs, starts g w -> forall k, (k < t_next (tracked_to g (begin w) evs))%nat ->
  exists who m, calls_of k (notes g (begin w) evs) = [(who, m)] /\
    ((exists a, answers_of k (notes g (begin w) evs) = [a]) /\ open_for k (tracked_to g (begin w) evs) = [] \/
     answers_of k (notes g (begin w) evs) = [] /\
     exists msg, open_for k (tracked_to g (begin w) evs) = [msg] /\
       waits_for m (requests_of k (notes g (begin w) evs)) msg).
Proof. exact answers_once. Qed.
Print Assumptions C111_answered_once.

(** The life of C96 and, after it, a deposit that the pool refuses, a transfer whose receiver does not exist and a
    transfer still on its way; the fifteen calls and their answers. *)
Definition answered_calls (l : list note) : list (nat * seen) :=
  flat_map (fun n => match n with NAnswer k a => [(k, a)] | _ => [] end) l.
Definition later : list event :=
  (life ++ [ETime 90; by_owner (DepositToStakingPool near); by_owner (Transfer near "friend.near");
            EDeliver 0 OFail; ERun 1; ERun 0; by_owner (Transfer near "friend.near"); EDeliver 0 OFail; ERun 0;
            by_owner (Transfer near "friend.near")])%list.
Example C111_applies :
  starts gen w1 /\
  answered_calls (notes gen (begin w1) later) =
    [(0, SBool true); (1, SBool true); (2, SNothing); (3, SFailed); (4, SFailed); (5, SFailed); (6, SNothing);
     (7, SFailed); (8, SBool true); (9, SBool true); (10, SBool true); (12, SFailed); (11, SBool false);
     (13, SFailed)]%nat /\
  calls_of 8 (notes gen (begin w1) later) = [("found.near", TerminationPrepareToWithdraw)] /\
  requests_of 8 (notes gen (begin w1) later) =
    [(RPool "pool.near" PGetStaked, Some (ABalance (100 * near)));
     (RPool "pool.near" (PUnstake (100 * near)), Some AVoid)] /\
  requests_of 11 (notes gen (begin w1) later) = [(RPool "pool.near" (PDeposit near), None)] /\
  t_next (tracked_to gen (begin w1) later) = 15%nat /\
  open_for 14 (tracked_to gen (begin w1) later) = [MCall (RTransfer "friend.near" near) None].
Proof. split; [exact starts_w1|]. vm_compute. auto 10. Qed.
