(** C122: what is locked follows the terms of the lockup. *)
From Coq Require Import NArith List Bool String.
From Verif Require Import Prelude LockupModel LockupWorld LockupSpec LockupTerms.
Import ListNotations.
Open Scope string_scope.
Open Scope N_scope.

(** C122. Two lockups are created with the same balance. If every moment in the terms of the second is no sooner than in
    those of the first (the lockup duration, the lockup timestamp, the time transfers were enabled, the release duration,
    the start, cliff and end of a public vesting schedule), then at every time it has locked at least as much. The end
    of the second one's release must be a 64-bit time. *)
Theorem C122_later_terms_lock_more :
  forall c c' o o' d d' t t' x x' v v' r r' l l' f f' s s' now,
  new c false o d t x v r l f = Ok s -> new c' false o' d' t' x' v' r' l' f' = Ok s' ->
  ctx_balance c = ctx_balance c' -> ctx_balance c < U128_BOUND -> u64_opt t -> u64_opt t' ->
  d <= d' -> opt_le t t' -> transfers_le x x' -> opt_le r r' -> vesting_le v v' ->
  vesting_sane v -> vesting_sane v' -> release_fits d' t' x' r' ->
  exists a a', get_locked_amount s now = Ok a /\ get_locked_amount s' now = Ok a' /\ a <= a'.
Proof. exact later_terms. Qed.
Print Assumptions C122_later_terms_lock_more.

(** C122. The same at any later point of their histories before a termination, as when the transfers of the one were
    enabled sooner by the vote. *)
Theorem C122_later_terms_any_state :
  forall s s' now, well_formed s -> well_formed s' ->
  let i := lockup_information s in let i' := lockup_information s' in
  lockup_amount i = lockup_amount i' -> termination_withdrawn_tokens i = 0 -> termination_withdrawn_tokens i' = 0 ->
  lockup_duration i <= lockup_duration i' -> opt_le (lockup_timestamp i) (lockup_timestamp i') ->
  opt_le (release_duration i) (release_duration i') -> transfers_le (transfers_information i) (transfers_information i') ->
  vesting_le (agreed s) (agreed s') ->
  release_fits (lockup_duration i') (lockup_timestamp i') (transfers_information i') (release_duration i') ->
  exists a a', get_locked_amount s now = Ok a /\ get_locked_amount s' now = Ok a' /\ a <= a'.
Proof. exact later_terms_any. Qed.
Print Assumptions C122_later_terms_any_state.

(** C122. With the same terms and more tokens, no less is locked and no less is free, at every time. *)
Theorem C122_more_tokens :
  forall c c' o o' d t x v r l f s s' now,
  new c false o d t x v r l f = Ok s -> new c' false o' d t x v r l f = Ok s' ->
  ctx_balance c <= ctx_balance c' -> ctx_balance c' < U128_BOUND -> u64_opt t -> vesting_sane v ->
  exists a a', get_locked_amount s now = Ok a /\ get_locked_amount s' now = Ok a' /\
    a <= a' /\ ctx_balance c - a <= ctx_balance c' - a' /\ a <= ctx_balance c.
Proof. exact more_tokens. Qed.
Print Assumptions C122_more_tokens.

(** Two lockups of 1000: the second has a longer lockup, transfers enabled later, a longer release and a later vesting
    schedule; what they have locked, at some times. And one of 2000 under the terms of the first. *)
Definition with_balance (n : N) : ctx := mkCtx "lock.near" "owner.near" 0 0 n [] (fun _ _ => "").
Definition one : res contract :=
  new (with_balance 1000) false "owner.near" 10 None (TransfersEnabled 5) (Some (ArgSchedule (mkSchedule 0 10 100)))
    (Some 40) "white.near" (Some "found.near").
Definition other : res contract :=
  new (with_balance 1000) false "owner.near" 20 (Some 30) (TransfersEnabled 15) (Some (ArgSchedule (mkSchedule 5 20 120)))
    (Some 60) "white.near" (Some "found.near").
Definition double : res contract :=
  new (with_balance 2000) false "owner.near" 10 None (TransfersEnabled 5) (Some (ArgSchedule (mkSchedule 0 10 100)))
    (Some 40) "white.near" (Some "found.near").
Definition locked_at (times : list N) (r : res contract) : list (res N) :=
  match r with Ok s => map (get_locked_amount s) times | Panic _ => [] end.
Example C122_applies :
  opt_le None (Some 30) /\ transfers_le (TransfersEnabled 5) (TransfersEnabled 15) /\ opt_le (Some 40) (Some 60) /\
  vesting_le (Some (ArgSchedule (mkSchedule 0 10 100))) (Some (ArgSchedule (mkSchedule 5 20 120))) /\
  vesting_sane (Some (ArgSchedule (mkSchedule 5 20 120))) /\ release_fits 20 (Some 30) (TransfersEnabled 15) (Some 60) /\
  locked_at [14; 15; 34; 35; 60; 99; 119; 120] one =
    map Ok [1000; 1000; 660; 650; 400; 10; 0; 0] /\
  locked_at [14; 15; 34; 35; 60; 99; 119; 120] other =
    map Ok [1000; 1000; 1000; 1000; 583; 182; 8; 0] /\
  locked_at [14; 15; 34; 35; 60; 99; 119; 120] double =
    map Ok [2000; 2000; 1320; 1300; 800; 20; 0; 0].
Proof. repeat split; vm_compute; try reflexivity; discriminate. Qed.

(** Why the end of the release must be a 64-bit time: past it the end is cut off but not the duration, and at the moment
    its lockup ends half of the lockup with the longer release is free, while nothing of the other one is. *)
Definition far : N := 9223372036854775808.
Definition with_release (d : N) : res contract :=
  new (with_balance 1000) false "owner.near" 0 None (TransfersEnabled far) None (Some d) "white.near" None.
Example C122_cut_off :
  far + (far - 1) < U64_BOUND /\ ~ release_fits 0 None (TransfersEnabled far) (Some (2 * far - 1)) /\
  locked_at [far] (with_release (far - 1)) = [Ok 1000] /\ locked_at [far] (with_release (2 * far - 1)) = [Ok 499].
Proof. repeat split; vm_compute; try reflexivity; discriminate. Qed.
