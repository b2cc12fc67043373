(** The property of the staking pool's arithmetic as a whole (C95). *)
From Coq Require Import NArith List Bool String Lia.
From Verif Require Import Prelude StakingPoolModel StakingPoolSpec StakingPoolDemo StakingPoolBook
  StakingPoolBookProofs.
Import ListNotations.
Open Scope string_scope.
Open Scope N_scope.

(** One call, after any history: the contract refuses it exactly when the book does, and otherwise
    makes the promises of the book and ends up with the book's numbers, to the last yoctoNEAR. *)
Theorem C95_every_call_by_the_book :
  forall self w0 evs who attached locked results m,
  initial self w0 -> within_limits self w0 evs -> 1000000000000 < w_total w0 ->
  let w := final self w0 evs in
  w_total w + attached + 1 < U128_BOUND -> locked <= w_total w -> w_epoch w + 4 < U64_BOUND ->
  agrees w attached (step self w (EvCall who attached locked results m))
    (play self who attached (w_total w) locked (w_epoch w) results m (read (w_pool w))).
Proof. exact pool_keeps_its_book. Qed.
Print Assumptions C95_every_call_by_the_book.

(** Whole histories: the answers of the contract are the answers of the book, kept from the first
    day on without looking at the contract again, and the last page is the contract's state. *)
Theorem C95_every_history_by_the_book :
  forall self w0 evs,
  initial self w0 -> 1000000000000 < w_total w0 ->
  stake_calls (history self w0 evs) <= 1000000000000 -> Forall modest (history self w0 evs) ->
  let w := final self w0 evs in
  let l := snd (play_all self (open_ledger w0) evs) in
  map en_promises (history self w0 evs) = fst (play_all self (open_ledger w0) evs) /\
  same (read (w_pool w)) (l_book l) /\ w_total w = l_total l /\ w_epoch w = l_epoch l.
Proof. exact pool_plays_its_book. Qed.
Print Assumptions C95_every_history_by_the_book.

(** Beside them: the concrete history of the other properties of the pool, played by the book. The
    withdrawal of 1 yoctoNEAR right after unstaking is refused, the one four epochs later is paid. *)
Example C95_call_applies :
  initial demo_self demo0 /\ within_limits demo_self demo0 demo_evs /\
  1000000000000 < w_total demo0 /\
  (let w := final demo_self demo0 demo_evs in
   w_total w + 700 + 1 < U128_BOUND /\ w_epoch w + 4 < U64_BOUND /\
   option_map (fun '(b, ps) => (b_shares b "alice", b_staked b, ps))
     (play demo_self "alice" 700 (w_total w) 0 (w_epoch w) [] DepositAndStake (read (w_pool w)))
     = Some (1165628, 1101001000701, [PStake 1101001000701 "ed25519:key" true]) /\
   option_map snd
     (play demo_self "bob" 0 (w_total w) 0 (w_epoch w) [] (Stake 5) (read (w_pool w))) = None).
Proof.
  split; [exact demo_init|]. split; [exact demo_within|]. split; [reflexivity|].
  cbv zeta. split; [vm_compute; reflexivity|]. split; [vm_compute; reflexivity|].
  split; vm_compute; reflexivity.
Qed.

Definition modestb (en : entry) : bool :=
  match en_event en with
  | EvCall _ attached locked _ _ =>
      (w_total (en_before en) + attached + 1 <? U128_BOUND) &&
      (locked <=? w_total (en_before en)) && (w_epoch (en_before en) + 4 <? U64_BOUND)
  | _ => true
  end.
Lemma modestb_all h : forallb modestb h = true -> Forall modest h.
Proof.
  intros H. apply Forall_forall. intros en IN. rewrite forallb_forall in H. specialize (H _ IN).
  unfold modest, modestb in *. destruct (en_event en); auto. lia.
Qed.

Example C95_history_applies :
  initial demo_self demo0 /\ stake_calls (history demo_self demo0 demo_evs) <= 1000000000000 /\
  Forall modest (history demo_self demo0 demo_evs) /\
  fst (play_all demo_self (open_ledger demo0) demo_evs) =
    [Some []; Some [PStake 1000003000001 "ed25519:key" true];
     Some [PStake 1001003000001 "ed25519:key" true]; None; None;
     Some [PStake 1101003000001 "ed25519:key" true];
     Some [PStake 1101001000001 "ed25519:key" true]; None; None;
     Some [PTransfer "alice" 1999999; PStake 1101001000001 "ed25519:key" true]].
Proof.
  split; [exact demo_init|]. split; [vm_compute; congruence|]. split.
  - apply modestb_all. vm_compute. reflexivity.
  - vm_compute. reflexivity.
Qed.
