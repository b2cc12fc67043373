(** C125: nobody gains or loses by a ping just before a call. *)
From Coq Require Import NArith List Bool String.
From Verif Require Import Prelude StakingPoolModel StakingPoolSpec StakingPoolDemo StakingPoolPingFirst.
Import ListNotations.
Open Scope string_scope.
Open Scope N_scope.

(** C125. In any state somebody pings the pool, or does not, and then anybody makes any call but a vote or the callback. The
    call is accepted in both cases or in none. If accepted, the pool is in the same state, has paid the same and was asked
    to stake the same in the end. All tokens together must be a 128-bit number. *)
Theorem C125_ping_first_makes_no_difference :
  forall self w v l r w1 ps1 who att loc rs m,
  step self w (EvCall v 0 l r Ping) = (w1, Some ps1) -> w_total w + att < U128_BOUND -> distributes m = true ->
  match step self w (EvCall who att loc rs m), step self w1 (EvCall who att loc rs m) with
  | (w2, Some ps2), (w3, Some ps3) => w3 = w2 /\ payments ps3 = payments ps2 /\ last_stake (ps1 ++ ps3) = last_stake ps2
  | (_, None), (_, None) => True
  | _, _ => False
  end.
Proof. exact ping_first. Qed.
Print Assumptions C125_ping_first_makes_no_difference.

(** With a reward pending: alice stakes more, or withdraws, or asks for too much. *)
Example C125_applies :
  let w := final demo_self demo0 (demo_evs ++ [EvCall "alice" 500 0 [] Deposit; EvIncome 70000000000; EvEpoch 1]) in
  let ping := step demo_self w (EvCall "bob" 0 0 [] Ping) in
  let call x m := step demo_self x (EvCall "alice" 0 0 [] m) in
  pending w = 70000000000 /\ snd ping = Some [PStake 1171001000001 "ed25519:key" true] /\
  snd (call w (Stake 500)) = Some [PStake 1171001000500 "ed25519:key" true] /\
  snd (call (fst ping) (Stake 500)) = Some [PStake 1171001000500 "ed25519:key" true] /\
  snd (call w (Withdraw 300)) = Some [PTransfer "alice" 300; PStake 1171001000001 "ed25519:key" true] /\
  snd (call (fst ping) (Withdraw 300)) = Some [PTransfer "alice" 300] /\
  snd (call w (Withdraw 300000000)) = None /\ snd (call (fst ping) (Withdraw 300000000)) = None.
Proof. vm_compute. auto 10. Qed.
