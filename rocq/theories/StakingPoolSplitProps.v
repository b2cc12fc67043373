(** C126: deposits and withdrawals in parts add up. *)
From Coq Require Import NArith List Bool String.
From Verif Require Import Prelude StakingPoolModel StakingPoolSpec StakingPoolDemo StakingPoolPingFirst StakingPoolSplit.
Import ListNotations.
Open Scope string_scope.
Open Scope N_scope.

(** C126. In any state, two deposits of an account one after the other leave exactly the state, and create exactly the
    promises, of one deposit of the sum. All tokens together must be a 128-bit number. *)
Theorem C126_deposits_add_up :
  forall self w who a b loc rs w1 ps1 loc2 rs2 w2 ps2,
  step self w (EvCall who a loc rs Deposit) = (w1, Some ps1) ->
  step self w1 (EvCall who b loc2 rs2 Deposit) = (w2, Some ps2) ->
  0 < a -> w_total w + a + b < U128_BOUND ->
  step self w (EvCall who (a + b) loc rs Deposit) = (w2, Some (ps1 ++ ps2)%list).
Proof. exact deposits_add_up. Qed.
Print Assumptions C126_deposits_add_up.

(** C126. After any history, two withdrawals of an account one after the other are paid to it; one withdrawal of the sum
    would have been accepted as well, would have left exactly the same state, paid the sum and staked the same. *)
Theorem C126_withdrawals_add_up :
  forall self w0 evs who a b loc rs w1 ps1 loc2 rs2 w2 ps2,
  initial self w0 ->
  let w := final self w0 evs in
  step self w (EvCall who 0 loc rs (Withdraw a)) = (w1, Some ps1) ->
  step self w1 (EvCall who 0 loc2 rs2 (Withdraw b)) = (w2, Some ps2) ->
  w_total w < U128_BOUND ->
  payments ps1 = [PTransfer who a] /\ payments ps2 = [PTransfer who b] /\
  exists ps3, step self w (EvCall who 0 loc2 rs2 (Withdraw (a + b))) = (w2, Some ps3) /\
    payments ps3 = [PTransfer who (a + b)] /\ last_stake ps3 = last_stake (ps1 ++ ps2)%list.
Proof. exact withdrawals_add_up. Qed.
Print Assumptions C126_withdrawals_add_up.

(** With a reward pending, carol deposits in parts and takes everything out again in parts. *)
Example C126_applies :
  let w := final demo_self demo0 (demo_evs ++ [EvIncome 70000000000; EvEpoch 1]) in
  let put x a := step demo_self x (EvCall "carol" a 0 [] Deposit) in
  let take x a := step demo_self x (EvCall "carol" 0 0 [] (Withdraw a)) in
  let wd := final demo_self demo0 (demo_evs ++ [EvCall "carol" 500 0 [] Deposit; EvIncome 70000000000; EvEpoch 1]) in
  let stake := PStake 1171001000001 "ed25519:key" true in
  initial demo_self demo0 /\ pending w = 70000000000 /\
  snd (put w 300) = Some [stake] /\ snd (put (fst (put w 300)) 200) = Some [] /\
  put w 500 = (fst (put (fst (put w 300)) 200), Some [stake]) /\
  snd (take wd 300) = Some [PTransfer "carol" 300; stake] /\ snd (take (fst (take wd 300)) 200) = Some [PTransfer "carol" 200] /\
  take wd 500 = (fst (take (fst (take wd 300)) 200), Some [PTransfer "carol" 500; stake]).
Proof. cbv zeta. split; [exact demo_init|]. vm_compute. auto 10. Qed.
