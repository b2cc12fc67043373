(** C97: the multisig answers every history like the board of MultisigBook. *)
From Coq Require Import NArith List Bool String.
From Verif Require Import Prelude MultisigModel MultisigSpec MultisigProps MultisigBook MultisigBookProofs.
Import ListNotations.
Open Scope string_scope.
Open Scope N_scope.

(** C97. The answer to every call of every history, with the promise it schedules, is the board's; after it all
    views show the board. *)
Theorem C97_every_history_by_the_book :
  forall self k evs s0, new false k = Ok s0 ->
  log self s0 evs = snd (play_all self (blank k) evs) /\
  shows (final self s0 evs) (fst (play_all self (blank k) evs)).
Proof. exact multisig_by_the_book. Qed.
Print Assumptions C97_every_history_by_the_book.

(** Two of three keys pay; a key with requests on the board is deleted by a request of another; the quorum is raised;
    a request that asks for the keys of another account can never be carried out; an old one is taken down. *)
Definition busy_day : list event :=
  (evs_pay ++ [ev_pay;
    by_key "k3" 20 (CAddRequest pay); by_key "k3" 21 (CAddRequestAndConfirm pay);
    by_key "k1" 22 (CAddRequestAndConfirm (mkRequest me [AddKey "k4" None; DeleteKey "k3"]));
    by_key "k2" 23 (CConfirm 3);
    by_key "k1" 24 (CAddRequestAndConfirm (mkRequest me [SetNumConfirmations 3])); by_key "k2" 25 (CConfirm 4);
    by_key "k2" 26 (CAddRequestAndConfirm (mkRequest "bob.near" [AddKey "k4" None])); by_key "k1" 27 (CConfirm 5);
    by_key "k4" 28 (CConfirm 5); by_key "k4" 900000000026 (CDeleteRequest 5); by_key "k4" 900000000027 (CDeleteRequest 5);
    mkEvent "thief.near" "k1" 0 900000000028 (CAddRequest pay)])%list.
Example C97_applies :
  new false 2 = Ok s2of3 /\
  map (fun e => match snd e with Some _ => true | None => false end) (snd (play_all me (blank 2) busy_day)) =
    [true; false; false; true; true; true; true; true; true; true; true; true; false; false; true; false] /\
  b_items (fst (play_all me (blank 2) (firstn 7 busy_day))) =
    [mkItem 1 pay "k3" 20 []; mkItem 2 pay "k3" 21 ["k3"];
     mkItem 3 (mkRequest me [AddKey "k4" None; DeleteKey "k3"]) "k1" 22 ["k1"]] /\
  fst (play_all me (blank 2) busy_day) = mkBoard 3 6 12 [].
Proof. vm_compute. auto. Qed.
