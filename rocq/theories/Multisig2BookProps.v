(** C98: the second multisig answers every history like the board of Multisig2Book. *)
From Coq Require Import NArith List Bool String.
From Verif Require Import Prelude Multisig2Model Multisig2Spec Multisig2Props Multisig2Book Multisig2BookProofs.
Import ListNotations.
Open Scope string_scope.
Open Scope N_scope.

(** C98. The contract can be created exactly when the board can be opened, and then schedules the keys of its members;
    from then on the answer to every call of every history, with the promise it schedules, is the board's, and all
    views show the board. *)
Theorem C98_every_history_by_the_book :
  forall self ms k,
  match new self false ms k, opened ms k with
  | Ok (s0, p), Some b0 =>
      p = asked self (mkRequest self (map AddMember ms)) /\
      forall evs, map l_output (log self s0 evs) = snd (play_all self b0 evs) /\
                  shows (final self s0 evs) (fst (play_all self b0 evs))
  | Panic _, None => True
  | _, _ => False
  end.
Proof. exact multisig2_by_the_book. Qed.
Print Assumptions C98_every_history_by_the_book.

(** Two of three members pay; one joins and another with requests on the board leaves in one request; two cannot leave
    in one request that would leave less than the quorum; the quorum is lowered; an old request is taken down. *)
Definition busy_day : list event :=
  (evs_pay ++ [ev_pay;
    by_account "carol.near" 20 (CAddRequest pay); by_account "carol.near" 21 (CAddRequestAndConfirm pay);
    by_key "k1" 22 (CAddRequestAndConfirm (mkRequest me [AddMember (Account "dan.near"); DeleteMember (Account "carol.near")]));
    by_key "k2" 23 (CConfirm 3); by_account "carol.near" 23 (CAddRequest pay);
    by_account "dan.near" 24 (CAddRequestAndConfirm (mkRequest me [DeleteMember (AccessKey "k1"); DeleteMember (AccessKey "k2")]));
    by_key "k2" 25 (CConfirm 4);
    by_account "dan.near" 26 (CAddRequestAndConfirm (mkRequest me [SetNumConfirmations 1])); by_key "k2" 27 (CConfirm 5);
    by_key "k2" 28 (CConfirm 4);
    by_account "dan.near" 29 (CAddRequest pay);
    by_key "k2" 900000000029 (CDeleteRequest 6); by_account "dan.near" 900000000030 (CDeleteRequest 6)])%list.
Example C98_applies :
  new me false ms3 2 = Ok (s2of3, p3) /\ opened ms3 2 = Some (mkBoard ms3 2 0 12 []) /\
  map (fun o => match o with Some _ => true | None => false end)
    (snd (play_all me (mkBoard ms3 2 0 12 []) busy_day)) =
    [true; false; false; true; true; true; true; true; false; true; false; true; true; true; true; false; true] /\
  fst (play_all me (mkBoard ms3 2 0 12 []) busy_day) = mkBoard [Account "dan.near"] 1 7 12 [].
Proof. vm_compute. auto. Qed.
