(** The log of a lockup tells its books: methods. *)
From Coq Require Import NArith List Bool String Ascii Lia.
From Verif Require Import Prelude PreludeFacts LockupModel LockupWorld LockupSpec LockupFacts LockupInv LockupLogModel LockupLogSpec LockupLogProofs LockupLogTold.
Import ListNotations.
Open Scope string_scope.
Open Scope N_scope.

Lemma calls_told c s m n s' pr l : callback m = false ->
  core n s -> exec_l c s m = Ok (s', pr, l) -> told n s' pr l.
Proof.
  intros M C H. destruct m; try discriminate M; clear M; start C H; once tell.
Qed.
