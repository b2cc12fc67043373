(** The log of a lockup tells its books: callbacks. *)
From Coq Require Import NArith List Bool String Ascii Lia.
From Verif Require Import Prelude PreludeFacts LockupModel LockupWorld LockupSpec LockupFacts LockupInv LockupLogModel LockupLogSpec LockupLogProofs LockupLogTold.
Import ListNotations.
Open Scope string_scope.
Open Scope N_scope.

Lemma backs_told c s m n s' pr l : callback m = true ->
  core n s -> (ctx_predecessor c = ctx_current c -> pre n m) -> exec_l c s m = Ok (s', pr, l) -> told n s' pr l.
Proof.
  intros M C P H. destruct m; try discriminate M; clear M.
  1-14: start C H; called_back P; once tell.
  start C H; called_back P; pose proof (C5 _ _ _ eq_refl) as [LE SP];
    try match goal with |- context [if ?b =? 0 then _ else _] => destruct (b =? 0) end;
    try match goal with
        | B : (?x <? ?y) = true |- _ =>
            assert ((0 <? y - x) = true) by (apply N.ltb_lt in B; apply N.ltb_lt; lia);
            assert ((y =? x + (y - x)) = true) by (apply N.ltb_lt in B; apply N.eqb_eq; lia)
        | B : (?x <? ?y) = false |- _ => assert ((y =? x) = true) by (apply N.ltb_ge in B; apply N.eqb_eq; lia)
        end; once tell.
Qed.
