(** Lists of messages in flight: taking out the one that is executed next. *)
From Coq Require Import List Permutation Arith Lia.
Import ListNotations.

(** [l] without its element number [n]. *)
Fixpoint drop_nth {A} (n : nat) (l : list A) : list A :=
  match l, n with
  | [], _ => []
  | _ :: r, O => r
  | x :: r, S k => x :: drop_nth k r
  end.

Lemma drop_nth_perm {A} : forall (l : list A) n x, nth_error l n = Some x -> Permutation l (x :: drop_nth n l).
Proof.
  induction l as [|y l IH]; intros [|n] x E; cbn in E; try discriminate.
  - injection E as <-. reflexivity.
  - cbn [drop_nth]. rewrite (IH _ _ E) at 1. apply perm_swap.
Qed.

(** Permutations by counting. *)
Section Count.
  Context {A : Type} (dec : forall x y : A, {x = y} + {x <> y}).
  Lemma count_cons x l y : count_occ dec (x :: l) y = count_occ dec [x] y + count_occ dec l y.
  Proof. cbn [count_occ]. destruct (dec x y); lia. Qed.
  Lemma count_perm l l' : Permutation l l' -> forall y, count_occ dec l y = count_occ dec l' y.
  Proof. intros P. now apply Permutation_count_occ. Qed.
End Count.

(** Proves a permutation of lists built with [++] and [::] from the permutations among the hypotheses. *)
Ltac perm_count dec :=
  apply (Permutation_count_occ dec); intros cy;
  repeat match goal with
  | P : Permutation _ _ |- _ => apply (count_perm dec) with (y := cy) in P
  end;
  repeat match goal with
  | H : context [count_occ dec (?x :: ?l) cy] |- _ =>
      match l with nil => fail 1 | _ => rewrite (count_cons dec x l cy) in H end
  | |- context [count_occ dec (?x :: ?l) cy] =>
      match l with nil => fail 1 | _ => rewrite (count_cons dec x l cy) end
  | H : context [count_occ dec (_ ++ _) cy] |- _ => rewrite count_occ_app in H
  | |- context [count_occ dec (_ ++ _) cy] => rewrite count_occ_app
  | H : context [count_occ dec [] cy] |- _ => change (count_occ dec [] cy) with 0 in H
  | |- context [count_occ dec [] cy] => change (count_occ dec [] cy) with 0
  end; lia.
