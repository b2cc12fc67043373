(** Proofs about stories, for any factory: what is in flight serves calls without an answer, one message each. *)
From Coq Require Import NArith List Bool String Arith Lia Permutation.
From Verif Require Import Prelude PreludeFacts MapFacts Messages FactoryStories.
Import ListNotations.
Open Scope list_scope.

Lemma story_app {C} k (a b : list (note C)) : story k (a ++ b) = story k a ++ story k b.
Proof. unfold story. apply filter_app. Qed.
Lemma story_own {C} k (l : list (note C)) : Forall (fun n => number n = k) l -> story k l = l.
Proof.
  induction 1 as [|n l E _ IH]; auto. unfold story in *. cbn [filter]. now rewrite E, Nat.eqb_refl, IH.
Qed.
Lemma story_other {C} j k (l : list (note C)) : Forall (fun n => number n = k) l -> j <> k -> story j l = [].
Proof.
  intros F D. induction F as [|n l E _ IH]; auto. unfold story in *. cbn [filter]. rewrite E.
  destruct (Nat.eqb_spec k j); [congruence|auto].
Qed.

Section Books.
Variables (C E : Type).
(** [P k l e]: the story [l] of call [k] is that of a call served by [e]. *)
Variable P : nat -> list (note C) -> E -> Prop.
(** [D k l]: the story [l] of call [k] is complete. *)
Variable D : nat -> list (note C) -> Prop.

Record books (next : nat) (es : list (nat * E)) (ns : list (note C)) : Prop := mkBooks {
  bk_fresh : forall k, (next <= k)%nat -> story k ns = [];
  bk_low : forall k, In k (map fst es) -> (k < next)%nat;
  bk_nodup : NoDup (map fst es);
  bk_open : forall k e, In (k, e) es -> P k (story k ns) e;
  bk_done : forall k, (k < next)%nat -> ~ In k (map fst es) -> D k (story k ns)
}.

Lemma books_start : books 0 [] [].
Proof. constructor; cbn; auto; try tauto; try constructor. intros; lia. Qed.

Lemma books_perm next es es' ns : Permutation es es' -> books next es ns -> books next es' ns.
Proof.
  intros Pm [F L N O Dn]. pose proof (Permutation_map fst Pm) as Pf. constructor; auto.
  - intros k I. apply L. eapply Permutation_in; [symmetry; exact Pf|exact I].
  - eapply Permutation_NoDup; eauto.
  - intros k e I. apply O. eapply Permutation_in; [symmetry; exact Pm|exact I].
  - intros k I X. apply Dn; auto. intros Y. apply X. eapply Permutation_in; eauto.
Qed.

Lemma books_call next es ns new e : books next es ns -> Forall (fun n => number n = next) new ->
  P next new e -> books (S next) (es ++ [(next, e)]) (ns ++ new).
Proof.
  intros [F L N O Dn] A Pe. constructor.
  - intros k I. rewrite story_app, F, (story_other k next) by (auto; lia). reflexivity.
  - intros k I. rewrite map_app in I. apply in_app_iff in I. destruct I as [I|[<-|[]]]; [apply L in I|cbn]; lia.
  - rewrite map_app. eapply Permutation_NoDup; [apply Permutation_cons_append|]. constructor; auto.
    intros I. apply L in I. cbn in I. lia.
  - intros k e' I. apply in_app_iff in I. rewrite story_app. destruct I as [I|[I|[]]].
    + assert (k < next)%nat by (apply L; apply (in_map fst) in I; exact I).
      rewrite (story_other k next new), app_nil_r by (auto; lia). auto.
    + injection I as <- <-. rewrite F by lia. cbn [app]. now rewrite story_own.
  - intros k I X. rewrite map_app in X.
    assert (k <> next) by (intros ->; apply X; apply in_or_app; cbn; auto).
    rewrite story_app, (story_other k next new), app_nil_r by auto. apply Dn; [lia|].
    intros Y. apply X. apply in_or_app. auto.
Qed.

Lemma books_refused next es ns new : books next es ns -> Forall (fun n => number n = next) new ->
  D next new -> books (S next) es (ns ++ new).
Proof.
  intros [F L N O Dn] A De. constructor; auto.
  - intros k I. rewrite story_app, F, (story_other k next) by (auto; lia). reflexivity.
  - intros k I. apply L in I. lia.
  - intros k e' I. rewrite story_app.
    assert (k < next)%nat by (apply L; apply (in_map fst) in I; exact I).
    rewrite (story_other k next new), app_nil_r by (auto; lia). auto.
  - intros k I X. rewrite story_app. destruct (Nat.eq_dec k next) as [->|].
    + rewrite F by lia. cbn [app]. now rewrite story_own.
    + rewrite (story_other k next new), app_nil_r by auto. apply Dn; auto. lia.
Qed.

Lemma books_move next k e e' es ns new : books next ((k, e) :: es) ns -> Forall (fun n => number n = k) new ->
  P k (story k ns ++ new) e' -> books next (es ++ [(k, e')]) (ns ++ new).
Proof.
  intros [F L N O Dn] A Pe. cbn [map fst] in *. inversion N as [|? ? NI ND]; subst.
  assert (K : (k < next)%nat) by (apply L; now left).
  constructor.
  - intros j I. rewrite story_app, F, (story_other j k) by (auto; lia). reflexivity.
  - intros j I. rewrite map_app in I. apply in_app_iff in I. apply L. cbn. destruct I as [|[<-|[]]]; auto.
  - rewrite map_app. eapply Permutation_NoDup; [apply Permutation_cons_append|]. constructor; auto.
  - intros j e0 I. apply in_app_iff in I. rewrite story_app. destruct I as [I|[I|[]]].
    + assert (j <> k) by (intros ->; apply NI; apply (in_map fst) in I; exact I).
      rewrite (story_other j k new), app_nil_r by auto. apply O. cbn. auto.
    + inversion I; subst. rewrite (story_own _ new) by auto. exact Pe.
  - intros j I X. rewrite map_app in X.
    assert (j <> k) by (intros ->; apply X; apply in_or_app; cbn; auto).
    rewrite story_app, (story_other j k new), app_nil_r by auto. apply Dn; auto.
    cbn. intros [Y|Y]; [congruence|]. apply X. apply in_or_app. auto.
Qed.

Lemma books_finish next k e es ns new : books next ((k, e) :: es) ns -> Forall (fun n => number n = k) new ->
  D k (story k ns ++ new) -> books next es (ns ++ new).
Proof.
  intros [F L N O Dn] A De. cbn [map fst] in *. inversion N as [|? ? NI ND]; subst.
  assert (K : (k < next)%nat) by (apply L; now left).
  constructor; auto.
  - intros j I. rewrite story_app, F, (story_other j k) by (auto; lia). reflexivity.
  - intros j I. apply L. cbn. auto.
  - intros j e0 I. rewrite story_app.
    assert (j <> k) by (intros ->; apply NI; apply (in_map fst) in I; exact I).
    rewrite (story_other j k new), app_nil_r by auto. apply O. cbn. auto.
  - intros j I X. rewrite story_app. destruct (Nat.eq_dec j k) as [->|].
    + rewrite (story_own _ new) by auto. exact De.
    + rewrite (story_other j k new), app_nil_r by auto. apply Dn; auto. cbn. intros [Y|Y]; congruence.
Qed.

Lemma books_serving next es ns k : books next es ns -> (k < next)%nat ->
  (serving k (map fst es) = 0%nat /\ D k (story k ns)) \/
  (serving k (map fst es) = 1%nat /\ exists e, In (k, e) es /\ P k (story k ns) e).
Proof.
  intros [F L N O Dn] K. unfold serving. destruct (in_dec Nat.eq_dec k (map fst es)) as [I|I].
  - right. split; [now apply NoDup_count_occ'|]. apply in_map_iff in I. destruct I as ((k', e) & Q & I).
    cbn in Q. subst k'. exists e. auto.
  - left. split; auto. now apply count_occ_not_In.
Qed.
End Books.

(** Lists kept side by side. *)
Lemma combine_app {A B} (a a' : list A) (b b' : list B) : List.length a = List.length b ->
  combine (a ++ a') (b ++ b') = (combine a b ++ combine a' b')%list.
Proof. revert b. induction a as [|x a IH]; intros [|y b] E; cbn in *; try discriminate; auto. now rewrite IH; auto. Qed.
Lemma combine_drop {A B} n (a : list A) (b : list B) :
  combine (drop_nth n a) (drop_nth n b) = drop_nth n (combine a b).
Proof.
  revert n b. induction a as [|x a IH]; intros n b; [now destruct n, b|].
  destruct b as [|y b]; destruct n as [|n]; cbn; auto; [now destruct a|now rewrite IH].
Qed.
Lemma drop_length {A B} n (a : list A) (b : list B) : List.length a = List.length b ->
  List.length (drop_nth n a) = List.length (drop_nth n b).
Proof. revert a b. induction n as [|n IH]; intros [|x a] [|y b] E; cbn in *; try discriminate; auto. Qed.
Lemma nth_combine {A B} n (a : list A) (b : list B) x y :
  nth_error a n = Some x -> nth_error b n = Some y -> nth_error (combine a b) n = Some (x, y).
Proof. revert a b. induction n as [|n IH]; intros [|u a] [|v b] E1 E2; cbn in *; try discriminate; [congruence|auto]. Qed.
Lemma nth_same_length {A B} n (a : list A) (b : list B) y : List.length a = List.length b ->
  nth_error a n = Some y -> exists x, nth_error b n = Some x.
Proof.
  intros L E. destruct (nth_error b n) eqn:X; eauto. apply nth_error_None in X.
  assert (n < List.length a)%nat by (apply nth_error_Some; congruence). lia.
Qed.
Lemma map_fst_combine {A B} (a : list A) (b : list B) : List.length a = List.length b -> map fst (combine a b) = a.
Proof. revert b. induction a as [|x a IH]; intros [|y b] E; cbn in *; try discriminate; auto. f_equal. auto. Qed.

Lemma creations_app {C} (a b : list (note C)) : creations (a ++ b) = creations a ++ creations b.
Proof. apply flat_map_app. Qed.
Lemma payments_app {C} (a b : list (note C)) : payments (a ++ b) = payments a ++ payments b.
Proof. apply flat_map_app. Qed.
Lemma calls_made_app {C} (a b : list (note C)) : calls_made (a ++ b) = calls_made a ++ calls_made b.
Proof. apply flat_map_app. Qed.
