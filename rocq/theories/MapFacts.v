(** More facts about association lists. *)
From Coq Require Import NArith List Bool String Lia Permutation.
From Verif Require Import Prelude PreludeFacts.
Import ListNotations.
Open Scope N_scope.

Section Maps.
  Context {K V : Type} `{EqKey K}.
  Implicit Types (m : umap K V) (k : K) (v : V).

  Lemma same_entries_perm m m' :
    NoDup (mkeys m) -> NoDup (mkeys m') -> (forall k, mget k m = mget k m') -> Permutation m m'.
  Proof.
    intros ND ND' E. apply NoDup_Permutation.
    - eapply NoDup_map_inv; exact ND.
    - eapply NoDup_map_inv; exact ND'.
    - intros [k v]. split; intros I; apply in_mget in I; auto; apply mget_in; congruence.
  Qed.

  Lemma mget_filter (f : K * V -> bool) m k : NoDup (mkeys m) ->
    mget k (filter f m) = match mget k m with
                          | Some v => if f (k, v) then Some v else None
                          | None => None
                          end.
  Proof.
    induction m as [|[k' v] m IH]; cbn [mget filter mkeys map fst]; intros ND; auto.
    inversion ND as [|? ? NI ND']; subst.
    destruct (keqb_spec k k') as [->|N].
    - destruct (f (k', v)) eqn:E; cbn [mget]; [now rewrite keqb_refl|].
      rewrite IH by auto. apply mget_none_notin in NI. now rewrite NI.
    - destruct (f (k', v)) eqn:E; cbn [mget]; [rewrite keqb_neq by auto|]; auto.
  Qed.

  Lemma mkeys_filter_in (f : K * V -> bool) m k : In k (mkeys (filter f m)) -> In k (mkeys m).
  Proof.
    unfold mkeys. intros I. apply in_map_iff in I. destruct I as (x & <- & I).
    apply filter_In in I. apply in_map. tauto.
  Qed.

  Lemma NoDup_filter_keys (f : K * V -> bool) m : NoDup (mkeys m) -> NoDup (mkeys (filter f m)).
  Proof.
    induction m as [|[k v] m IH]; cbn [filter mkeys map fst]; intros ND; auto.
    inversion ND; subst. destruct (f (k, v)); cbn [map mkeys fst]; auto.
    constructor; auto. intros I. apply (mkeys_filter_in f) in I. auto.
  Qed.

  Lemma NoDup_fold_mremove (ids : list K) : forall m, NoDup (mkeys m) ->
    NoDup (mkeys (fold_left (fun m id => mremove id m) ids m)).
  Proof.
    induction ids as [|i ids IH]; cbn [fold_left]; intros m ND; auto using NoDup_mremove.
  Qed.

  Lemma mget_fold_mremove (ids : list K) k : forall m, NoDup (mkeys m) ->
    mget k (fold_left (fun m id => mremove id m) ids m) = if smem k ids then None else mget k m.
  Proof.
    induction ids as [|i ids IH]; cbn [fold_left]; intros m ND; auto.
    rewrite IH by now apply NoDup_mremove. rewrite mget_mremove by auto.
    unfold smem. cbn [existsb]. destruct (keqb k i), (existsb (keqb k) ids); auto.
  Qed.

  Lemma smem_filter_keys (f : K * V -> bool) m k : NoDup (mkeys m) ->
    smem k (map fst (filter f m)) = match mget k m with Some v => f (k, v) | None => false end.
  Proof.
    intros ND. change (map fst (filter f m)) with (mkeys (filter f m)).
    pose proof (mget_filter f m k ND) as G.
    destruct (smem k (mkeys (filter f m))) eqn:E.
    - apply smem_in, in_mkeys in E. destruct E as [v E]. rewrite E in G.
      destruct (mget k m); [|discriminate]. destruct (f (k, v0)); congruence.
    - apply smem_false, mget_none_notin in E. rewrite E in G.
      destruct (mget k m); auto. destruct (f (k, v)); congruence.
  Qed.

  (** Removing, one by one, the entries that satisfy [f] leaves the others. *)
  Lemma fold_mremove_filter (f : K * V -> bool) m : NoDup (mkeys m) ->
    Permutation (fold_left (fun m id => mremove id m) (map fst (filter f m)) m)
                (filter (fun kv => negb (f kv)) m).
  Proof.
    intros ND. apply same_entries_perm; auto using NoDup_fold_mremove, NoDup_filter_keys.
    intros k. rewrite mget_fold_mremove, mget_filter by auto.
    rewrite smem_filter_keys by auto. destruct (mget k m); auto. destruct (f (k, v)); auto.
  Qed.

  Lemma mmem_mget k m : mmem k m = true <-> exists v, mget k m = Some v.
  Proof. unfold mmem. destruct (mget k m); split; eauto; try discriminate. intros []; discriminate. Qed.
  Lemma mmem_false k m : mmem k m = false <-> mget k m = None.
  Proof. unfold mmem. destruct (mget k m); split; congruence. Qed.
  Lemma mmem_minsert k k1 v m : mmem k (minsert k1 v m) = keqb k k1 || mmem k m.
  Proof. unfold mmem. rewrite mget_minsert. destruct (keqb k k1); auto. Qed.
  Lemma mmem_mremove k k1 m : NoDup (mkeys m) -> mmem k (mremove k1 m) = negb (keqb k k1) && mmem k m.
  Proof. intros ND. unfold mmem. rewrite mget_mremove by auto. destruct (keqb k k1); auto. Qed.
  Lemma in_mkeys_mmem k m : In k (mkeys m) <-> mmem k m = true.
  Proof. rewrite in_mkeys, mmem_mget. tauto. Qed.
End Maps.

(** Boolean tests in hypotheses, as propositions. *)
Ltac norm_bool :=
  repeat match goal with
  | H : String.eqb _ _ = true |- _ => apply String.eqb_eq in H
  | H : String.eqb _ _ = false |- _ => apply String.eqb_neq in H
  | H : (_ <=? _) = true |- _ => apply N.leb_le in H
  | H : (_ <=? _) = false |- _ => apply N.leb_gt in H
  | H : (_ <? _) = true |- _ => apply N.ltb_lt in H
  | H : (_ <? _) = false |- _ => apply N.ltb_ge in H
  | H : (_ =? _) = true |- _ => apply N.eqb_eq in H
  | H : (_ =? _) = false |- _ => apply N.eqb_neq in H
  | H : Nat.eqb _ _ = true |- _ => apply PeanoNat.Nat.eqb_eq in H
  | H : negb _ = true |- _ => apply negb_true_iff in H
  | H : negb _ = false |- _ => apply negb_false_iff in H
  | H : (_ && _)%bool = true |- _ => apply andb_true_iff in H; destruct H
  | H : smem _ _ = true |- _ => apply smem_in in H
  | H : smem _ _ = false |- _ => apply smem_false in H
  end.

Ltac solve_nd :=
  repeat first [assumption | apply NoDup_minsert | apply NoDup_mremove | apply NoDup_fold_mremove].

Ltac inv_all :=
  inv_res; repeat (match goal with x : prod _ _ |- _ => destruct x end; cbv beta iota in *; inv_res);
  norm_bool.
