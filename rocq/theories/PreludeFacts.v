(** Facts about the vocabulary of [Prelude]. *)
From Coq Require Import NArith List Bool String Ascii Permutation.
From Coq Require Export Lia ZArith Zify ZifyBool ZifyN.
From Verif Require Import Prelude.
Import ListNotations.
Open Scope N_scope.

(** * Results *)
Lemma bind_ok {A B} (r : res A) (f : A -> res B) b :
  bind r f = Ok b -> exists a, r = Ok a /\ f a = Ok b.
Proof. destruct r; cbn; intros H; [eauto | discriminate]. Qed.

Lemma require_ok c m u : require c m = Ok u -> c = true.
Proof. destruct c; cbn; congruence. Qed.

Lemma require_true c m : c = true -> require c m = Ok tt.
Proof. now intros ->. Qed.

Lemma expect_ok {A} (o : option A) m a : expect o m = Ok a -> o = Some a.
Proof. destruct o; cbn; congruence. Qed.

Lemma add_chk_ok bound a b c : add_chk bound a b = Ok c -> c = a + b /\ a + b < bound.
Proof.
  unfold add_chk, fits. destruct (N.ltb_spec (a + b) bound); intros E; inversion E; auto.
Qed.
Lemma mul_chk_ok bound a b c : mul_chk bound a b = Ok c -> c = a * b /\ a * b < bound.
Proof.
  unfold mul_chk, fits. destruct (N.ltb_spec (a * b) bound); intros E; inversion E; auto.
Qed.
Lemma sub_chk_ok a b c : sub_chk a b = Ok c -> c = a - b /\ b <= a.
Proof.
  unfold sub_chk. destruct (N.leb_spec b a); intros E; inversion E; auto.
Qed.
Lemma div_chk_ok a b c : div_chk a b = Ok c -> c = a / b /\ b <> 0.
Proof.
  unfold div_chk. destruct (N.eqb_spec b 0); intros E; inversion E; auto.
Qed.
Lemma as_u128_ok a c : as_u128 a = Ok c -> c = a /\ a < U128_BOUND.
Proof.
  unfold as_u128, fits. destruct (N.ltb_spec a U128_BOUND); intros E; inversion E; subst; auto.
Qed.

Lemma add_chk_intro bound a b : a + b < bound -> add_chk bound a b = Ok (a + b).
Proof. intros. unfold add_chk, fits. destruct (N.ltb_spec (a + b) bound); auto; lia. Qed.
Lemma mul_chk_intro bound a b : a * b < bound -> mul_chk bound a b = Ok (a * b).
Proof. intros. unfold mul_chk, fits. destruct (N.ltb_spec (a * b) bound); auto; lia. Qed.
Lemma sub_chk_intro a b : b <= a -> sub_chk a b = Ok (a - b).
Proof. intros. unfold sub_chk. destruct (N.leb_spec b a); auto; lia. Qed.
Lemma div_chk_intro a b : b <> 0 -> div_chk a b = Ok (a / b).
Proof. intros. unfold div_chk. destruct (N.eqb_spec b 0); auto; lia. Qed.
Lemma as_u128_intro a : a < U128_BOUND -> as_u128 a = Ok a.
Proof. intros. unfold as_u128, fits. destruct (N.ltb_spec a U128_BOUND); auto; lia. Qed.

Lemma U128_pos : 0 < U128_BOUND. Proof. reflexivity. Qed.
Lemma U256_sq : U256_BOUND = U128_BOUND * U128_BOUND. Proof. reflexivity. Qed.
#[global] Opaque U128_BOUND U256_BOUND U64_BOUND U32_BOUND.

Ltac subst_eq H := match type of H with ?c = _ => is_var c; subst c | _ => idtac end.

(** Inversion of a chain of successful steps. *)
Ltac inv_res :=
  repeat match goal with
  | H : Ok _ = Ok _ |- _ => injection H; clear H; intros; subst
  | H : Panic _ = Ok _ |- _ => discriminate H
  | H : bind _ _ = Ok _ |- _ =>
      let x := fresh "x" in let E := fresh "E" in
      apply bind_ok in H; destruct H as (x & E & H); cbv beta in H
  | H : require _ _ = Ok _ |- _ => apply require_ok in H
  | H : expect _ _ = Ok _ |- _ => apply expect_ok in H
  | H : add128 _ _ = Ok _ |- _ => unfold add128 in H
  | H : add64 _ _ = Ok _ |- _ => unfold add64 in H
  | H : add32 _ _ = Ok _ |- _ => unfold add32 in H
  | H : mul128 _ _ = Ok _ |- _ => unfold mul128 in H
  | H : add256 _ _ = Ok _ |- _ => unfold add256 in H
  | H : mul256 _ _ = Ok _ |- _ => unfold mul256 in H
  | H : add_chk _ _ _ = Ok _ |- _ => apply add_chk_ok in H; destruct H as [H ?]; subst_eq H
  | H : mul_chk _ _ _ = Ok _ |- _ => apply mul_chk_ok in H; destruct H as [H ?]; subst_eq H
  | H : sub_chk _ _ = Ok _ |- _ => apply sub_chk_ok in H; destruct H as [H ?]; subst_eq H
  | H : div_chk _ _ = Ok _ |- _ => apply div_chk_ok in H; destruct H as [H ?]; subst_eq H
  | H : as_u128 _ = Ok _ |- _ => apply as_u128_ok in H; destruct H as [H ?]; subst_eq H
  end.

(** * Keys *)
Lemma keqb_refl {K} `{EqKey K} (k : K) : keqb k k = true.
Proof. destruct (keqb_spec k k); congruence. Qed.
Lemma keqb_neq {K} `{EqKey K} (a b : K) : a <> b -> keqb a b = false.
Proof. destruct (keqb_spec a b); congruence. Qed.
Lemma keqb_eq {K} `{EqKey K} (a b : K) : keqb a b = true -> a = b.
Proof. destruct (keqb_spec a b); congruence. Qed.
Lemma keqb_sym {K} `{EqKey K} (a b : K) : keqb a b = keqb b a.
Proof. destruct (keqb_spec a b), (keqb_spec b a); congruence. Qed.

(** * Maps *)
Section UMapFacts.
  Context {K V : Type} `{EqKey K}.
  Implicit Types (m : umap K V) (k : K) (v : V).

  Lemma mget_minsert_eq k v m : mget k (minsert k v m) = Some v.
  Proof.
    induction m as [|[k' v'] m IH]; cbn; [now rewrite keqb_refl|].
    destruct (keqb k k') eqn:E; cbn; rewrite E; auto.
  Qed.

  Lemma mget_minsert_neq k k1 v m : k <> k1 -> mget k (minsert k1 v m) = mget k m.
  Proof.
    intros N. induction m as [|[k' v'] m IH]; cbn; [now rewrite keqb_neq|].
    destruct (keqb_spec k1 k'); cbn.
    - subst. now rewrite keqb_neq.
    - now rewrite IH.
  Qed.

  Lemma mget_minsert k k1 v m :
    mget k (minsert k1 v m) = if keqb k k1 then Some v else mget k m.
  Proof.
    destruct (keqb_spec k k1); [subst; apply mget_minsert_eq | now apply mget_minsert_neq].
  Qed.

  Lemma last_removelast_perm (x : K * V) r :
    Permutation (x :: r) (List.last r x :: removelast (x :: r)).
  Proof.
    pose proof (@app_removelast_last _ (x :: r) x ltac:(discriminate)) as E.
    assert (L : List.last (x :: r) x = List.last r x) by (destruct r; reflexivity).
    rewrite E at 1. rewrite L.
    rewrite <- Permutation_cons_append. reflexivity.
  Qed.

  Lemma drop_head_swap_perm (r : umap K V) : Permutation r (drop_head_swap r).
  Proof.
    destruct r as [|x r]; [reflexivity|]. apply last_removelast_perm.
  Qed.

  Lemma mremove_perm k v m : mget k m = Some v -> Permutation m ((k, v) :: mremove k m).
  Proof.
    induction m as [|[k' v'] m IH]; cbn; [discriminate|].
    destruct (keqb_spec k k').
    - subst. intros E; injection E as <-. apply perm_skip, drop_head_swap_perm.
    - intros E. rewrite perm_swap. apply perm_skip. auto.
  Qed.

  Lemma mremove_absent k m : mget k m = None -> mremove k m = m.
  Proof.
    induction m as [|[k' v'] m IH]; cbn; [auto|].
    destruct (keqb k k'); [discriminate|]. intros E; now rewrite IH.
  Qed.

  Lemma mget_in k v m : mget k m = Some v -> In (k, v) m.
  Proof.
    induction m as [|[k' v'] m IH]; cbn; [discriminate|].
    destruct (keqb_spec k k'); [intros E; injection E as <-; subst; auto | auto].
  Qed.

  Lemma mget_none_notin k m : mget k m = None <-> ~ In k (mkeys m).
  Proof.
    unfold mkeys. induction m as [|[k' v'] m IH]; cbn; [tauto|].
    destruct (keqb_spec k k').
    - subst. split; [discriminate | intros N; exfalso; apply N; auto].
    - rewrite IH. intuition congruence.
  Qed.

  Lemma in_mkeys k m : In k (mkeys m) <-> exists v, mget k m = Some v.
  Proof.
    destruct (mget k m) eqn:E.
    - split; [eauto|]. intros _. apply mget_in in E. unfold mkeys.
      apply in_map_iff. exists (k, v); auto.
    - split; [|intros [v X]; discriminate].
      intros X. apply mget_none_notin in E. contradiction.
  Qed.

  Lemma in_mget k v m : NoDup (mkeys m) -> In (k, v) m -> mget k m = Some v.
  Proof.
    induction m as [|[k' v'] m IH]; cbn; [tauto|].
    intros ND [E|I]; inversion ND; subst.
    - injection E as -> ->. now rewrite keqb_refl.
    - rewrite keqb_neq; [auto|]. intros ->.
      apply H2. unfold mkeys. apply in_map_iff. exists (k', v); auto.
  Qed.

  Lemma mget_perm m m' k : NoDup (mkeys m) -> Permutation m m' -> mget k m = mget k m'.
  Proof.
    intros ND P.
    assert (ND' : NoDup (mkeys m')).
    { eapply Permutation_NoDup; [|exact ND]. now apply Permutation_map. }
    destruct (mget k m) eqn:E.
    - symmetry. apply in_mget; auto. eapply Permutation_in; eauto. now apply mget_in.
    - symmetry. destruct (mget k m') eqn:E'; auto.
      apply mget_in in E'. apply (Permutation_in (l' := m)) in E'; [|now apply Permutation_sym].
      apply in_mget in E'; auto. congruence.
  Qed.

  Lemma mkeys_minsert_in k v m x : In x (mkeys (minsert k v m)) <-> x = k \/ In x (mkeys m).
  Proof.
    unfold mkeys. induction m as [|[k' v'] m IH]; cbn; [intuition|].
    destruct (keqb_spec k k'); cbn; [subst; intuition | rewrite IH; intuition].
  Qed.

  Lemma NoDup_minsert k v m : NoDup (mkeys m) -> NoDup (mkeys (minsert k v m)).
  Proof.
    induction m as [|[k' v'] m IH]; cbn; intros ND.
    - constructor; [intros []|constructor].
    - inversion ND; subst. destruct (keqb_spec k k'); cbn; [now constructor|].
      constructor; auto. intros I. apply mkeys_minsert_in in I. destruct I as [->|I]; auto.
  Qed.

  Lemma NoDup_mremove k m : NoDup (mkeys m) -> NoDup (mkeys (mremove k m)).
  Proof.
    intros ND. destruct (mget k m) eqn:E.
    - apply mremove_perm in E. apply (Permutation_map fst) in E.
      eapply Permutation_NoDup in E; [|exact ND]. cbn in E. now inversion E.
    - now rewrite mremove_absent.
  Qed.

  Lemma mget_mremove_eq k m : NoDup (mkeys m) -> mget k (mremove k m) = None.
  Proof.
    intros ND. destruct (mget k m) eqn:E.
    - apply mremove_perm in E. apply (Permutation_map fst) in E.
      eapply Permutation_NoDup in E; [|exact ND]. cbn in E. inversion E; subst.
      now apply mget_none_notin.
    - now rewrite mremove_absent.
  Qed.

  Lemma mget_mremove_neq k k1 m : NoDup (mkeys m) -> k <> k1 -> mget k (mremove k1 m) = mget k m.
  Proof.
    intros ND N. destruct (mget k1 m) eqn:E.
    - pose proof (mremove_perm _ _ _ E) as P.
      rewrite (mget_perm m _ k ND P). cbn. now rewrite keqb_neq.
    - now rewrite mremove_absent.
  Qed.

  Lemma mget_mremove k k1 m : NoDup (mkeys m) ->
    mget k (mremove k1 m) = if keqb k k1 then None else mget k m.
  Proof.
    intros ND. destruct (keqb_spec k k1); [subst; now apply mget_mremove_eq|].
    now apply mget_mremove_neq.
  Qed.

  Lemma msum_perm (f : V -> N) m m' : Permutation m m' -> msum f m = msum f m'.
  Proof. unfold msum. induction 1; cbn in *; lia. Qed.

  Lemma msum_minsert (f : V -> N) k v m :
    msum f (minsert k v m) + match mget k m with Some o => f o | None => 0 end = msum f m + f v.
  Proof.
    unfold msum. induction m as [|[k' v'] m IH]; cbn; [lia|].
    destruct (keqb k k'); cbn; lia.
  Qed.

  Lemma msum_mremove (f : V -> N) k m :
    msum f (mremove k m) + match mget k m with Some o => f o | None => 0 end = msum f m.
  Proof.
    destruct (mget k m) eqn:E.
    - apply mremove_perm in E. apply (msum_perm f) in E. rewrite E. unfold msum; cbn. lia.
    - rewrite mremove_absent by auto. lia.
  Qed.

  Lemma msum_ge (f : V -> N) k v m : mget k m = Some v -> f v <= msum f m.
  Proof.
    unfold msum. induction m as [|[k' v'] m IH]; cbn; [discriminate|].
    destruct (keqb k k'); [intros E; injection E as <-; lia|].
    intros E. specialize (IH E). lia.
  Qed.

  Lemma mlen_minsert k v m :
    mlen (minsert k v m) = mlen m + (if mmem k m then 0 else 1).
  Proof.
    unfold mlen, mmem. induction m as [|[k' v'] m IH]; [reflexivity|].
    cbn [mget minsert]. destruct (keqb k k'); cbn [List.length]; lia.
  Qed.

  Lemma mlen_mremove k m : mlen (mremove k m) + (if mmem k m then 1 else 0) = mlen m.
  Proof.
    unfold mlen, mmem. destruct (mget k m) eqn:E.
    - apply mremove_perm, Permutation_length in E. cbn in E. unfold umap in *. lia.
    - rewrite mremove_absent by auto. lia.
  Qed.
End UMapFacts.

(** * Sets *)
Section USetFacts.
  Context {K : Type} `{EqKey K}.
  Implicit Types (s : uset K) (k : K).

  Lemma smem_in k s : smem k s = true <-> In k s.
  Proof.
    unfold smem. rewrite existsb_exists. split.
    - intros (x & I & E). apply keqb_eq in E. now subst.
    - intros I. exists k. split; auto. apply keqb_refl.
  Qed.

  Lemma smem_false k s : smem k s = false <-> ~ In k s.
  Proof. rewrite <- smem_in. destruct (smem k s); intuition congruence. Qed.

  Lemma sinsert_in k k1 s : In k (sinsert k1 s) <-> k = k1 \/ In k s.
  Proof.
    unfold sinsert. destruct (smem k1 s) eqn:E.
    - apply smem_in in E. intuition. now subst.
    - rewrite in_app_iff. cbn. intuition.
  Qed.

  Lemma sremove_in k k1 s : In k (sremove k1 s) <-> k <> k1 /\ In k s.
  Proof.
    unfold sremove. rewrite filter_In, negb_true_iff. split.
    - intros [I E]. split; auto. intros ->. now rewrite keqb_refl in E.
    - intros [N I]. split; auto. apply keqb_neq. auto.
  Qed.

  Lemma smem_sinsert k k1 s : smem k (sinsert k1 s) = keqb k k1 || smem k s.
  Proof.
    apply eq_true_iff_eq. rewrite orb_true_iff, !smem_in, sinsert_in.
    destruct (keqb_spec k k1); intuition congruence.
  Qed.

  Lemma smem_sremove k k1 s : smem k (sremove k1 s) = negb (keqb k k1) && smem k s.
  Proof.
    apply eq_true_iff_eq. rewrite andb_true_iff, negb_true_iff, !smem_in, sremove_in.
    destruct (keqb_spec k k1); intuition congruence.
  Qed.

  Lemma NoDup_sinsert k s : NoDup s -> NoDup (sinsert k s).
  Proof.
    intros ND. unfold sinsert. destruct (smem k s) eqn:E; auto.
    apply smem_false in E. apply (Permutation_NoDup (l := k :: s)).
    - apply Permutation_cons_append.
    - now constructor.
  Qed.

  Lemma NoDup_sremove k s : NoDup s -> NoDup (sremove k s).
  Proof. intros. now apply NoDup_filter. Qed.

  Lemma slength_sinsert k s : slength (sinsert k s) = slength s + (if smem k s then 0 else 1).
  Proof.
    unfold slength, sinsert. destruct (smem k s); [lia|]. rewrite app_length. cbn. lia.
  Qed.

  Lemma sremove_absent k s : ~ In k s -> sremove k s = s.
  Proof.
    unfold sremove. induction s as [|x s IH]; cbn; intros N; [auto|].
    rewrite (keqb_neq k x) by intuition. cbn. f_equal. apply IH. intuition.
  Qed.

  Lemma slength_sremove k s : NoDup s -> slength (sremove k s) + (if smem k s then 1 else 0) = slength s.
  Proof.
    unfold slength. induction s as [|x s IH]; intros ND; [reflexivity|].
    inversion ND; subst. specialize (IH H3). unfold smem, sremove in *.
    cbn [existsb filter].
    destruct (keqb_spec k x); cbn [negb orb List.length].
    - subst. assert (E : existsb (keqb x) s = false) by (apply smem_false; auto).
      rewrite E in IH. lia.
    - lia.
  Qed.
End USetFacts.
