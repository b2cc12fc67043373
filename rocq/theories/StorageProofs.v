(** Proofs about the collections on raw storage. *)
From Coq Require Import NArith List Bool String Ascii Lia Arith Permutation.
From Verif Require Import Prelude PreludeFacts StorageModel StorageSpec.
Import ListNotations.
Open Scope string_scope.
Open Scope N_scope.

(** * Bytes *)
Lemma N_of_byte n : N_of_ascii (byte n) = n mod 256.
Proof. unfold byte. apply N_ascii_embedding. apply N.mod_lt. discriminate. Qed.

Lemma le_bytes_length c : forall n, slen (le_bytes c n) = N.of_nat c.
Proof.
  induction c; intros n; [reflexivity|]. specialize (IHc (n / 256)). unfold slen in *. cbn [le_bytes String.length]. lia.
Qed.

Lemma of_le_bytes c : forall n, n < 256 ^ N.of_nat c -> of_le (le_bytes c n) = n.
Proof.
  induction c; intros n L.
  - cbn in *. lia.
  - cbn [le_bytes of_le]. rewrite N_of_byte, IHc.
    + pose proof (N.div_mod n 256 ltac:(discriminate)). lia.
    + rewrite Nat2N.inj_succ, N.pow_succ_r' in L. apply N.div_lt_upper_bound; [discriminate|]. lia.
Qed.

Lemma index_back n : n < U64_BOUND -> index_of_bytes (u64_le n) = Ok n.
Proof.
  intros L. unfold index_of_bytes, u64_le. rewrite le_bytes_length. cbn [N.of_nat Pos.of_succ_nat Pos.succ N.eqb Pos.eqb].
  now rewrite of_le_bytes.
Qed.

Lemma u64_le_inj a b : a < U64_BOUND -> b < U64_BOUND -> u64_le a = u64_le b -> a = b.
Proof. intros La Lb E. pose proof (index_back a La) as A. rewrite E, (index_back b Lb) in A. congruence. Qed.

(** * Strings *)
Lemma app_inj_l p a b : p ++ a = p ++ b -> a = b.
Proof. induction p; cbn; intros E; [exact E|]. injection E as E. auto. Qed.

Lemma app_assoc_s a b c : (a ++ b) ++ c = a ++ (b ++ c).
Proof. induction a; cbn; [reflexivity|]. now rewrite IHa. Qed.

Lemma prefix_nil b : prefix "" b = true.
Proof. now destruct b. Qed.

Lemma apart_app a b : apart a b -> forall x y, a ++ x <> b ++ y.
Proof.
  intros [P Q]. revert b P Q. induction a as [|c a IH]; intros b P Q x y E.
  - now rewrite prefix_nil in P.
  - destruct b as [|d b]; [now rewrite prefix_nil in Q|]. cbn in E. injection E as Ec E. subst d.
    cbn in P, Q. destruct (ascii_dec c c) as [_|n]; [|now destruct n]. exact (IH b P Q x y E).
Qed.

Lemma apart_sym a b : apart a b -> apart b a.
Proof. intros [P Q]. now split. Qed.

Lemma write_other k v st x : x <> k -> write k v st x = st x.
Proof. unfold write. intros n. now rewrite (proj2 (String.eqb_neq x k) n). Qed.
Lemma write_same k v st : write k v st k = Some v.
Proof. unfold write. now rewrite String.eqb_refl. Qed.
Lemma erase_other k st x : x <> k -> erase k st x = st x.
Proof. unfold erase. intros n. now rewrite (proj2 (String.eqb_neq x k) n). Qed.
Lemma erase_same k st : erase k st k = None.
Proof. unfold erase. now rewrite String.eqb_refl. Qed.

(** * Lists *)
Section Lists.
  Context {A : Type}.

  Lemma set_nth_length n (x : A) : forall l, List.length (set_nth n x l) = List.length l.
  Proof. induction n; intros [|y l]; cbn; auto. Qed.

  Lemma nth_error_set_nth n (x : A) : forall l i, (n < List.length l)%nat ->
    nth_error (set_nth n x l) i = if Nat.eqb i n then Some x else nth_error l i.
  Proof.
    induction n; intros [|y l] i L; cbn in L; try lia.
    - destruct i; reflexivity.
    - destruct i; cbn; [reflexivity|]. apply IHn. lia.
  Qed.

  Lemma nth_error_removelast (l : list A) i : nth_error (removelast l) i = if Nat.ltb (S i) (List.length l) then nth_error l i else None.
  Proof.
    revert i. induction l as [|a l IH]; intros i; [now destruct i|].
    destruct l as [|b l]; [cbn; destruct i; reflexivity|].
    change (removelast (a :: b :: l)) with (a :: removelast (b :: l)).
    destruct i; [reflexivity|]. cbn [nth_error]. rewrite IH. reflexivity.
  Qed.

  Lemma nth_error_last (l : list A) d : nth_error (d :: l) (List.length l) = Some (last l d).
  Proof.
    revert d. induction l as [|a l IH]; intros d; [reflexivity|]. cbn [List.length nth_error]. rewrite IH.
    destruct l as [|b l]; [reflexivity|]. f_equal. cbn [last].
    clear. revert b. induction l as [|c l IH]; intros b; [reflexivity|]. apply IH.
  Qed.

  Lemma removelast_length (l : list A) : List.length (removelast l) = pred (List.length l).
  Proof. induction l as [|a l IH]; [reflexivity|]. destruct l; [reflexivity|]. cbn in *. now rewrite IH. Qed.

  Lemma nth_error_eq (l l' : list A) : (forall i, nth_error l i = nth_error l' i) -> l = l'.
  Proof.
    revert l'. induction l as [|a l IH]; intros [|b l'] E.
    - reflexivity.
    - now specialize (E O).
    - now specialize (E O).
    - pose proof (E O) as E0. injection E0 as ->. f_equal. apply IH. intros i. exact (E (S i)).
  Qed.

  (** Element [j] leaves and the last one takes its place. *)
  Definition swapped (j : nat) (l l' : list A) : Prop :=
    forall i, nth_error l' i =
      if Nat.ltb (S i) (List.length l)
      then if Nat.eqb i j then nth_error l (pred (List.length l)) else nth_error l i
      else None.

  Lemma swapped_length j l l' : (j < List.length l)%nat -> swapped j l l' -> List.length l' = pred (List.length l).
  Proof.
    intros J S.
    assert (L1 : (List.length l' <= pred (List.length l))%nat).
    { apply nth_error_None. rewrite S. now replace (Nat.ltb _ _) with false by (symmetry; apply Nat.ltb_ge; lia). }
    assert (L2 : (pred (List.length l) <= List.length l')%nat).
    { destruct (Nat.le_gt_cases (pred (List.length l)) (List.length l')) as [|G]; [assumption|exfalso].
      pose proof (S (List.length l')) as E.
      rewrite (proj2 (nth_error_None l' (List.length l')) (Nat.le_refl _)) in E.
      replace (Nat.ltb _ _) with true in E by (symmetry; apply Nat.ltb_lt; lia).
      destruct (Nat.eqb _ j); symmetry in E; apply nth_error_None in E; lia. }
    lia.
  Qed.
End Lists.

Lemma swapped_map {A B} (f : A -> B) j l l' : swapped j l l' -> swapped j (map f l) (map f l').
Proof.
  intros S i. rewrite !nth_error_map, map_length, S.
  destruct (Nat.ltb _ _); [|reflexivity]. now destruct (Nat.eqb _ _).
Qed.

(** * Positions of keys *)
Fixpoint place (k : string) (l : list string) : option nat :=
  match l with
  | [] => None
  | x :: r => if String.eqb k x then Some O else option_map S (place k r)
  end.

Lemma place_some k l j : place k l = Some j -> nth_error l j = Some k.
Proof.
  revert j. induction l as [|x l IH]; cbn; intros j E; [discriminate|].
  destruct (String.eqb k x) eqn:K.
  - injection E as <-. apply String.eqb_eq in K. now subst.
  - destruct (place k l); [|discriminate]. injection E as <-. cbn. now apply IH.
Qed.
Lemma place_none k l : place k l = None <-> ~ In k l.
Proof.
  induction l as [|x l IH]; cbn; [tauto|]. destruct (String.eqb k x) eqn:K.
  - apply String.eqb_eq in K. subst. split; [discriminate|tauto].
  - apply String.eqb_neq in K. destruct (place k l) as [i|]; cbn.
    + split; [discriminate|]. intros no. exfalso. destruct IH as [_ IH]. enough (Some i = None) by discriminate.
      apply IH. tauto.
    + split; [|reflexivity]. intros _ [E|E]; [now subst|]. now apply IH.
Qed.
Lemma place_nth k l j : NoDup l -> nth_error l j = Some k -> place k l = Some j.
Proof.
  intros D E. destruct (place k l) as [i|] eqn:P.
  - apply place_some in P. f_equal. apply (proj1 (NoDup_nth_error l) D).
    + apply nth_error_Some. rewrite P. discriminate.
    + now rewrite P, E.
  - apply place_none in P. apply nth_error_In in E. contradiction.
Qed.

Section Maps.
  Notation keys m := (map (@fst string string) m).
  Notation vals m := (map (@snd string string) m).
  Implicit Type m : umap string string.

  Lemma place_get k m : mget k m = match place k (keys m) with Some j => nth_error (vals m) j | None => None end.
  Proof.
    induction m as [|[k' v] m IH]; [reflexivity|]. cbn. destruct (String.eqb k k'); [reflexivity|].
    rewrite IH. now destruct (place k (keys m)).
  Qed.

  Lemma insert_absent k v m : place k (keys m) = None -> minsert k v m = (m ++ [(k, v)])%list.
  Proof.
    induction m as [|[k' v'] m IH]; cbn; [reflexivity|]. destruct (String.eqb k k'); [discriminate|].
    intros E. rewrite IH; [reflexivity|]. now destruct (place k (keys m)).
  Qed.
  Lemma insert_present k v m j : place k (keys m) = Some j ->
    keys (minsert k v m) = keys m /\ vals (minsert k v m) = set_nth j v (vals m).
  Proof.
    revert j. induction m as [|[k' v'] m IH]; cbn; intros j E; [discriminate|]. destruct (String.eqb k k').
    - injection E as <-. now split.
    - destruct (place k (keys m)) as [i|]; [|discriminate]. injection E as <-.
      destruct (IH i eq_refl) as [A B]. cbn. now rewrite A, B.
  Qed.
  Lemma remove_absent k m : place k (keys m) = None -> mremove k m = m.
  Proof.
    induction m as [|[k' v'] m IH]; cbn; [reflexivity|]. destruct (String.eqb k k'); [discriminate|].
    intros E. rewrite IH; [reflexivity|]. now destruct (place k (keys m)).
  Qed.
  Lemma remove_present k m j : place k (keys m) = Some j -> swapped j m (mremove k m).
  Proof.
    revert j. induction m as [|[k' v'] m IH]; cbn [map fst place mremove keqb EqKey_string]; intros j E; [discriminate|].
    destruct (String.eqb k k').
    - injection E as <-. intros i. destruct m as [|x m]; [now destruct i|].
      cbn [drop_head_swap List.length pred]. change (nth_error ((k', v') :: x :: m) (S (List.length m)))
        with (nth_error (x :: m) (List.length m)). rewrite nth_error_last.
      destruct i as [|i]; [reflexivity|]. cbn [Nat.eqb]. cbn [nth_error]. rewrite nth_error_removelast. cbn [List.length].
      destruct (Nat.ltb_spec (S i) (S (List.length m))), (Nat.ltb_spec (S (S i)) (S (S (List.length m)))); try lia; reflexivity.
    - destruct (place k (keys m)) as [p|] eqn:P; [|discriminate]. injection E as <-. specialize (IH p eq_refl).
      pose proof (place_some _ _ _ P) as Q.
      assert (L : (p < List.length m)%nat).
      { rewrite <- (map_length fst). apply nth_error_Some. rewrite Q. discriminate. }
      intros [|i]; cbn [nth_error List.length pred Nat.eqb].
      + destruct (Nat.ltb_spec 1 (S (List.length m))); [reflexivity|lia].
      + rewrite IH. destruct m as [|x m]; [cbn in L; lia|]. reflexivity.
  Qed.
End Maps.

(** * A vector in storage *)
Definition vec (p : string) (xs : list string) (st : storage) : Prop :=
  forall i, i < U64_BOUND -> st (v_key p i) = nth_error xs (N.to_nat i).

Lemma v_key_inj p i j : i < U64_BOUND -> j < U64_BOUND -> v_key p i = v_key p j -> i = j.
Proof. intros Li Lj E. apply u64_le_inj; try assumption. exact (app_inj_l _ _ _ E). Qed.

Lemma vec_ext p xs st st' : (forall x, st' (p ++ x) = st (p ++ x)) -> vec p xs st -> vec p xs st'.
Proof. intros E V i L. unfold v_key. rewrite E. exact (V i L). Qed.

Definition len_of (xs : list string) : N := N.of_nat (List.length xs).

Lemma vec_push p xs st x : vec p xs st -> len_of xs + 1 < U64_BOUND ->
  v_push p (len_of xs) st x = Ok (write (v_key p (len_of xs)) x st, len_of (xs ++ [x])%list) /\
  vec p (xs ++ [x])%list (write (v_key p (len_of xs)) x st).
Proof.
  intros V L. split.
  - unfold v_push, add64, add_chk, fits. rewrite (proj2 (N.ltb_lt _ _) L). cbn. do 2 f_equal.
    unfold len_of. rewrite app_length. cbn. lia.
  - intros i Li. destruct (N.eq_dec i (len_of xs)) as [->|n].
    + rewrite write_same. unfold len_of. rewrite Nat2N.id, nth_error_app2, Nat.sub_diag by lia. reflexivity.
    + rewrite write_other by (intros E; apply n; apply (v_key_inj p); [lia|lia|exact E]).
      rewrite (V i Li). destruct (Nat.lt_ge_cases (N.to_nat i) (List.length xs)).
      * now rewrite nth_error_app1.
      * unfold len_of in *. rewrite nth_error_app2 by lia. rewrite (proj2 (nth_error_None _ _)) by lia. symmetry.
        apply nth_error_None. cbn. lia.
Qed.

Lemma vec_replace p xs st x j old : vec p xs st -> len_of xs < U64_BOUND -> nth_error xs j = Some old ->
  v_replace p (len_of xs) st (N.of_nat j) x = Ok (write (v_key p (N.of_nat j)) x st, old) /\
  vec p (set_nth j x xs) (write (v_key p (N.of_nat j)) x st).
Proof.
  intros V L E. assert (J : (j < List.length xs)%nat) by (apply nth_error_Some; rewrite E; discriminate).
  unfold len_of in *. split.
  - unfold v_replace. rewrite (proj2 (N.ltb_lt _ _)) by lia. cbn. rewrite V by lia. rewrite Nat2N.id, E. reflexivity.
  - intros i Li. rewrite nth_error_set_nth by exact J. destruct (Nat.eqb_spec (N.to_nat i) j) as [<-|n].
    + rewrite N2Nat.id. apply write_same.
    + rewrite write_other; [exact (V i Li)|]. intros F. apply v_key_inj in F; [|lia|lia]. subst. now rewrite Nat2N.id in n.
Qed.

Lemma vec_pop p xs st x : vec p xs st -> len_of xs < U64_BOUND -> nth_error xs (pred (List.length xs)) = Some x ->
  let j := N.of_nat (pred (List.length xs)) in
  v_pop p (len_of xs) st = Ok (erase (v_key p j) st, j, x) /\
  (forall i, i < U64_BOUND -> erase (v_key p j) st (v_key p i) =
     if Nat.ltb (S (N.to_nat i)) (List.length xs) then nth_error xs (N.to_nat i) else None).
Proof.
  intros V L E j. assert (J : (pred (List.length xs) < List.length xs)%nat) by (apply nth_error_Some; rewrite E; discriminate).
  unfold len_of in *. split.
  - unfold v_pop, sub_chk. rewrite (proj2 (N.leb_le _ _)) by lia. cbn [bind].
    replace (N.of_nat (List.length xs) - 1) with j by (unfold j; lia).
    rewrite V by (unfold j; lia). unfold j at 1. rewrite Nat2N.id, E. reflexivity.
  - intros i Li. destruct (N.eq_dec i j) as [->|n].
    + rewrite erase_same. unfold j. rewrite Nat2N.id. destruct (Nat.ltb_spec (S (pred (List.length xs))) (List.length xs)); [lia|reflexivity].
    + rewrite erase_other by (intros F; apply n; apply (v_key_inj p); [lia|unfold j; lia|exact F]).
      rewrite (V i Li). destruct (Nat.ltb_spec (S (N.to_nat i)) (List.length xs)); [reflexivity|].
      apply nth_error_None. unfold j in n. lia.
Qed.

Lemma vec_swap_remove p xs ys st j x : vec p xs st -> len_of xs < U64_BOUND -> nth_error xs j = Some x -> swapped j xs ys ->
  exists st', v_swap_remove p (len_of xs) st (N.of_nat j) = Ok (st', len_of ys, x) /\ vec p ys st' /\
    (forall y, (forall s, y <> p ++ s) -> st' y = st y).
Proof.
  intros V L E S.
  assert (J : (j < List.length xs)%nat) by (apply nth_error_Some; rewrite E; discriminate).
  pose proof (swapped_length _ _ _ J S) as LY.
  destruct (nth_error xs (pred (List.length xs))) as [z|] eqn:Z; [|apply nth_error_None in Z; lia].
  destruct (vec_pop p xs st z V L Z) as [P W]. unfold v_swap_remove.
  assert (J1 : N.of_nat j <? len_of xs = true) by (apply N.ltb_lt; unfold len_of; lia).
  rewrite J1. cbn [require bind]. destruct (N.eqb_spec (N.of_nat j + 1) (len_of xs)) as [e|n].
  - assert (j = pred (List.length xs)) by (unfold len_of in e; lia). subst j.
    rewrite E in Z. injection Z as <-. eexists. split; [rewrite P; unfold len_of; now rewrite LY|]. split.
    + intros i Li. rewrite W by exact Li. rewrite S. destruct (Nat.ltb_spec (Datatypes.S (N.to_nat i)) (List.length xs)); [|reflexivity].
      destruct (Nat.eqb_spec (N.to_nat i) (pred (List.length xs))); [lia|reflexivity].
    + intros y ny. apply erase_other. apply ny.
  - rewrite P. cbn [bind]. assert (J2 : (Datatypes.S j < List.length xs)%nat) by (unfold len_of in n; lia).
    unfold len_of in L. rewrite W by lia. rewrite Nat2N.id.
    rewrite (proj2 (Nat.ltb_lt _ _) J2), E. cbn [expect bind].
    eexists. split; [unfold len_of; rewrite LY; reflexivity|]. split.
    + intros i Li. rewrite S. destruct (Nat.eqb_spec (N.to_nat i) j) as [e'|n'].
      * replace i with (N.of_nat j) by lia. rewrite write_same, Nat2N.id, (proj2 (Nat.ltb_lt _ _) J2). now symmetry.
      * rewrite write_other by (intros F; apply v_key_inj in F; [lia|lia|lia]). now rewrite W.
    + intros y ny. rewrite write_other by apply ny. apply erase_other. apply ny.
Qed.

Lemma vec_list p xs st : vec p xs st -> len_of xs < U64_BOUND -> v_list p st 0 (N.to_nat (len_of xs)) = Ok xs.
Proof.
  intros V L. unfold len_of in *. rewrite Nat2N.id.
  enough (G : forall pre suf, xs = (pre ++ suf)%list -> v_list p st (N.of_nat (List.length pre)) (List.length suf) = Ok suf).
  { exact (G [] xs eq_refl). }
  intros pre suf. revert pre. induction suf as [|x suf IH]; intros pre E; [reflexivity|].
  cbn [List.length v_list]. assert (List.length pre < List.length xs)%nat by (rewrite E, app_length; cbn; lia).
  rewrite V by lia. rewrite Nat2N.id. rewrite E at 1. rewrite nth_error_app2, Nat.sub_diag by lia. cbn [nth_error expect bind].
  specialize (IH (pre ++ [x])%list). rewrite app_length in IH. cbn [List.length] in IH.
  replace (N.of_nat (List.length pre) + 1) with (N.of_nat (List.length pre + 1)) by lia.
  rewrite IH by (now rewrite <- app_assoc). reflexivity.
Qed.

(** * Collections in storage *)
Lemma sub_apart p c d x y : c <> d -> (p ++ String c "") ++ x <> (p ++ String d "") ++ y.
Proof. intros n E. rewrite !app_assoc_s in E. apply app_inj_l in E. cbn in E. injection E as E _. contradiction. Qed.

Definition idx (p : string) (ks : list string) (st : storage) : Prop :=
  forall k, st ((p ++ "i") ++ k) = option_map (fun j => u64_le (N.of_nat j)) (place k ks).

Definition same_elsewhere (kp : kind * string) (st st' : storage) : Prop :=
  forall y, (forall r s, In r (regions kp) -> y <> r ++ s) -> st' y = st y.

Definition contents (kp : kind * string) (m : umap string string) (h : handle) (st : storage) : Prop :=
  match fst kp with
  | UnorderedMap => h_keys h = mlen m /\ h_values h = mlen m /\ idx (snd kp) (map fst m) st /\
                    vec (snd kp ++ "k") (map fst m) st /\ vec (snd kp ++ "v") (map snd m) st
  | UnorderedSet => h_keys h = mlen m /\ idx (snd kp) (map fst m) st /\ vec (snd kp ++ "e") (map fst m) st /\
                    map (fun k => (k, "")) (map fst m) = m
  | LookupMap => forall k, st (snd kp ++ k) = mget k m
  | LookupSet => forall k, present (st (snd kp ++ k)) = mmem k m
  end.
Definition holds (kp : kind * string) (m : umap string string) (h : handle) (st : storage) : Prop :=
  h_kind h = fst kp /\ h_prefix h = snd kp /\ NoDup (mkeys m) /\ contents kp m h st.

Lemma idx_ext p ks st st' : (forall x, st' ((p ++ "i") ++ x) = st ((p ++ "i") ++ x)) -> idx p ks st -> idx p ks st'.
Proof. intros E I k. rewrite E. exact (I k). Qed.

Lemma holds_ext kp m h st st' :
  (forall r s, In r (regions kp) -> st' (r ++ s) = st (r ++ s)) -> holds kp m h st -> holds kp m h st'.
Proof.
  intros E (K & P & D & C). split; [exact K|]. split; [exact P|]. split; [exact D|].
  destruct kp as [[] p]; cbn in *.
  - destruct C as (A & B & I & V & W). split; [exact A|]. split; [exact B|].
    split; [revert I; apply idx_ext; auto|]. split; [revert V|revert W]; apply vec_ext; auto 6.
  - destruct C as (A & I & V & W). split; [exact A|].
    split; [revert I; apply idx_ext; auto|]. split; [revert V; apply vec_ext; auto 6|exact W].
  - intros k. rewrite E by auto. apply C.
  - intros k. rewrite E by auto. apply C.
Qed.

Lemma place_swapped ks ks' j k z : NoDup ks -> NoDup ks' -> nth_error ks j = Some k -> swapped j ks ks' ->
  nth_error ks (pred (List.length ks)) = Some z ->
  forall x, place x ks' = if String.eqb x k then None else if String.eqb x z then Some j else place x ks.
Proof.
  intros D D' E S Z x.
  assert (J : (j < List.length ks)%nat) by (apply nth_error_Some; rewrite E; discriminate).
  assert (U : forall a b s, nth_error ks a = Some s -> nth_error ks b = Some s -> a = b).
  { intros a b s A B. apply (proj1 (NoDup_nth_error ks) D); [apply nth_error_Some; rewrite A; discriminate|now rewrite A, B]. }
  destruct (String.eqb_spec x k) as [->|nk].
  - apply place_none. intros I. apply In_nth_error in I. destruct I as [i I]. rewrite S in I.
    destruct (Nat.ltb_spec (Datatypes.S i) (List.length ks)) as [L|]; [|discriminate].
    destruct (Nat.eqb_spec i j) as [e|n].
    + pose proof (U _ _ _ E I). lia.
    + apply n. exact (U _ _ _ I E).
  - destruct (String.eqb_spec x z) as [->|nz].
    + apply place_nth; [exact D'|]. rewrite S, Nat.eqb_refl, Z.
      destruct (Nat.ltb_spec (Datatypes.S j) (List.length ks)) as [|G]; [reflexivity|exfalso].
      apply nk. replace j with (pred (List.length ks)) in E by lia. congruence.
    + destruct (place x ks) as [i|] eqn:P.
      * apply place_some in P. apply place_nth; [exact D'|]. rewrite S.
        assert (I : (i < List.length ks)%nat) by (apply nth_error_Some; rewrite P; discriminate).
        destruct (Nat.ltb_spec (Datatypes.S i) (List.length ks)) as [|G].
        -- destruct (Nat.eqb_spec i j) as [e|]; [congruence|exact P].
        -- exfalso. apply nz. replace i with (pred (List.length ks)) in P by lia. congruence.
      * apply place_none in P. apply place_none. intros I. apply P. apply In_nth_error in I. destruct I as [i I].
        rewrite S in I. destruct (Nat.ltb _ _); [|discriminate]. destruct (Nat.eqb _ _); eapply nth_error_In; eassumption.
Qed.

Lemma reindex_ok h st k ks ks' j : idx (h_prefix h) ks st -> vec (keys_prefix h) ks st ->
  h_keys h = len_of ks -> len_of ks < U64_BOUND -> NoDup ks -> NoDup ks' -> place k ks = Some j -> swapped j ks ks' ->
  exists st', reindex h st k (u64_le (N.of_nat j)) = Ok st' /\ idx (h_prefix h) ks' st' /\
    (forall y, (forall s, y <> (h_prefix h ++ "i") ++ s) -> st' y = st y).
Proof.
  intros I V HL L D D' P S. pose proof (place_some _ _ _ P) as E.
  assert (J : (j < List.length ks)%nat) by (apply nth_error_Some; rewrite E; discriminate).
  destruct (nth_error ks (pred (List.length ks))) as [z|] eqn:Z; [|apply nth_error_None in Z; lia].
  pose proof (place_swapped ks ks' j k z D D' E S Z) as PS.
  set (w := if String.eqb z k then erase (index_key h k) st else write (index_key h z) (u64_le (N.of_nat j)) (erase (index_key h k) st)).
  assert (W : idx (h_prefix h) ks' w).
  { intros x. rewrite PS. unfold w, index_key.
    destruct (String.eqb_spec x k) as [->|nk].
    - destruct (String.eqb_spec z k) as [->|nz]; [apply erase_same|].
      rewrite write_other; [apply erase_same|]. intros F. apply app_inj_l in F. congruence.
    - destruct (String.eqb_spec z k) as [->|nz].
      + destruct (String.eqb_spec x k); [contradiction|].
        rewrite erase_other; [apply I|]. intros F. apply app_inj_l in F. congruence.
      + destruct (String.eqb_spec x z) as [->|nx]; [apply write_same|].
        rewrite write_other by (intros F; apply app_inj_l in F; congruence).
        rewrite erase_other by (intros F; apply app_inj_l in F; congruence). apply I. }
  exists w. split; [|split; [exact W|]].
  - unfold reindex. rewrite HL. destruct (N.eqb_spec (len_of ks) 1) as [e|n].
    + unfold w. replace z with k; [now rewrite String.eqb_refl|].
      unfold len_of in e. replace j with O in E by lia. replace (pred (List.length ks)) with O in Z by lia. congruence.
    + unfold sub_chk. unfold len_of in *. rewrite (proj2 (N.leb_le _ _)) by lia. cbn [bind]. unfold v_get.
      destruct (N.leb_spec (N.of_nat (List.length ks)) (N.of_nat (List.length ks) - 1)); [lia|].
      rewrite V by lia. replace (N.to_nat (N.of_nat (List.length ks) - 1)) with (pred (List.length ks)) by lia.
      rewrite Z. cbn [expect bind]. reflexivity.
  - intros y ny. unfold w, index_key. destruct (String.eqb z k).
    + apply erase_other. apply ny.
    + rewrite write_other by apply ny. apply erase_other. apply ny.
Qed.

Lemma mlen_keys (m : umap string string) : mlen m = len_of (map fst m).
Proof. unfold mlen, len_of. now rewrite map_length. Qed.
Lemma mlen_vals (m : umap string string) : mlen m = len_of (map snd m).
Proof. unfold mlen, len_of. now rewrite map_length. Qed.

Ltac apart_tac := first [assumption | apply sub_apart; discriminate | intros ?; apply sub_apart; discriminate
                        | intros ? ?; apply sub_apart; discriminate].

Section OneMap.
  Variables (p : string) (m : umap string string) (h : handle) (st : storage).
  Hypothesis H : holds (UnorderedMap, p) m h st.
  Hypothesis L : mlen m + 1 < U64_BOUND.

  Lemma um_get_ok k : um_get h st k = Ok (mget k m).
  Proof.
    destruct H as (K & P & D & A & B & I & V & W). cbn in *. unfold um_get, index_key, values_prefix. rewrite P, I, place_get.
    destruct (place k (map fst m)) as [j|] eqn:E; [|reflexivity]. cbn [option_map].
    pose proof (place_some _ _ _ E) as N. assert (J : (j < List.length m)%nat).
    { rewrite <- (map_length fst). apply nth_error_Some. rewrite N. discriminate. }
    unfold mlen in *. rewrite index_back by lia. cbn [bind]. unfold v_get. rewrite B.
    destruct (N.leb_spec (N.of_nat (List.length m)) (N.of_nat j)); [lia|]. rewrite W by lia. rewrite Nat2N.id.
    destruct (nth_error (map snd m) j) eqn:F; [reflexivity|]. apply nth_error_None in F. rewrite map_length in F. lia.
  Qed.

  Lemma um_insert_ok k v : exists st' h', um_insert h st k v = Ok (st', h', mget k m) /\
    holds (UnorderedMap, p) (minsert k v m) h' st' /\ same_elsewhere (UnorderedMap, p) st st'.
  Proof.
    destruct H as (K & P & D & A & B & I & V & W). cbn in *.
    unfold um_insert, index_key, values_prefix, keys_prefix. rewrite P, K, I, place_get.
    destruct (place k (map fst m)) as [j|] eqn:E; cbn [option_map].
    - pose proof (place_some _ _ _ E) as N. assert (J : (j < List.length m)%nat).
      { rewrite <- (map_length fst). apply nth_error_Some. rewrite N. discriminate. }
      unfold mlen in L. rewrite index_back by lia. cbn [bind].
      destruct (nth_error (map snd m) j) as [old|] eqn:F; [|apply nth_error_None in F; rewrite map_length in F; lia].
      rewrite mlen_vals in B. destruct (vec_replace _ _ _ v _ _ W ltac:(rewrite <- mlen_vals; unfold mlen; lia) F) as [R X].
      rewrite <- B in R. rewrite R. cbn [bind]. eexists _, _. split; [reflexivity|].
      destruct (insert_present k v m j E) as [MK MV].
      assert (ML : mlen (minsert k v m) = mlen m) by (rewrite !mlen_keys, MK; reflexivity).
      split.
      + split; [exact K|]. split; [exact P|]. split; [now apply NoDup_minsert|]. cbn. rewrite ML, MK, MV.
        split; [exact A|]. split; [now rewrite B, mlen_vals|]. split; [|split; [|exact X]].
        * revert I. apply idx_ext. intros x. apply write_other. apply sub_apart. discriminate.
        * revert V. apply vec_ext. intros x. apply write_other. apply sub_apart. discriminate.
      + intros y ny. apply write_other. apply ny. cbn. auto.
    - set (st1 := write ((p ++ "i") ++ k) (u64_le (h_keys h)) st).
      assert (V1 : vec (p ++ "k") (map fst m) st1) by (revert V; apply vec_ext; intros x; apply write_other; apart_tac).
      rewrite mlen_keys in A. rewrite mlen_vals in B.
      destruct (vec_push _ _ _ k V1 ltac:(rewrite <- mlen_keys; exact L)) as [R X]. rewrite <- A in R, X. rewrite R. cbn [bind].
      set (st2 := write (v_key (p ++ "k") (h_keys h)) k st1) in *.
      assert (W2 : vec (p ++ "v") (map snd m) st2).
      { revert W. apply vec_ext. intros x. unfold st2, st1. rewrite write_other by apart_tac. apply write_other. apart_tac. }
      destruct (vec_push _ _ _ v W2 ltac:(rewrite <- mlen_vals; exact L)) as [R2 X2]. rewrite <- B in R2, X2. rewrite R2. cbn [bind].
      eexists _, _. split; [reflexivity|].
      pose proof (NoDup_minsert k v m D) as D'. rewrite insert_absent in * by exact E. split.
      + split; [exact K|]. split; [exact P|]. split; [exact D'|]. cbn. rewrite map_app in *. cbn [map fst] in *.
        split; [rewrite mlen_keys, map_app; reflexivity|]. split; [rewrite mlen_vals, !map_app; reflexivity|].
        split; [|split].
        * intros x. rewrite write_other by apart_tac. unfold st2. rewrite write_other by apart_tac. unfold st1.
          destruct (String.eqb_spec x k) as [->|n].
          -- rewrite write_same, A. unfold len_of.
             rewrite (place_nth k (map fst m ++ [k])%list (List.length (map fst m))); [reflexivity| |].
             ++ unfold mkeys in D'. now rewrite map_app in D'.
             ++ rewrite nth_error_app2, Nat.sub_diag by lia. reflexivity.
          -- rewrite write_other by (intros F; apply app_inj_l in F; congruence). rewrite I. f_equal.
             clear - n. induction (map fst m) as [|a l IH]; cbn.
             ++ now rewrite (proj2 (String.eqb_neq x k) n).
             ++ now rewrite IH.
        * revert X. apply vec_ext. intros x. apply write_other. apart_tac.
        * rewrite map_app. exact X2.
      + intros y ny. rewrite write_other by (apply ny; cbn; auto). unfold st2. rewrite write_other by (apply ny; cbn; auto).
        apply write_other. apply ny. cbn. auto.
  Qed.

  Lemma um_remove_ok k : exists st' h', um_remove h st k = Ok (st', h', mget k m) /\
    holds (UnorderedMap, p) (mremove k m) h' st' /\ same_elsewhere (UnorderedMap, p) st st'.
  Proof.
    destruct H as (K & P & D & A & B & I & V & W). cbn in *.
    unfold um_remove. unfold index_key at 1. rewrite P, I, place_get.
    destruct (place k (map fst m)) as [j|] eqn:E; cbn [option_map].
    - pose proof (place_some _ _ _ E) as N. assert (J : (j < List.length m)%nat).
      { rewrite <- (map_length fst). apply nth_error_Some. rewrite N. discriminate. }
      pose proof (remove_present k m j E) as S. pose proof (NoDup_mremove k m D) as D'.
      pose proof (swapped_map fst _ _ _ S) as SK. pose proof (swapped_map snd _ _ _ S) as SV.
      rewrite mlen_keys in A. rewrite mlen_vals in B.
      assert (LK : len_of (map fst m) < U64_BOUND) by (rewrite <- mlen_keys; lia).
      assert (LV : len_of (map snd m) < U64_BOUND) by (rewrite <- mlen_vals; lia).
      assert (KP : keys_prefix h = p ++ "k") by (unfold keys_prefix; now rewrite P, K).
      assert (VP : values_prefix h = p ++ "v") by (unfold values_prefix; now rewrite P).
      destruct (reindex_ok h st k (map fst m) (map fst (mremove k m)) j) as (st1 & R1 & I1 & O1); auto.
      { now rewrite P. } { now rewrite KP. }
      rewrite R1. cbn [bind]. rewrite index_back by (unfold mlen in L; lia). cbn [bind]. rewrite KP, VP, A, B. rewrite P in I1, O1.
      assert (V1 : vec (p ++ "k") (map fst m) st1) by (revert V; apply vec_ext; intros x; apply O1; apart_tac).
      destruct (vec_swap_remove _ _ _ _ _ _ V1 LK N SK) as (st2 & R2 & V2 & O2). rewrite R2. cbn [bind].
      assert (W2 : vec (p ++ "v") (map snd m) st2).
      { revert W. apply vec_ext. intros x. rewrite O2 by apart_tac. apply O1. apart_tac. }
      destruct (nth_error (map snd m) j) as [old|] eqn:F; [|apply nth_error_None in F; rewrite map_length in F; lia].
      destruct (vec_swap_remove _ _ _ _ _ _ W2 LV F SV) as (st3 & R3 & V3 & O3). rewrite R3. cbn [bind].
      eexists _, _. split; [reflexivity|]. split.
      + split; [exact K|]. split; [exact P|]. split; [exact D'|]. cbn.
        split; [now rewrite mlen_keys|]. split; [now rewrite mlen_vals|]. split; [|split; [|exact V3]].
        * revert I1. apply idx_ext. intros x. rewrite O3 by apart_tac. apply O2. apart_tac.
        * revert V2. apply vec_ext. intros x. apply O3. apart_tac.
      + intros y ny. rewrite O3, O2, O1; [reflexivity| | |]; intros s; apply ny; cbn; auto.
    - exists st, h. split; [reflexivity|]. rewrite remove_absent by exact E. split; [exact H|]. intros y _. reflexivity.
  Qed.

  Lemma um_entries_ok : um_entries h st = Ok m.
  Proof.
    destruct H as (K & P & D & A & B & I & V & W). cbn in *.
    unfold um_entries, keys_prefix, values_prefix. rewrite P, K, A, B. rewrite mlen_keys at 1.
    rewrite vec_list by (try exact V; rewrite <- mlen_keys; lia). cbn [bind]. rewrite mlen_vals.
    rewrite vec_list by (try exact W; rewrite <- mlen_vals; lia). cbn [bind].
    enough (E : forall l : umap string string, combine (map fst l) (map snd l) = l) by now rewrite E.
    induction l as [|[a b] r IH]; [reflexivity|]. cbn. now rewrite IH.
  Qed.
End OneMap.

Section OneSet.
  Variables (p : string) (m : umap string string) (h : handle) (st : storage).
  Hypothesis H : holds (UnorderedSet, p) m h st.
  Hypothesis L : mlen m + 1 < U64_BOUND.

  Lemma place_mem k : mmem k m = match place k (map fst m) with Some _ => true | None => false end.
  Proof.
    unfold mmem. rewrite place_get. destruct (place k (map fst m)) as [j|] eqn:E; [|reflexivity].
    apply place_some in E. destruct (nth_error (map snd m) j) eqn:F; [reflexivity|].
    apply nth_error_None in F. rewrite map_length in F.
    assert (j < List.length (map fst m))%nat by (apply nth_error_Some; rewrite E; discriminate). rewrite map_length in *. lia.
  Qed.

  Lemma us_contains_ok k : us_contains h st k = mmem k m.
  Proof.
    destruct H as (K & P & D & A & I & V & W). cbn in *. unfold us_contains, index_key. rewrite P, I, place_mem.
    now destruct (place k (map fst m)).
  Qed.

  Lemma us_insert_ok k : exists st' h', us_insert h st k = Ok (st', h', negb (mmem k m)) /\
    holds (UnorderedSet, p) (minsert k "" m) h' st' /\ same_elsewhere (UnorderedSet, p) st st'.
  Proof.
    destruct H as (K & P & D & A & I & V & W). cbn in *.
    unfold us_insert, index_key, keys_prefix. rewrite P, K, I, place_mem.
    destruct (place k (map fst m)) as [j|] eqn:E; cbn [option_map negb].
    - exists st, h. split; [reflexivity|]. assert (minsert k "" m = m) as ->; [|split; [exact H|now intros y _]].
      clear - E W. revert j E. induction m as [|[a b] r IH]; cbn; intros j E; [discriminate|].
      cbn in W. injection W as <- W. destruct (String.eqb_spec k a) as [->|]; [reflexivity|].
      destruct (place k (map fst r)) as [i|]; [|discriminate]. now rewrite (IH W i).
    - set (st1 := write ((p ++ "i") ++ k) (u64_le (h_keys h)) st).
      assert (V1 : vec (p ++ "e") (map fst m) st1) by (revert V; apply vec_ext; intros x; apply write_other; apart_tac).
      rewrite mlen_keys in A.
      destruct (vec_push _ _ _ k V1 ltac:(rewrite <- mlen_keys; exact L)) as [R X]. rewrite <- A in R, X. rewrite R. cbn [bind].
      eexists _, _. split; [reflexivity|].
      pose proof (NoDup_minsert k "" m D) as D'. rewrite insert_absent in * by exact E. split.
      + split; [exact K|]. split; [exact P|]. split; [exact D'|]. cbn. rewrite map_app in *. cbn [map fst] in *.
        split; [rewrite mlen_keys, map_app; reflexivity|].
        split; [|split; [exact X|rewrite map_app, W; reflexivity]].
        intros x. rewrite write_other by apart_tac. unfold st1.
        destruct (String.eqb_spec x k) as [->|n].
        * rewrite write_same, A. unfold len_of.
          rewrite (place_nth k (map fst m ++ [k])%list (List.length (map fst m))); [reflexivity| |].
          -- unfold mkeys in D'. now rewrite map_app in D'.
          -- rewrite nth_error_app2, Nat.sub_diag by lia. reflexivity.
        * rewrite write_other by (intros F; apply app_inj_l in F; congruence). rewrite I. f_equal.
          clear - n. induction (map fst m) as [|a l IH]; cbn.
          -- now rewrite (proj2 (String.eqb_neq x k) n).
          -- now rewrite IH.
      + intros y ny. rewrite write_other by (apply ny; cbn; auto). apply write_other. apply ny. cbn. auto.
  Qed.

  Lemma us_remove_ok k : exists st' h', us_remove h st k = Ok (st', h', mmem k m) /\
    holds (UnorderedSet, p) (mremove k m) h' st' /\ same_elsewhere (UnorderedSet, p) st st'.
  Proof.
    destruct H as (K & P & D & A & I & V & W). cbn in *.
    unfold us_remove. unfold index_key at 1. rewrite P, I, place_mem.
    destruct (place k (map fst m)) as [j|] eqn:E; cbn [option_map].
    - pose proof (place_some _ _ _ E) as N. assert (J : (j < List.length m)%nat).
      { rewrite <- (map_length fst). apply nth_error_Some. rewrite N. discriminate. }
      pose proof (remove_present k m j E) as S. pose proof (NoDup_mremove k m D) as D'.
      pose proof (swapped_map fst _ _ _ S) as SK.
      rewrite mlen_keys in A.
      assert (LK : len_of (map fst m) < U64_BOUND) by (rewrite <- mlen_keys; lia).
      assert (KP : keys_prefix h = p ++ "e") by (unfold keys_prefix; now rewrite P, K).
      destruct (reindex_ok h st k (map fst m) (map fst (mremove k m)) j) as (st1 & R1 & I1 & O1); auto.
      { now rewrite P. } { now rewrite KP. }
      rewrite R1. cbn [bind]. rewrite index_back by (unfold mlen in L; lia). cbn [bind]. rewrite KP, A. rewrite P in I1, O1.
      assert (V1 : vec (p ++ "e") (map fst m) st1) by (revert V; apply vec_ext; intros x; apply O1; apart_tac).
      destruct (vec_swap_remove _ _ _ _ _ _ V1 LK N SK) as (st2 & R2 & V2 & O2). rewrite R2. cbn [bind].
      eexists _, _. split; [reflexivity|]. split.
      + split; [exact K|]. split; [exact P|]. split; [exact D'|]. cbn.
        split; [now rewrite mlen_keys|]. split; [|split; [exact V2|]].
        * revert I1. apply idx_ext. intros x. apply O2. apart_tac.
        * apply nth_error_eq. intros i. rewrite !nth_error_map, S, <- W.
          rewrite !nth_error_map, !map_length. destruct (Nat.ltb _ _); [|reflexivity].
          destruct (Nat.eqb _ _); destruct (nth_error m _); reflexivity.
      + intros y ny. rewrite O2, O1; [reflexivity| |]; intros s; apply ny; cbn; auto.
    - exists st, h. split; [reflexivity|]. rewrite remove_absent by exact E. split; [exact H|]. intros y _. reflexivity.
  Qed.

  Lemma us_entries_ok : exists l, us_list h st = Ok l /\ map (fun k => (k, "")) l = m.
  Proof.
    destruct H as (K & P & D & A & I & V & W). cbn in *. exists (map fst m). split; [|exact W].
    unfold us_list, keys_prefix. rewrite P, K, A, mlen_keys.
    apply vec_list; [exact V|]. rewrite <- mlen_keys. lia.
  Qed.
End OneSet.

(** * All collections together *)
Lemma pairs_app {A} (R : A -> A -> Prop) l1 l2 : ForallOrdPairs R (l1 ++ l2)%list ->
  ForallOrdPairs R l2 /\ (forall x y, In x l1 -> In y l2 -> R x y).
Proof.
  induction l1 as [|a l1 IH]; cbn; intros H; [split; [exact H|tauto]|].
  inversion H as [|? ? F P]; subst. destruct (IH P) as [P2 C]. split; [exact P2|].
  intros x y [<-|I] J; [|auto]. rewrite Forall_forall in F. apply F. apply in_or_app. now right.
Qed.

Lemma pairs_flat {A B} (R : B -> B -> Prop) (g : A -> list B) l : ForallOrdPairs R (flat_map g l) ->
  forall c c' a b x y, (c < c')%nat -> nth_error l c = Some a -> nth_error l c' = Some b -> In x (g a) -> In y (g b) -> R x y.
Proof.
  induction l as [|e l IH]; cbn; intros H c c' a b x y L Ea Eb Ix Iy; [now destruct c|].
  destruct (pairs_app R _ _ H) as [P C]. destruct c' as [|c']; [lia|]. cbn in Eb. destruct c as [|c]; cbn in Ea.
  - injection Ea as <-. apply C; [exact Ix|]. apply in_flat_map. exists b. split; [|exact Iy]. now apply nth_error_In in Eb.
  - apply (IH P c c' a b); auto. lia.
Qed.

Lemma separate_other l c c' kp kp' r r' : separate l -> c <> c' -> nth_error l c = Some kp -> nth_error l c' = Some kp' ->
  In r (regions kp) -> In r' (regions kp') -> apart r r'.
Proof.
  intros S n E E' I I'. inversion S as [|? ? _ P]; subst. destruct (Nat.lt_ge_cases c c') as [L|G].
  - exact (pairs_flat _ _ _ P c c' kp kp' r r' L E E' I I').
  - apply apart_sym. apply (pairs_flat _ _ _ P c' c kp' kp r' r); auto. lia.
Qed.
Lemma separate_state l c kp r : separate l -> nth_error l c = Some kp -> In r (regions kp) -> apart STATE_KEY r.
Proof.
  intros S E I. inversion S as [|? ? F _]; subst. rewrite Forall_forall in F. apply F. apply in_flat_map. exists kp.
  split; [now apply nth_error_In in E|exact I].
Qed.

Record inv (l : layout) (w : world) (f : shelf) : Prop := mkInv {
  inv_state : fst w STATE_KEY = sf_state f;
  inv_maps : List.length (sf_maps f) = List.length l;
  inv_handles : List.length (snd w) = List.length l;
  inv_holds : forall c kp h, nth_error l c = Some kp -> nth_error (snd w) c = Some h -> holds kp (entries_of f c) h (fst w) }.

Definition small (n : N) (f : shelf) : Prop := forall c, mlen (entries_of f c) <= n.

Lemma entries_update f c m c' : (c < List.length (sf_maps f))%nat ->
  entries_of (update f c m) c' = if Nat.eqb c' c then m else entries_of f c'.
Proof.
  intros L. unfold entries_of, update. cbn. pose proof (nth_error_set_nth c m (sf_maps f) c' L) as E.
  destruct (Nat.eqb_spec c' c) as [->|n].
  - apply nth_error_nth with (d := []) in E. exact E.
  - destruct (nth_error (sf_maps f) c') as [x|] eqn:F.
    + exact (eq_trans (nth_error_nth _ _ [] E) (eq_sym (nth_error_nth _ _ [] F))).
    + apply nth_error_None in F. etransitivity; [apply nth_overflow; now rewrite set_nth_length|symmetry; now apply nth_overflow].
Qed.

Lemma set_nth_same {A} c (x : A) : forall l, nth_error l c = Some x -> set_nth c x l = l.
Proof.
  induction c; intros [|y l] E; cbn in *; try discriminate.
  - now injection E as ->.
  - now rewrite IHc.
Qed.

Lemma commit l st hs f c kp h m' h' st' : separate l -> inv l (st, hs) f ->
  nth_error l c = Some kp -> nth_error hs c = Some h -> holds kp m' h' st' -> same_elsewhere kp st st' ->
  inv l (st', set_nth c h' hs) (update f c m').
Proof.
  intros S [IS IM IH IV] E EH HO O. cbn in *.
  assert (Lc : (c < List.length l)%nat) by (apply nth_error_Some; rewrite E; discriminate).
  split; cbn [fst snd].
  - change (st' STATE_KEY = sf_state f). rewrite <- IS. apply O. intros r s I F. pose proof (separate_state _ _ _ _ S E I) as A.
    apply (apart_app _ _ A "" s). exact F.
  - cbn. now rewrite set_nth_length.
  - now rewrite set_nth_length.
  - intros c' kp' h1 E' E1. rewrite entries_update by lia. rewrite nth_error_set_nth in E1 by lia.
    destruct (Nat.eqb_spec c' c) as [->|n].
    + injection E1 as <-. rewrite E in E'. injection E' as <-. exact HO.
    + apply holds_ext with (st := st); [|now apply IV].
      intros r' s' I'. apply O. intros r s I. apply apart_app. exact (separate_other _ _ _ _ _ _ _ S n E' E I' I).
Qed.

Lemma small_update n f c m : (c < List.length (sf_maps f))%nat -> small n f -> mlen m <= n + 1 -> small (n + 1) (update f c m).
Proof. intros L B M c'. rewrite entries_update by exact L. destruct (Nat.eqb c' c); [exact M|]. specialize (B c'). lia. Qed.

Lemma mlen_insert (k v : string) (m : umap string string) : mlen (minsert k v m) <= mlen m + 1.
Proof. unfold mlen. induction m as [|[a b] m IH]; cbn -[N.of_nat]; [lia|]. destruct (String.eqb k a); cbn -[N.of_nat]; lia. Qed.
Lemma mlen_remove (k : string) (m : umap string string) : mlen (mremove k m) <= mlen m.
Proof. pose proof (mlen_mremove k m). destruct (mmem k m); lia. Qed.

Lemma lookup_put_ok knd p m h st k v : (knd = LookupMap \/ knd = LookupSet) -> holds (knd, p) m h st ->
  holds (knd, p) (minsert k v m) h (write (lookup_key h k) v st) /\ same_elsewhere (knd, p) st (write (lookup_key h k) v st).
Proof.
  intros Q (K & P & D & C). cbn in *. unfold lookup_key. rewrite P. split.
  - split; [exact K|]. split; [exact P|]. split; [now apply NoDup_minsert|].
    destruct Q as [-> | ->]; cbn in *; intros x.
    + rewrite mget_minsert. destruct (keqb_spec x k) as [->|n]; [apply write_same|].
      rewrite write_other; [apply C|]. intros F. apply app_inj_l in F. contradiction.
    + unfold mmem in *. rewrite mget_minsert. destruct (keqb_spec x k) as [->|n]; [now rewrite write_same|].
      rewrite write_other; [apply C|]. intros F. apply app_inj_l in F. contradiction.
  - intros y ny. apply write_other. apply ny. destruct Q as [-> | ->]; cbn; auto.
Qed.
Lemma lookup_del_ok knd p m h st k : (knd = LookupMap \/ knd = LookupSet) -> holds (knd, p) m h st ->
  holds (knd, p) (mremove k m) h (erase (lookup_key h k) st) /\ same_elsewhere (knd, p) st (erase (lookup_key h k) st).
Proof.
  intros Q (K & P & D & C). cbn in *. unfold lookup_key. rewrite P. split.
  - split; [exact K|]. split; [exact P|]. split; [now apply NoDup_mremove|].
    destruct Q as [-> | ->]; cbn in *; intros x.
    + rewrite mget_mremove by exact D. destruct (keqb_spec x k) as [->|n]; [apply erase_same|].
      rewrite erase_other; [apply C|]. intros F. apply app_inj_l in F. contradiction.
    + unfold mmem in *. rewrite mget_mremove by exact D. destruct (keqb_spec x k) as [->|n]; [now rewrite erase_same|].
      rewrite erase_other; [apply C|]. intros F. apply app_inj_l in F. contradiction.
  - intros y ny. apply erase_other. apply ny. destruct Q as [-> | ->]; cbn; auto.
Qed.

Ltac unchanged := solve [eexists; split; [reflexivity|split; assumption]].

Lemma op_ok l w f n o : separate l -> inv l w f -> small n f -> n + 1 < U64_BOUND ->
  exists w', raw_op w o = Ok (w', snd (shelf_op l f o)) /\ inv l w' (fst (shelf_op l f o)) /\ small (n + 1) (fst (shelf_op l f o)).
Proof.
  intros S I B L. destruct w as [st hs].
  assert (B' : small (n + 1) f) by (intros c; specialize (B c); lia).
  assert (PICK : forall c, (nth_error l c = None /\ nth_error hs c = None) \/
    exists knd p h, nth_error l c = Some (knd, p) /\ nth_error hs c = Some h /\ holds (knd, p) (entries_of f c) h st /\
      (c < List.length (sf_maps f))%nat /\ mlen (entries_of f c) + 1 < U64_BOUND /\ h_kind h = knd /\ h_prefix h = p).
  { intros c. pose proof (inv_handles _ _ _ I) as LH. pose proof (inv_maps _ _ _ I) as LM. cbn in LH.
    destruct (nth_error l c) as [[knd p]|] eqn:E.
    - right. assert (LC : (c < List.length l)%nat) by (apply nth_error_Some; rewrite E; discriminate).
      destruct (nth_error hs c) as [h|] eqn:F; [|apply nth_error_None in F; lia].
      pose proof (inv_holds _ _ _ I c _ _ E F) as H. cbn in H. exists knd, p, h. specialize (B c).
      split; [reflexivity|]. split; [reflexivity|]. split; [exact H|]. split; [lia|]. split; [lia|].
      destruct H as (K & P & _). now split.
    - left. split; [reflexivity|]. apply nth_error_None in E. apply nth_error_None. lia. }
  destruct o as [c k|c k v|c k|c|c| |s]; cbn [raw_op shelf_op].
  - destruct (PICK c) as [[-> ->]|(knd & p & h & -> & -> & H & LC & LM & K & P)]; [unchanged|].
    rewrite K. destruct knd; cbn [fst snd].
    + rewrite (um_get_ok _ _ _ _ H LM). cbn [bind]. unchanged.
    + rewrite (us_contains_ok _ _ _ _ H LM). unchanged.
    + destruct H as (_ & _ & _ & C). cbn in C. unfold lookup_key. rewrite P, C. unchanged.
    + destruct H as (_ & _ & _ & C). cbn in C. unfold lookup_key. rewrite P, C. unchanged.
  - destruct (PICK c) as [[-> ->]|(knd & p & h & E & EH & H & LC & LM & K & P)]; [unchanged|]. rewrite E, EH.
    rewrite K. destruct knd; cbn [fst snd].
    + destruct (um_insert_ok _ _ _ _ H LM k v) as (st' & h' & -> & H' & O). cbn [bind]. eexists. split; [reflexivity|].
      split; [eapply commit; eauto|]. apply small_update; auto. pose proof (mlen_insert k v (entries_of f c)). specialize (B c). lia.
    + destruct (us_insert_ok _ _ _ _ H LM k) as (st' & h' & -> & H' & O). cbn [bind]. eexists. split; [reflexivity|].
      split; [eapply commit; eauto|]. apply small_update; auto. pose proof (mlen_insert k "" (entries_of f c)). specialize (B c). lia.
    + destruct (lookup_put_ok _ _ _ _ _ k v (or_introl eq_refl) H) as [H' O]. eexists. split.
      { destruct H as (_ & _ & _ & C). cbn in C. unfold lookup_key at 2. rewrite P, C. reflexivity. }
      split; [rewrite <- (set_nth_same c h hs EH); eapply commit; eauto|].
      apply small_update; auto. pose proof (mlen_insert k v (entries_of f c)). specialize (B c). lia.
    + destruct (lookup_put_ok _ _ _ _ _ k "" (or_intror eq_refl) H) as [H' O]. eexists. split.
      { destruct H as (_ & _ & _ & C). cbn in C. unfold lookup_key at 2. rewrite P, C. reflexivity. }
      split; [rewrite <- (set_nth_same c h hs EH); eapply commit; eauto|].
      apply small_update; auto. pose proof (mlen_insert k "" (entries_of f c)). specialize (B c). lia.
  - destruct (PICK c) as [[-> ->]|(knd & p & h & E & EH & H & LC & LM & K & P)]; [unchanged|]. rewrite E, EH.
    rewrite K. pose proof (mlen_remove k (entries_of f c)) as ML. pose proof (B c) as BC. destruct knd; cbn [fst snd].
    + destruct (um_remove_ok _ _ _ _ H LM k) as (st' & h' & -> & H' & O). cbn [bind]. eexists. split; [reflexivity|].
      split; [eapply commit; eauto|]. apply small_update; auto. lia.
    + destruct (us_remove_ok _ _ _ _ H LM k) as (st' & h' & -> & H' & O). cbn [bind]. eexists. split; [reflexivity|].
      split; [eapply commit; eauto|]. apply small_update; auto. lia.
    + destruct (lookup_del_ok _ _ _ _ _ k (or_introl eq_refl) H) as [H' O]. eexists. split.
      { destruct H as (_ & _ & _ & C). cbn in C. unfold lookup_key at 2. rewrite P, C. reflexivity. }
      split; [rewrite <- (set_nth_same c h hs EH); eapply commit; eauto|]. apply small_update; auto. lia.
    + destruct (lookup_del_ok _ _ _ _ _ k (or_intror eq_refl) H) as [H' O]. eexists. split.
      { destruct H as (_ & _ & _ & C). cbn in C. unfold lookup_key at 2. rewrite P, C. reflexivity. }
      split; [rewrite <- (set_nth_same c h hs EH); eapply commit; eauto|]. apply small_update; auto. lia.
  - destruct (PICK c) as [[-> ->]|(knd & p & h & -> & -> & H & LC & LM & K & P)]; [unchanged|].
    rewrite K. destruct H as (_ & _ & _ & C). destruct knd; cbn [fst snd]; try unchanged; destruct C as [-> _]; unchanged.
  - destruct (PICK c) as [[-> ->]|(knd & p & h & -> & -> & H & LC & LM & K & P)]; [unchanged|].
    rewrite K. destruct knd; cbn [fst snd]; try unchanged.
    + rewrite (um_entries_ok _ _ _ _ H LM). cbn [bind]. unchanged.
    + destruct (us_entries_ok _ _ _ _ H LM) as (x & -> & E). cbn [bind]. rewrite E. unchanged.
  - destruct I as [IS IM IH IV]. cbn in IS. rewrite IS. eexists. split; [reflexivity|]. split; [|exact B'].
    constructor; assumption.
  - eexists. split; [reflexivity|]. cbn [fst snd]. split; [|exact B'].
    destruct I as [IS IM IH IV]. constructor; [reflexivity|exact IM|exact IH|].
    intros c kp h E F. apply holds_ext with (st := st); [|now apply IV].
    intros r x J. apply write_other. intros X. pose proof (separate_state _ _ _ _ S E J) as A.
    apply (apart_app _ _ A "" x). symmetry. exact X.
Qed.

Lemma ops_ok l : separate l -> forall ops w f n, inv l w f -> small n f -> n + N.of_nat (List.length ops) < U64_BOUND ->
  raw_ops w ops = Ok (shelf_ops l f ops).
Proof.
  intros S. induction ops as [|o ops IH]; intros w f n I B L; [reflexivity|]. cbn [raw_ops shelf_ops List.length] in *.
  destruct (op_ok l w f n o S I B ltac:(lia)) as (w' & -> & I' & B'). cbn [bind].
  rewrite (IH w' _ (n + 1) I' B') by lia. reflexivity.
Qed.

Lemma fresh_inv l : inv l (fresh l) (empty_shelf l).
Proof.
  constructor; [reflexivity|apply map_length|apply map_length|].
  intros c [knd p] h E F. cbn [fresh fst snd] in F. rewrite nth_error_map, E in F. cbn in F. injection F as <-.
  assert (entries_of (empty_shelf l) c = []) as ->.
  { unfold entries_of, empty_shelf. cbn. revert c E. induction l as [|e l IH]; intros [|c] E; try discriminate; cbn; auto. }
  split; [reflexivity|]. split; [reflexivity|]. split; [constructor|].
  assert (Q : forall i : nat, None = nth_error (@nil string) i) by now intros [].
  destruct knd; cbn; auto 10.
  - split; [reflexivity|]. split; [reflexivity|]. split; [now intros k|]. split; intros i _; apply Q.
  - split; [reflexivity|]. split; [now intros k|]. split; [intros i _; apply Q|reflexivity].
Qed.

Theorem raw_as_shelf l ops : separate l -> N.of_nat (List.length ops) < U64_BOUND ->
  raw_ops (fresh l) ops = Ok (shelf_ops l (empty_shelf l) ops).
Proof.
  intros S L. apply (ops_ok l S ops _ _ 0); [apply fresh_inv| |exact L].
  intros c. unfold entries_of, empty_shelf. cbn. clear. revert c. induction l; intros [|c]; cbn; auto; reflexivity.
Qed.

(** * Typed maps *)
Section Typed.
  Context {K V : Type} `{EqKey K} (ok : K -> Prop) (ek : K -> string) (ev : V -> string).
  Hypothesis inj : one_to_one ok ek.
  Implicit Type m : umap K V.

  Lemma key_same a b : ok a -> ok b -> keqb (ek a) (ek b) = keqb a b.
  Proof.
    intros A B. destruct (keqb_spec a b) as [->|n]; [apply keqb_refl|]. apply keqb_neq. intros E. apply n. now apply inj.
  Qed.

  Lemma stored_get k m : ok k -> Forall ok (mkeys m) -> mget (ek k) (stored ek ev m) = option_map ev (mget k m).
  Proof.
    intros A F. induction m as [|[a b] m IH]; [reflexivity|]. inversion F; subst. cbn [stored map mget fst snd] in *.
    rewrite key_same by assumption. destruct (keqb k a); [reflexivity|]. now apply IH.
  Qed.
  Lemma stored_insert k v m : ok k -> Forall ok (mkeys m) -> stored ek ev (minsert k v m) = minsert (ek k) (ev v) (stored ek ev m).
  Proof.
    intros A F. induction m as [|[a b] m IH]; [reflexivity|]. inversion F; subst. cbn [stored map minsert fst snd] in *.
    rewrite key_same by assumption. destruct (keqb k a); [reflexivity|]. cbn [map fst snd]. f_equal. now apply IH.
  Qed.
  Lemma stored_remove k m : ok k -> Forall ok (mkeys m) -> stored ek ev (mremove k m) = mremove (ek k) (stored ek ev m).
  Proof.
    intros A F. induction m as [|[a b] m IH]; [reflexivity|]. inversion F; subst. cbn [stored map mremove fst snd] in *.
    rewrite key_same by assumption. destruct (keqb k a).
    - clear. destruct m as [|x m]; [reflexivity|]. cbn [drop_head_swap map]. f_equal.
      + revert x. induction m as [|y m IH]; intros x; [reflexivity|]. cbn [map last]. destruct m; [reflexivity|]. apply (IH x).
      + revert x. induction m as [|y m IH]; intros x; [reflexivity|]. cbn [removelast map]. f_equal. apply (IH y).
    - cbn [map fst snd]. f_equal. now apply IH.
  Qed.
End Typed.

(** * Sets *)
Lemma set_insert (k v : string) (m : umap string string) : mkeys (minsert k v m) = sinsert k (mkeys m).
Proof.
  unfold sinsert, smem, mkeys. induction m as [|[a b] m IH]; [reflexivity|]. cbn. destruct (String.eqb k a); [reflexivity|].
  cbn in *. rewrite IH. now destruct (existsb _ _).
Qed.
Lemma set_mem (k : string) (m : umap string string) : mmem k m = smem k (mkeys m).
Proof. unfold mmem, smem. induction m as [|[a b] m IH]; [reflexivity|]. cbn. destruct (String.eqb k a); [reflexivity|exact IH]. Qed.
Lemma set_remove (k : string) (m : umap string string) : NoDup (mkeys m) -> Permutation (mkeys (mremove k m)) (sremove k (mkeys m)).
Proof.
  intros D. apply NoDup_Permutation.
  - now apply NoDup_mremove.
  - now apply NoDup_filter.
  - intros x. unfold sremove. rewrite filter_In. rewrite (in_mkeys x (mremove k m)), mget_mremove by exact D.
    rewrite in_mkeys. destruct (keqb_spec x k) as [->|n].
    + rewrite keqb_refl. split; [intros [v E]; discriminate|intros [_ E]; discriminate].
    + rewrite (keqb_neq k x) by congruence. cbn. tauto.
Qed.

(** * Encodings *)
Lemma borsh_u32_inj : one_to_one (fun n => n < U32_BOUND) borsh_u32.
Proof.
  intros a b A B E. rewrite <- (of_le_bytes 4 a A), <- (of_le_bytes 4 b B). unfold borsh_u32 in E. now rewrite E.
Qed.
Lemma borsh_bytes_inj : one_to_one (fun _ => True) borsh_bytes.
Proof.
  intros a b _ _. unfold borsh_bytes, borsh_u32. cbn [le_bytes append]. intros E. congruence.
Qed.
Lemma borsh_variant_inj v w a b : v < 256 -> w < 256 -> borsh_variant v a = borsh_variant w b -> v = w /\ a = b.
Proof.
  intros V W E. unfold borsh_variant in E.
  assert (C : forall c d x y, String c x = String d y -> c = d /\ x = y) by (intros c d x y F; injection F; auto).
  apply C in E. destruct E as [E1 E2].
  assert (F : N_of_ascii (byte v) = N_of_ascii (byte w)) by now rewrite E1.
  rewrite !N_of_byte, !N.mod_small in F by assumption. split; [exact F|]. now apply borsh_bytes_inj.
Qed.

(** * As stated in StorageProps *)
Lemma repo_layouts :
  Forall separate [staking_pool_layout; pool_factory_layout; whitelist_layout; multisig_layout; multisig2_layout; w_near_layout] /\
  map (map (fun kp => (fst kp, list_ascii_of_string (snd kp))))
    [staking_pool_layout; pool_factory_layout; whitelist_layout; multisig_layout; multisig2_layout; w_near_layout] =
  [[(UnorderedMap, ["u"])]; [(UnorderedSet, ["s"])]; [(LookupSet, ["w"]); (LookupSet, ["f"])];
   [(UnorderedMap, ["r"]); (UnorderedMap, ["c"]); (UnorderedMap, ["k"])];
   [(UnorderedSet, ["000"]); (UnorderedMap, ["001"]); (LookupMap, ["002"]); (LookupMap, ["003"])]; [(LookupMap, ["a"])]]%char.
Proof. split; [|reflexivity]. repeat (constructor; [repeat split; repeat constructor|]). constructor. Qed.
Lemma typed_maps (K V : Type) (EK : EqKey K) (ok : K -> Prop) (ek : K -> string) (ev : V -> string) :
  one_to_one ok ek -> forall (k : K) (v : V) (m : umap K V), ok k -> Forall ok (mkeys m) ->
  mget (ek k) (stored ek ev m) = option_map ev (mget k m) /\
  minsert (ek k) (ev v) (stored ek ev m) = stored ek ev (minsert k v m) /\
  mremove (ek k) (stored ek ev m) = stored ek ev (mremove k m).
Proof.
  intros I k v m O F. split; [now apply (stored_get ok)|]. split; symmetry; [now apply (stored_insert ok)|now apply (stored_remove ok)].
Qed.
Lemma sets (k : string) (m : umap string string) : NoDup (mkeys m) ->
  smem k (mkeys m) = mmem k m /\ sinsert k (mkeys m) = mkeys (minsert k "" m) /\
  Permutation (sremove k (mkeys m)) (mkeys (mremove k m)).
Proof.
  intros D. split; [symmetry; apply set_mem|]. split; [symmetry; apply set_insert|]. apply Permutation_sym. now apply set_remove.
Qed.
Lemma encodings :
  one_to_one (fun n => n < 2 ^ 32) borsh_u32 /\ one_to_one (fun _ => True) borsh_bytes /\
  (forall v w a b, v < 256 -> w < 256 -> borsh_variant v a = borsh_variant w b -> v = w /\ a = b).
Proof. split; [exact borsh_u32_inj|]. split; [exact borsh_bytes_inj|exact borsh_variant_inj]. Qed.
