(** The multisig answers every history like the board of MultisigBook. *)
From Coq Require Import NArith List Bool String Lia Permutation.
From Verif Require Import Prelude PreludeFacts MapFacts MultisigModel MultisigSpec MultisigProofs MultisigBook.
Import ListNotations.
Open Scope N_scope.

(** * Lists of items *)
Definition signed (i : item) : signed_request := mkSigned (i_request i) (i_by i) (i_at i).

Lemma lookup_app id l x : lookup id (l ++ [x]) =
  match lookup id l with Some i => Some i | None => if i_id x =? id then Some x else None end.
Proof. unfold lookup. induction l as [|y l IH]; cbn; [reflexivity|]. destruct (i_id y =? id); auto. Qed.
Lemma lookup_without id id' l : lookup id (without id' l) = if id =? id' then None else lookup id l.
Proof.
  unfold lookup, without. induction l as [|y l IH]; cbn; [now destruct (id =? id')|].
  destruct (N.eqb_spec (i_id y) id'); cbn.
  - rewrite IH. destruct (N.eqb_spec id id'); [reflexivity|]. destruct (N.eqb_spec (i_id y) id); [congruence|reflexivity].
  - rewrite IH. destruct (N.eqb_spec (i_id y) id); [|reflexivity]. destruct (N.eqb_spec id id'); [congruence|reflexivity].
Qed.
Lemma lookup_in id l i : lookup id l = Some i -> In i l /\ i_id i = id.
Proof. unfold lookup. intros H. apply find_some in H. now rewrite N.eqb_eq in H. Qed.
Lemma in_lookup i l : NoDup (map i_id l) -> In i l -> lookup (i_id i) l = Some i.
Proof.
  unfold lookup. induction l as [|y l IH]; cbn; [contradiction|]. intros ND [->|H].
  - now rewrite N.eqb_refl.
  - inversion ND; subst. destruct (N.eqb_spec (i_id y) (i_id i)) as [E|]; [|auto].
    exfalso. match goal with H : ~ In _ _ |- _ => apply H end. rewrite E. now apply in_map.
Qed.
Lemma lookup_filter f id l : NoDup (map i_id l) ->
  lookup id (filter f l) = match lookup id l with Some i => if f i then Some i else None | None => None end.
Proof.
  unfold lookup. induction l as [|y l IH]; cbn; [reflexivity|]. intros ND. inversion ND; subst.
  destruct (N.eqb_spec (i_id y) id) as [E|NE].
  - destruct (f y) eqn:F; cbn; [now rewrite E, N.eqb_refl|]. rewrite IH by auto.
    destruct (find (fun i => i_id i =? id) l) as [i|] eqn:X; [|reflexivity]. exfalso.
    apply find_some in X. rewrite N.eqb_eq in X. match goal with H : ~ In _ _ |- _ => apply H end.
    destruct X as [X <-]. rewrite E. now apply in_map.
  - destruct (f y); cbn; [|auto]. destruct (N.eqb_spec (i_id y) id); [congruence|auto].
Qed.
Lemma ids_filter f l : NoDup (map i_id l) -> NoDup (map i_id (filter f l)).
Proof.
  induction l as [|y l IH]; cbn; [auto|]. intros ND. inversion ND; subst. destruct (f y); cbn; [|auto].
  constructor; [|auto]. intros X. match goal with H : ~ In _ _ |- _ => apply H end.
  apply in_map_iff in X. destruct X as (i & <- & X). apply filter_In in X. apply in_map, X.
Qed.

Definition note (id : N) (k : public_key) (l : list item) : list item :=
  map (fun j => if i_id j =? id then mkItem id (i_request j) (i_by j) (i_at j) (i_confirmed j ++ [k]) else j) l.
Lemma ids_note id k l : map i_id (note id k l) = map i_id l.
Proof.
  unfold note. rewrite map_map. apply map_ext. intros j. destruct (N.eqb_spec (i_id j) id); cbn; congruence.
Qed.
Lemma lookup_note id k id' l : lookup id' (note id k l) =
  option_map (fun j => if i_id j =? id then mkItem id (i_request j) (i_by j) (i_at j) (i_confirmed j ++ [k]) else j)
    (lookup id' l).
Proof.
  unfold lookup, note. induction l as [|y l IH]; cbn; [reflexivity|].
  destruct (N.eqb_spec (i_id y) id) as [E|NE]; cbn [i_id].
  - rewrite E. destruct (N.eqb_spec id id'); [|auto]. cbn. destruct (N.eqb_spec (i_id y) id); [reflexivity|congruence].
  - destruct (N.eqb_spec (i_id y) id'); [|auto]. cbn. destruct (N.eqb_spec (i_id y) id); [congruence|reflexivity].
Qed.

Lemma NoDup_snoc {A} (l : list A) x : NoDup l -> ~ In x l -> NoDup (l ++ [x])%list.
Proof.
  intros ND NI. apply (Permutation_NoDup (l := x :: l)); [apply Permutation_cons_append|]. now constructor.
Qed.

(** * The relation *)
Record same (s : contract) (b : board) : Prop := mkSame {
  sm_ok : ok s;
  sm_quorum : num_confirmations s = b_quorum b;
  sm_next : request_nonce s = b_next b;
  sm_limit : active_requests_limit s = b_limit b;
  sm_nd : NoDup (map i_id (b_items b));
  sm_req : forall id, mget id (requests s) = option_map signed (lookup id (b_items b));
  sm_conf : forall id, mget id (confirmations s) = option_map i_confirmed (lookup id (b_items b));
  sm_small : forall i, In i (b_items b) -> N.of_nat (List.length (i_confirmed i)) < U32_BOUND
}.

Definition entries (l : list item) : umap request_id signed_request := map (fun i => (i_id i, signed i)) l.
Lemma mget_entries id l : mget id (entries l) = option_map signed (lookup id l).
Proof.
  unfold lookup. induction l as [|y l IH]; cbn; [reflexivity|]. rewrite (N.eqb_sym id).
  destruct (i_id y =? id); auto.
Qed.
Lemma mkeys_entries l : mkeys (entries l) = map i_id l.
Proof. unfold mkeys, entries. rewrite map_map. reflexivity. Qed.
Lemma cnt_entries k l : cnt k (entries l) = count_of k l.
Proof.
  unfold cnt, count_of, msum. induction l as [|y l IH]; cbn [entries map fold_right snd filter]; [reflexivity|].
  fold (entries l). rewrite IH. cbn [signer_pk signed]. destruct (String.eqb (i_by y) k); cbn [List.length]; lia.
Qed.
Lemma same_perm s b : same s b -> Permutation (entries (b_items b)) (requests s).
Proof.
  intros S. apply same_entries_perm.
  - rewrite mkeys_entries. apply (sm_nd _ _ S).
  - apply (ok_req _ (sm_ok _ _ S)).
  - intros id. now rewrite mget_entries, (sm_req _ _ S).
Qed.
Lemma same_count s b k : same s b -> num_requests_of s k = count_of k (b_items b).
Proof.
  intros S. rewrite (ok_cnt _ (sm_ok _ _ S)). rewrite <- cnt_entries. unfold cnt. symmetry. apply msum_perm, same_perm, S.
Qed.

Lemma small_ids (l : list N) n : NoDup l -> (forall x, In x l -> x < n) -> N.of_nat (List.length l) <= n.
Proof.
  intros ND H. assert (E : (List.length (map N.to_nat l) <= List.length (seq 0 (N.to_nat n)))%nat).
  { apply NoDup_incl_length.
    - clear H. induction ND; cbn; constructor; auto. intros X. apply in_map_iff in X. destruct X as (y & E & X).
      apply N2Nat.inj in E. subst. contradiction.
    - intros x X. apply in_map_iff in X. destruct X as (y & <- & X). apply H in X. apply in_seq. lia. }
  rewrite map_length, seq_length in E. lia.
Qed.
Lemma same_below s b i : same s b -> In i (b_items b) -> i_id i < b_next b.
Proof.
  intros S H. rewrite <- (sm_next _ _ S). apply (ok_nonce _ (sm_ok _ _ S)). apply mmem_mget.
  rewrite (sm_req _ _ S), (in_lookup _ _ (sm_nd _ _ S) H). cbn. eauto.
Qed.
Lemma shorter {A} (f : A -> bool) l : (List.length (filter f l) <= List.length l)%nat.
Proof. induction l as [|x l IH]; cbn; [lia|]. destruct (f x); cbn; lia. Qed.
Lemma count_le s b k : same s b -> count_of k (b_items b) <= b_next b.
Proof.
  intros S. pose proof (small_ids (map i_id (b_items b)) (b_next b) (sm_nd _ _ S)) as H. rewrite map_length in H.
  assert (X : N.of_nat (List.length (b_items b)) <= b_next b).
  { apply H. intros x X. apply in_map_iff in X. destruct X as (i & <- & X). eapply same_below; eauto. }
  unfold count_of. pose proof (shorter (fun i => String.eqb (i_by i) k) (b_items b)). lia.
Qed.

(** * The operations *)
Lemma add_same c s b r : same s b -> ctx_current c = ctx_predecessor c ->
  match add_request c s r, put_up (ctx_signer_pk c) (ctx_timestamp c) r b with
  | Ok (s', id), Some (b', id') => id = id' /\ same s' b'
  | Panic _, None => True
  | _, _ => False
  end.
Proof.
  intros S HC. destruct (add_request c s r) as [[s' id]|e] eqn:E.
  - pose proof (add_request_ok _ _ _ _ _ E (sm_ok _ _ S)) as (_ & L & -> & B & -> & O').
    unfold put_up. rewrite (same_count _ _ _ S) in L. rewrite (sm_limit _ _ S) in L. rewrite (sm_next _ _ S) in B.
    destruct (N.ltb_spec (count_of (ctx_signer_pk c) (b_items b)) (b_limit b)); [|lia].
    destruct (N.ltb_spec (b_next b + 1) U32_BOUND); [|lia]. cbn [andb].
    split; [apply (sm_next _ _ S)|].
    assert (Z : lookup (b_next b) (b_items b) = None).
    { destruct (lookup (b_next b) (b_items b)) as [i|] eqn:X; [|reflexivity]. apply lookup_in in X.
      destruct X as [X Y]. pose proof (same_below _ _ _ S X). lia. }
    split; cbn [b_quorum b_next b_limit b_items num_confirmations request_nonce active_requests_limit requests confirmations];
      auto; try apply S.
    + now rewrite (sm_next _ _ S).
    + rewrite map_app. cbn. apply NoDup_snoc; [apply S|]. intros X. apply in_map_iff in X.
      destruct X as (i & X1 & X2). pose proof (same_below _ _ _ S X2). lia.
    + intros id. rewrite mget_minsert, lookup_app, (sm_req _ _ S), (sm_next _ _ S). cbn [i_id].
      change (keqb id (b_next b)) with (id =? b_next b). rewrite (N.eqb_sym id).
      destruct (N.eqb_spec (b_next b) id) as [<-|]; [now rewrite Z|]. now destruct (lookup id (b_items b)).
    + intros id. rewrite mget_minsert, lookup_app, (sm_conf _ _ S), (sm_next _ _ S). cbn [i_id].
      change (keqb id (b_next b)) with (id =? b_next b). rewrite (N.eqb_sym id).
      destruct (N.eqb_spec (b_next b) id) as [<-|]; [now rewrite Z|]. now destruct (lookup id (b_items b)).
    + intros i X. apply in_app_iff in X. destruct X as [X|[<-|[]]]; [now apply (sm_small _ _ S)|]. reflexivity.
  - destruct (put_up (ctx_signer_pk c) (ctx_timestamp c) r b) as [[b' id']|] eqn:P; [|exact I].
    unfold put_up in P. destruct (N.ltb_spec (count_of (ctx_signer_pk c) (b_items b)) (b_limit b)); [|discriminate].
    destruct (N.ltb_spec (b_next b + 1) U32_BOUND); [|discriminate]. clear P.
    unfold add_request in E. rewrite HC, String.eqb_refl in E. cbn [require bind] in E.
    rewrite (same_count _ _ _ S) in E. pose proof (count_le _ _ (ctx_signer_pk c) S).
    unfold add32 in E. rewrite add_chk_intro in E by lia. cbn [bind] in E. rewrite (sm_limit _ _ S) in E.
    destruct (N.leb_spec (count_of (ctx_signer_pk c) (b_items b) + 1) (b_limit b)); [|lia]. cbn [require bind] in E.
    rewrite (sm_next _ _ S), add_chk_intro in E by lia. discriminate.
Qed.

Lemma remove_same s b id : same s b -> lookup id (b_items b) <> None ->
  exists s1 i, lookup id (b_items b) = Some i /\ remove_request s id = Ok (s1, i_request i) /\
    same s1 (with_items b (without id (b_items b))).
Proof.
  intros S H. destruct (lookup id (b_items b)) as [i|] eqn:L; [|contradiction].
  assert (G : mget id (requests s) = Some (signed i)) by (rewrite (sm_req _ _ S), L; reflexivity).
  destruct (remove_request_intro s id) as [[s1 r] E]; [apply mmem_mget; eauto|].
  pose proof (remove_request_ok _ _ _ _ E (sm_ok _ _ S)) as (rs & G' & -> & R & C & Q & N1 & A & O1).
  rewrite G in G'. injection G' as <-. exists s1, i. split; [reflexivity|]. split; [exact E|].
  split; cbn [with_items b_quorum b_next b_limit b_items]; auto.
  - now rewrite Q, (sm_quorum _ _ S).
  - now rewrite N1, (sm_next _ _ S).
  - now rewrite A, (sm_limit _ _ S).
  - apply ids_filter, S.
  - intros x. rewrite R, mget_mremove by apply (sm_ok _ _ S). rewrite lookup_without, (sm_req _ _ S).
    change (keqb x id) with (x =? id). now destruct (x =? id).
  - intros x. rewrite C, mget_mremove by apply (sm_ok _ _ S). rewrite lookup_without, (sm_conf _ _ S).
    change (keqb x id) with (x =? id). now destruct (x =? id).
  - intros x X. apply filter_In in X. now apply (sm_small _ _ S).
Qed.

Lemma drop_same s b pk : same s b ->
  same (drop_requests_of s pk) (with_items b (filter (fun i => negb (String.eqb (i_by i) pk)) (b_items b))).
Proof.
  intros S. destruct (drop_ok s pk (sm_ok _ _ S)) as (O & R & C).
  split; cbn [with_items b_quorum b_next b_limit b_items]; auto; try apply S.
  - apply ids_filter, S.
  - intros id. rewrite R, lookup_filter by apply S. rewrite (sm_req _ _ S).
    destruct (lookup id (b_items b)) as [i|]; cbn; [|reflexivity]. now destruct (String.eqb (i_by i) pk).
  - intros id. rewrite C, lookup_filter by apply S. rewrite (sm_req _ _ S), (sm_conf _ _ S).
    destruct (lookup id (b_items b)) as [i|]; cbn; [|reflexivity]. now destruct (String.eqb (i_by i) pk).
  - intros i X. apply filter_In in X. now apply (sm_small _ _ S).
Qed.

Definition kept (l : list action) (b : board) : board :=
  with_items b (filter (fun i => negb (existsb (deletes_key (i_by i)) l)) (b_items b)).

Lemma filter_all {A} (f : A -> bool) l : (forall x, f x = true) -> filter f l = l.
Proof. intros H. induction l; cbn; [reflexivity|]. now rewrite H, IHl. Qed.
Lemma filter_filter {A} (f g : A -> bool) l : filter f (filter g l) = filter (fun x => g x && f x) l.
Proof. induction l as [|x l IH]; cbn; [reflexivity|]. destruct (g x); cbn; rewrite IH; reflexivity. Qed.

Lemma plain_same c rcv n l : forall s b acc, same s b -> existsb setting_action l = false ->
  (existsb key_action l = true -> rcv = ctx_current c) ->
  exists s', execute_actions c rcv n l s acc = Ok (s', (acc ++ flat_map batch_of l)%list) /\ same s' (kept l b).
Proof.
  induction l as [|a l IH]; intros s b acc S HS HK.
  - exists s. cbn. rewrite app_nil_r. split; [reflexivity|]. unfold kept. rewrite filter_all by auto.
    destruct b. exact S.
  - assert (NEXT : forall s1 b1 x, same s1 b1 -> batch_of a = [x] -> kept (a :: l) b = kept l b1 ->
      exists s', execute_actions c rcv n l s1 (acc ++ [x])%list = Ok (s', (acc ++ flat_map batch_of (a :: l))%list) /\
        same s' (kept (a :: l) b)).
    { intros s1 b1 x S1 B K. cbn [existsb] in HS, HK. apply orb_false_iff in HS. destruct HS as [_ HS].
      destruct (IH s1 b1 (acc ++ [x])%list S1 HS) as (s' & E & S').
      { intros H. apply HK. rewrite H. apply orb_true_r. }
      exists s'. rewrite E, K. cbn [flat_map]. rewrite B, <- app_assoc. auto. }
    assert (PL : forall x, batch_of a = [x] -> (forall k, deletes_key k a = false) ->
      exists s', execute_actions c rcv n l s (acc ++ [x])%list = Ok (s', (acc ++ flat_map batch_of (a :: l))%list) /\
        same s' (kept (a :: l) b)).
    { intros x B D. apply (NEXT s b); auto. unfold kept. f_equal. apply filter_ext. intros i. cbn [existsb]. now rewrite D. }
    destruct a; cbn [execute_actions]; try (apply PL; reflexivity); try discriminate HS.
    + unfold assert_self_request. rewrite (proj2 (String.eqb_eq _ _) (HK eq_refl)). cbn [require bind].
      destruct perm; apply PL; reflexivity.
    + unfold assert_self_request. rewrite (proj2 (String.eqb_eq _ _) (HK eq_refl)). cbn [require bind].
      apply (NEXT _ (with_items b (filter (fun i => negb (String.eqb (i_by i) pk)) (b_items b))));
        [now apply drop_same|reflexivity|].
      unfold kept, with_items. cbn [b_quorum b_next b_limit b_items]. rewrite filter_filter. f_equal. apply filter_ext. intros i. cbn [existsb deletes_key].
      now rewrite negb_orb.
Qed.

Lemma refused_key c rcv n l : forall s acc, existsb setting_action l = false -> existsb key_action l = true ->
  rcv <> ctx_current c -> exists e, execute_actions c rcv n l s acc = Panic e.
Proof.
  intros s acc HS HK HR. revert s acc. induction l as [|a l IH]; [discriminate|]. intros s acc.
  cbn [existsb] in HS, HK. apply orb_false_iff in HS. destruct HS as [HS1 HS2].
  apply String.eqb_neq in HR.
  destruct a; cbn [execute_actions key_action orb] in *; try discriminate; try (apply IH; assumption);
  unfold assert_self_request; rewrite HR; cbn; eauto.
Qed.
Lemma refused_setting c rcv n l : forall s acc, existsb setting_action l = true ->
  n <> 1%nat \/ rcv <> ctx_current c -> exists e, execute_actions c rcv n l s acc = Panic e.
Proof.
  intros s acc HS HR. revert s acc. induction l as [|a l IH]; [discriminate|]. intros s acc.
  assert (HR' : String.eqb rcv (ctx_current c) && Nat.eqb n 1 = false).
  { destruct (String.eqb_spec rcv (ctx_current c)), (Nat.eqb_spec n 1); try reflexivity. destruct HR; contradiction. }
  cbn [existsb] in HS.
  destruct a; cbn [execute_actions setting_action orb] in *; try (apply IH; assumption);
  unfold assert_one_action_only, assert_self_request, require;
  destruct (String.eqb rcv (ctx_current c)); cbn [bind andb] in *; eauto; try (rewrite HR'; cbn [bind]; eauto);
  try (destruct perm; apply IH; assumption); apply IH; assumption.
Qed.

Lemma kept_done r b : existsb setting_action (actions r) = false -> done_on_board r b = kept (actions r) b.
Proof.
  intros H. unfold done_on_board, kept, with_items. destruct (actions r) as [|a [|a' l]]; [reflexivity| |].
  - destruct a; try reflexivity; discriminate H.
  - destruct a; reflexivity.
Qed.

Lemma execute_same c s b r : same s b ->
  match execute_request c s r with
  | Ok (s', p) => can_be_done (ctx_current c) r = true /\ p = asked r /\ same s' (done_on_board r b)
  | Panic _ => can_be_done (ctx_current c) r = false
  end.
Proof.
  intros S. unfold execute_request, can_be_done.
  destruct (existsb setting_action (actions r)) eqn:HS.
  - destruct (String.eqb_spec (receiver_id r) (ctx_current c)) as [HR|HR].
    + destruct (Nat.eqb_spec (List.length (actions r)) 1) as [HL|HL].
      * destruct r as [rcv [|a [|? ?]]]; try discriminate. cbn [receiver_id actions] in *. subst rcv.
        destruct a; try discriminate; cbn [List.length execute_actions]; unfold assert_one_action_only, assert_self_request;
        rewrite String.eqb_refl; cbn; repeat split; try apply S;
        cbn [done_on_board b_items b_quorum b_next b_limit actions existsb deletes_key orb negb];
        rewrite ?filter_all by auto; try apply S.
      * destruct (refused_setting c (receiver_id r) (List.length (actions r)) (actions r) s [] HS (or_introl HL)) as [e E].
        rewrite E. cbn. now rewrite andb_false_r.
    + destruct (refused_setting c (receiver_id r) (List.length (actions r)) (actions r) s [] HS (or_intror HR)) as [e E].
      rewrite E. cbn. now rewrite andb_false_r.
  - destruct (existsb key_action (actions r)) eqn:HK.
    + destruct (String.eqb_spec (receiver_id r) (ctx_current c)) as [HR|HR].
      * destruct (plain_same c (receiver_id r) (List.length (actions r)) (actions r) s b [] S HS (fun _ => HR)) as (s' & E & S').
        rewrite E. cbn. split; [reflexivity|]. split; [reflexivity|]. now rewrite kept_done.
      * destruct (refused_key c (receiver_id r) (List.length (actions r)) (actions r) s [] HS HK HR) as [e E].
        rewrite E. reflexivity.
    + destruct (plain_same c (receiver_id r) (List.length (actions r)) (actions r) s b [] S HS) as (s' & E & S'); [congruence|].
      rewrite E. cbn. split; [reflexivity|]. split; [reflexivity|]. now rewrite kept_done.
Qed.

Lemma smem_existsb k l : smem k l = existsb (String.eqb k) l.
Proof. reflexivity. Qed.

Lemma confirm_same c s b id : same s b -> ctx_current c = ctx_predecessor c ->
  match confirm c s id, agree (ctx_current c) (ctx_signer_pk c) id b with
  | Ok (s', p), Some (b', p') => p = p' /\ same s' b'
  | Panic _, None => True
  | _, _ => False
  end.
Proof.
  intros S HC. unfold confirm, assert_valid_request, agree. rewrite HC, String.eqb_refl. cbn [require bind].
  destruct (lookup id (b_items b)) as [i|] eqn:L.
  - pose proof (sm_req _ _ S id) as G. pose proof (sm_conf _ _ S id) as G'. rewrite L in G, G'. cbn in G, G'.
    unfold mmem. rewrite G, G'. cbn [require bind expect]. rewrite smem_existsb.
    pose proof (lookup_in _ _ _ L) as [LI LE]. pose proof (sm_small _ _ S i LI) as SM.
    destruct (existsb (String.eqb (ctx_signer_pk c)) (i_confirmed i)) eqn:EX; cbn [negb require bind orb]; [exact I|].
    unfold slength. rewrite N.mod_small by exact SM. unfold add32, add_chk, fits.
    destruct (N.of_nat (List.length (i_confirmed i)) + 1 <? U32_BOUND) eqn:B; cbn [negb bind]; [|exact I].
    rewrite (sm_quorum _ _ S). destruct (b_quorum b <=? N.of_nat (List.length (i_confirmed i)) + 1) eqn:Q.
    + destruct (remove_same s b id S) as (s1 & i' & L' & E & S1); [congruence|]. rewrite L in L'. injection L' as <-.
      rewrite E. cbn [bind]. pose proof (execute_same c s1 _ (i_request i) S1) as X.
      destruct (execute_request c s1 (i_request i)) as [[s2 p]|e]; cbn [bind]; rewrite <- HC.
      * destruct X as (-> & -> & X). auto.
      * now rewrite X.
    + split; [reflexivity|].
      assert (NT : forall x j, lookup x (b_items b) = Some j -> (i_id j =? id) = (x =? id)).
      { intros x j X. apply lookup_in in X. destruct X as [_ <-]. reflexivity. }
      apply N.ltb_lt in B.
      assert (ND : sinsert (ctx_signer_pk c) (i_confirmed i) = (i_confirmed i ++ [ctx_signer_pk c])%list).
      { unfold sinsert. now rewrite smem_existsb, EX. }
      split; cbn [with_items b_quorum b_next b_limit b_items num_confirmations request_nonce active_requests_limit requests confirmations];
        fold (note id (ctx_signer_pk c) (b_items b)).
      * pose proof (sm_ok _ _ S) as O.
        split; cbn [num_confirmations request_nonce active_requests_limit requests confirmations num_requests_pk];
          try apply O; try solve [apply NoDup_minsert, O].
        -- intros x. rewrite mmem_minsert, (ok_same _ O). destruct (keqb_spec x id) as [->|]; [|reflexivity].
           cbn [orb]. apply mmem_mget. eauto.
      * reflexivity.
      * apply S.
      * apply S.
      * rewrite ids_note. apply S.
      * intros x. rewrite lookup_note, (sm_req _ _ S). destruct (lookup x (b_items b)) as [j|]; cbn; [|reflexivity].
        now destruct (i_id j =? id).
      * intros x. rewrite lookup_note, mget_minsert, (sm_conf _ _ S).
        change (keqb x id) with (x =? id). destruct (lookup x (b_items b)) as [j|] eqn:LX; cbn [option_map].
        -- rewrite (NT _ _ LX). destruct (N.eqb_spec x id) as [->|]; [|reflexivity].
           rewrite L in LX. injection LX as <-. now rewrite ND.
        -- destruct (N.eqb_spec x id) as [->|]; [congruence|reflexivity].
      * intros j X. unfold note in X. apply in_map_iff in X. destruct X as (j' & <- & X).
        pose proof (sm_small _ _ S j' X) as SJ. destruct (N.eqb_spec (i_id j') id) as [EJ|]; [|exact SJ].
        cbn [i_confirmed]. pose proof (in_lookup _ _ (sm_nd _ _ S) X) as LX. rewrite EJ, L in LX. injection LX as <-.
        rewrite app_length. cbn. lia.
  - pose proof (sm_req _ _ S id) as G. rewrite L in G. cbn in G. unfold mmem. rewrite G. exact I.
Qed.

Lemma delete_same c s b id : same s b -> ctx_current c = ctx_predecessor c ->
  match delete_request c s id, take_down (ctx_timestamp c) id b with
  | Ok (s', r), Some (b', r') => r = r' /\ same s' b'
  | Panic _, None => True
  | _, _ => False
  end.
Proof.
  intros S HC. unfold delete_request, assert_valid_request, take_down. rewrite HC, String.eqb_refl. cbn [require bind].
  destruct (lookup id (b_items b)) as [i|] eqn:L.
  - pose proof (sm_req _ _ S id) as G. pose proof (sm_conf _ _ S id) as G'. rewrite L in G, G'. cbn in G, G'.
    unfold mmem. rewrite G, G'. cbn [require bind expect signed added_timestamp]. unfold add64, add_chk, fits.
    change REQUEST_COOLDOWN with 900000000000.
    destruct (i_at i + 900000000000 <? U64_BOUND); cbn [bind]; [|now rewrite andb_false_r].
    rewrite andb_true_r. destruct (i_at i + 900000000000 <? ctx_timestamp c); cbn [require bind]; [|exact I].
    destruct (remove_same s b id S) as (s1 & i' & L' & E & S1); [congruence|]. rewrite L in L'. injection L' as <-.
    rewrite E. auto.
  - pose proof (sm_req _ _ S id) as G. rewrite L in G. cbn in G. unfold mmem. rewrite G. exact I.
Qed.

(** * One call, every history *)
Lemma call_same self ev s b : same s b ->
  match exec (ctx_of self ev) s (e_call ev), play self ev b with
  | Ok (s', o), Some (b', o') => o = o' /\ same s' b'
  | Panic _, None => True
  | _, _ => False
  end.
Proof.
  intros S. unfold exec, play. cbn [ctx_of ctx_attached].
  destruct (e_attached ev =? 0); [|rewrite andb_false_r; exact I]. rewrite andb_true_r. cbn [require bind].
  destruct (String.eqb_spec (e_pred ev) self) as [HP|HP].
  - assert (HC : ctx_current (ctx_of self ev) = ctx_predecessor (ctx_of self ev)) by (cbn; congruence).
    destruct (e_call ev) as [r|r|id|id].
    + pose proof (add_same _ _ _ r S HC) as X. cbn [ctx_of ctx_signer_pk ctx_timestamp] in X. fold (ctx_of self ev) in X.
      destruct (add_request (ctx_of self ev) s r) as [[s' id]|]; destruct (put_up (e_key ev) (e_time ev) r b) as [[b' id']|];
        cbn [bind]; try contradiction; auto. destruct X as [-> X]. auto.
    + unfold add_request_and_confirm.
      pose proof (add_same _ _ _ r S HC) as X. cbn [ctx_of ctx_signer_pk ctx_timestamp] in X. fold (ctx_of self ev) in X.
      destruct (add_request (ctx_of self ev) s r) as [[s' id]|]; destruct (put_up (e_key ev) (e_time ev) r b) as [[b' id']|];
        cbn [bind]; try contradiction; auto. destruct X as [-> S'].
      pose proof (confirm_same _ _ _ id' S' HC) as X. cbn [ctx_of ctx_signer_pk ctx_current] in X. fold (ctx_of self ev) in X.
      destruct (confirm (ctx_of self ev) s' id') as [[s2 p]|]; destruct (agree self (e_key ev) id' b') as [[b2 p']|];
        cbn [bind]; try contradiction; auto. destruct X as [-> X]. auto.
    + pose proof (delete_same _ _ _ id S HC) as X. cbn [ctx_of ctx_timestamp] in X. fold (ctx_of self ev) in X.
      destruct (delete_request (ctx_of self ev) s id) as [[s' r]|]; destruct (take_down (e_time ev) id b) as [[b' r']|];
        cbn [bind]; try contradiction; auto. destruct X as [-> X]. auto.
    + pose proof (confirm_same _ _ _ id S HC) as X. cbn [ctx_of ctx_signer_pk ctx_current] in X. fold (ctx_of self ev) in X.
      destruct (confirm (ctx_of self ev) s id) as [[s2 p]|]; destruct (agree self (e_key ev) id b) as [[b2 p']|];
        cbn [bind]; try contradiction; auto. destruct X as [-> X]. auto.
  - assert (HC : String.eqb self (e_pred ev) = false) by (apply String.eqb_neq; congruence).
    destruct (e_call ev) as [r|r|id|id]; unfold add_request_and_confirm, add_request, delete_request, confirm, assert_valid_request;
      cbn [ctx_of ctx_current ctx_predecessor]; rewrite HC; exact I.
Qed.

Lemma step_same self ev s b : same s b ->
  outcome self s ev = option_map snd (play self ev b) /\ same (step self s ev) (board_after self b ev).
Proof.
  intros S. pose proof (call_same self ev s b S) as X. unfold outcome, step, board_after.
  destruct (exec (ctx_of self ev) s (e_call ev)) as [[s' o]|]; destruct (play self ev b) as [[b' o']|];
    try contradiction; cbn; [destruct X as [-> X]|]; auto.
Qed.

Lemma history_same self evs : forall s b, same s b ->
  log self s evs = snd (play_all self b evs) /\ same (final self s evs) (fst (play_all self b evs)).
Proof.
  induction evs as [|ev evs IH]; intros s b S; cbn [log final play_all]; [auto|].
  destruct (step_same self ev s b S) as [E S']. destruct (IH _ _ S') as [L F].
  destruct (play_all self (board_after self b ev) evs) as [b' l]. cbn [fst snd] in *. rewrite E, L. auto.
Qed.

Lemma new_same k s : new false k = Ok s -> same s (blank k).
Proof.
  intros E. pose proof (new_ok _ _ E) as O. unfold new in E. inv_res. split; try reflexivity; [exact O|constructor|]. cbn. contradiction.
Qed.

Lemma same_shows s b : same s b -> shows s b.
Proof.
  intros S. unfold shows. do 3 (split; [apply S|]). split; [|split; [|split; [|split]]].
  - intros k. apply same_count, S.
  - intros id. split.
    + intros H. unfold list_request_ids in H. eapply Permutation_in in H.
    2: { unfold mkeys. apply Permutation_map, Permutation_sym, same_perm, S. }
    now rewrite <- mkeys_entries.
    + intros H. rewrite <- mkeys_entries in H. unfold list_request_ids. eapply Permutation_in; [|exact H].
    unfold mkeys. apply Permutation_map, same_perm, S.
  - unfold list_request_ids. apply (sm_ok _ _ S).
  - intros id. unfold get_request. rewrite (sm_req _ _ S). now destruct (lookup id (b_items b)).
  - intros id. unfold get_confirmations. rewrite (sm_conf _ _ S). destruct (lookup id (b_items b)); cbn; auto.
Qed.

Theorem multisig_by_the_book self k evs s0 : new false k = Ok s0 ->
  log self s0 evs = snd (play_all self (blank k) evs) /\
  shows (final self s0 evs) (fst (play_all self (blank k) evs)).
Proof.
  intros E. destruct (history_same self evs _ _ (new_same _ _ E)) as [L F]. split; [exact L|]. apply same_shows, F.
Qed.
