(** Proofs about the stories of the calls of the multisig factory. *)
From Coq Require Import NArith Arith List Bool String Lia Permutation.
From Verif Require Import Prelude PreludeFacts MapFacts Messages MultisigFactoryModel MultisigFactorySpec MultisigFactoryProofs.
From Verif Require Import FactoryAnswers FactoryStories FactoryStoriesProofs MultisigStories.
Import ListNotations.
Open Scope N_scope.

Definition entries (t : town) : list (nat * (account_id * promise)) := combine (t_for t) (w_msgs (t_world t)).

Definition open_story (self : account_id) (k : nat) (l : list mnote) (e : account_id * promise) : Prop :=
  exists who x name ms n, p_account (snd e) = (name ++ "." ++ self)%string /\ p_amount (snd e) = x /\
    l = [NCalled k who x (name, ms, n)].
Definition full_story (self : account_id) (k : nat) (l : list mnote) : Prop :=
  refused k l \/ lost self k l \/ built self k l.

Record tinv (self : account_id) (t : town) (ns : list mnote) : Prop :=
mkTinv {
  ti_len : List.length (t_for t) = List.length (w_msgs (t_world t));
  ti_books : books mcall (account_id * promise) (open_story self) (full_story self) (t_next t) (entries t) ns
}.

Lemma tracked_app g t a b : tracked g t (a ++ b) = tracked g (tracked g t a) b.
Proof. revert t. induction a as [|e a IH]; intros t; cbn; auto. Qed.
Lemma notes_app g t a b : notes g t (a ++ b) = (notes g t a ++ notes g (tracked g t a) b)%list.
Proof. revert t. induction a as [|e a IH]; intros t; cbn; auto. now rewrite IH, app_assoc. Qed.

Lemma entries_take t n k m : List.length (t_for t) = List.length (w_msgs (t_world t)) ->
  nth_error (w_msgs (t_world t)) n = Some m -> nth_error (t_for t) n = Some k ->
  Permutation (entries t) ((k, m) :: combine (drop_nth n (t_for t)) (drop_nth n (w_msgs (t_world t)))).
Proof.
  intros L M K. unfold entries. pose proof (nth_combine _ _ _ _ _ K M) as X. apply drop_nth_perm in X.
  now rewrite <- combine_drop in X.
Qed.
Lemma entries_more msgs w' fors next k m : List.length fors = List.length msgs -> w_msgs w' = (msgs ++ [m])%list ->
  entries (mkTown w' (fors ++ [k]) next) = (combine fors msgs ++ [(k, m)])%list.
Proof. intros L W. unfold entries. cbn [t_for t_world]. rewrite W. now rewrite combine_app. Qed.
Lemma sub_length {A} (l : list A) x : (List.length (l ++ [x]) - List.length l = 1)%nat.
Proof. rewrite app_length. cbn. lia. Qed.

Lemma track_world self t ev : List.length (t_for t) = List.length (w_msgs (t_world t)) ->
  t_world (fst (track self t ev)) = step self (t_world t) ev.
Proof.
  intros L. unfold step, track. destruct ev as [who attached gas name ms k|n gas|x|a]; try reflexivity.
  - destruct (step_obs _ _ _). reflexivity.
  - cbn [step_obs]. destruct (nth_error (w_msgs (t_world t)) n) as [[who p]|] eqn:M.
    + destruct (nth_same_length n _ _ _ (eq_sym L) M) as (k & K). rewrite K.
      destruct (create_multisig _ _ _ _); reflexivity.
    + destruct (nth_error (t_for t) n) as [k|] eqn:K; [|reflexivity].
      destruct (nth_same_length n _ _ _ L K) as (m & X). congruence.
Qed.

Lemma tinv_step self t ns ev : tinv self t ns -> tinv self (fst (track self t ev)) (ns ++ snd (track self t ev)).
Proof.
  intros [L B]. unfold track. destruct ev as [who attached gas name ms n|n gas|x|a]; cbn [step_obs].
  - destruct (create (mkCtx self who attached gas) name ms n) as [p|] eqn:E.
    + unfold create in E. cbn [ctx_current ctx_attached ctx_prepaid_gas] in E. inv_res. cbn [p_amount p_account].
      replace (attached <=? w_balance (t_world t) + attached) with true by lia.
      cbn [w_msgs]. rewrite sub_length. cbn [repeat fst snd notes_of flat_map app multisig_returns].
      constructor; cbn [t_for t_world t_next w_msgs]; [rewrite !app_length, L; reflexivity|].
      erewrite entries_more; [|exact L|reflexivity]. fold (entries t). apply books_call; auto.
      exists who, attached, name, ms, n. auto.
    + cbn [fst snd]. rewrite Nat.sub_diag. cbn [repeat notes_of flat_map app]. rewrite app_nil_r.
      constructor; [exact L|]. apply books_refused; auto. left. eexists _, _, _. reflexivity.
  - destruct (nth_error (w_msgs (t_world t)) n) as [[who p]|] eqn:M.
    + destruct (nth_same_length n _ _ _ (eq_sym L) M) as (k & K).
      pose proof (books_perm _ _ _ _ _ _ _ _ (entries_take _ _ _ _ L M K) B) as B1.
      pose proof (bk_open _ _ _ _ _ _ _ B1 _ _ (or_introl eq_refl)) as O.
      destruct O as (who' & x & name & ms & nn & E1 & E2 & S). cbn [snd] in E1, E2.
      pose proof (drop_length n _ _ L) as L1.
      destruct (create_multisig _ _ _ _) as [s|]; rewrite K; cbn [fst snd notes_of flat_map app succeeded existsb orb];
        (constructor; [exact L1|]); (eapply books_finish; [exact B1|repeat constructor|]); rewrite S, ?E1, ?E2; right.
      * right. exists who', x, name, ms, nn. reflexivity.
      * left. eexists _, _, _. reflexivity.
    + destruct (nth_error (t_for t) n) as [k|] eqn:K.
      * destruct (nth_same_length n _ _ _ L K) as (m & X). congruence.
      * cbn [fst snd]. rewrite app_nil_r. constructor; auto.
  - cbn [fst snd]. rewrite app_nil_r. constructor; auto.
  - cbn [fst snd]. rewrite app_nil_r. constructor; auto.
Qed.

Lemma tinv_history self t evs : town_starts t -> tinv self (tracked self t evs) (notes self t evs).
Proof.
  intros (S & F & N). induction evs as [|h hs IH] using rev_ind.
  - cbn. constructor.
    + now rewrite F, S.
    + rewrite N. unfold entries. rewrite F. apply books_start.
  - rewrite tracked_app, notes_app. cbn [tracked notes]. rewrite app_nil_r. now apply tinv_step.
Qed.

Lemma multisig_stories self t0 evs k : town_starts t0 -> (k < t_next (tracked self t0 evs))%nat ->
  let s := story k (notes self t0 evs) in
  (serving_call k (tracked self t0 evs) = 0%nat /\ (refused k s \/ lost self k s \/ built self k s)) \/
  (serving_call k (tracked self t0 evs) = 1%nat /\ under_way k s).
Proof.
  intros T K s. destruct (tinv_history self t0 evs T) as [L B].
  unfold serving_call. rewrite <- (map_fst_combine _ _ L). fold (entries (tracked self t0 evs)).
  destruct (books_serving _ _ _ _ _ _ _ k B K) as [[S D]|[S (e & _ & O)]]; [left; auto|right].
  split; auto. destruct O as (who & x & name & ms & n & _ & _ & O). exists who, x, (name, ms, n). exact O.
Qed.

Lemma notes_of_creations k l : creations (notes_of k l) = logged_creations l.
Proof. unfold creations, notes_of, logged_creations. induction l as [|[] l IH]; cbn; auto; now rewrite IH. Qed.
Lemma notes_of_payments k l : payments (notes_of k l) = logged_payments l.
Proof. unfold payments, notes_of, logged_payments. induction l as [|[] l IH]; cbn; auto; now rewrite IH. Qed.
Lemma notes_of_calls k l : calls_made (notes_of k l) = [].
Proof. unfold calls_made, notes_of. induction l as [|[] l IH]; cbn; auto. Qed.

Lemma track_same self t ev : List.length (t_for t) = List.length (w_msgs (t_world t)) ->
  creations (snd (track self t ev)) = logged_creations (snd (step_obs self (t_world t) ev)) /\
  payments (snd (track self t ev)) = logged_payments (snd (step_obs self (t_world t) ev)) /\
  calls_made (snd (track self t ev)) = incoming_calls [ev] /\
  t_next (fst (track self t ev)) = (t_next t + List.length (incoming_calls [ev]))%nat.
Proof.
  intros L. unfold track. destruct ev as [who attached gas name ms n|n gas|x|a].
  - destruct (step_obs _ _ _) as [w' l] eqn:E. cbn [fst snd t_next].
    set (tail := match _ with O => _ | S _ => _ end).
    assert (creations tail = [] /\ payments tail = [] /\ calls_made tail = []) as (A & B & C)
      by (unfold tail; cbn [multisig_returns]; destruct (_ - _)%nat; auto).
    change (NCalled ?a ?b ?c ?d :: ?l) with ([NCalled a b c d] ++ l)%list. rewrite !creations_app, !payments_app, !calls_made_app.
    rewrite A, B, C, !app_nil_r, notes_of_creations, notes_of_payments, notes_of_calls.
    do 3 (split; [reflexivity|]). cbn. lia.
  - destruct (step_obs _ _ _) as [w' l] eqn:E. cbn [fst snd t_next].
    destruct (nth_error (t_for t) n) as [k|] eqn:K; cbn [fst snd].
    + rewrite !creations_app, !payments_app, !calls_made_app, notes_of_creations, notes_of_payments, notes_of_calls.
      cbn. rewrite !app_nil_r. auto.
    + cbn [step_obs] in E. destruct (nth_error (w_msgs (t_world t)) n) eqn:M.
      * destruct (nth_same_length n _ _ _ (eq_sym L) M) as (m & X). congruence.
      * injection E as <- <-. cbn. auto.
  - cbn. auto.
  - cbn. auto.
Qed.

Lemma multisig_same_history self t0 evs : town_starts t0 ->
  t_world (tracked self t0 evs) = final self (t_world t0) evs /\
  creations (notes self t0 evs) = logged_creations (log self (t_world t0) evs) /\
  payments (notes self t0 evs) = logged_payments (log self (t_world t0) evs) /\
  calls_made (notes self t0 evs) = incoming_calls evs /\
  t_next (tracked self t0 evs) = List.length (incoming_calls evs).
Proof.
  intros T. induction evs as [|ev hs IH] using rev_ind.
  - cbn. destruct T as (_ & _ & N). auto.
  - destruct IH as (W & C & P & K & N). destruct (tinv_history self t0 hs T) as [L _].
    destruct (track_same self (tracked self t0 hs) ev L) as (C' & P' & K' & N').
    pose proof (track_world self (tracked self t0 hs) ev L) as W'.
    rewrite tracked_app, notes_app, log_app, final_app. cbn [tracked notes final log]. rewrite !app_nil_r.
    rewrite creations_app, payments_app, calls_made_app, C, P, K, C', P', K', W', N', W, N.
    unfold logged_creations, logged_payments, incoming_calls. rewrite !flat_map_app, app_length. auto.
Qed.

Lemma multisig_refused self t0 evs who x gas name ms n : town_starts t0 ->
  let t := tracked self t0 evs in
  let t' := fst (track self t (ECreateCall who x gas name ms n)) in
  let l := snd (track self t (ECreateCall who x gas name ms n)) in
  if is_valid_account_id (name ++ "." ++ self)%string && (CREATE_CALL_GAS <=? gas)
  then l = [NCalled (t_next t) who x (name, ms, n)] /\ serving_call (t_next t) t' = 1%nat
  else l = [NCalled (t_next t) who x (name, ms, n); NAnswer (t_next t) SFailed] /\ t_world t' = t_world t.
Proof.
  intros T t t' l. unfold l, t'. clear l t'. destruct (tinv_history self t0 evs T) as [L B]. fold t in L, B.
  assert (FR : serving (t_next t) (t_for t) = 0%nat).
  { rewrite <- (map_fst_combine _ _ L). apply count_occ_not_In. intros X. apply (bk_low _ _ _ _ _ _ _ B) in X. lia. }
  unfold track. cbn [step_obs]. unfold create. cbn [ctx_current ctx_prepaid_gas ctx_attached].
  destruct (is_valid_account_id _); cbn [require bind andb].
  2:{ cbn [fst snd t_world]. rewrite Nat.sub_diag. auto. }
  unfold sub_chk. destruct (CREATE_CALL_GAS <=? gas) eqn:G; cbn [bind].
  - cbn [p_amount p_account]. replace (x <=? w_balance (t_world t) + x) with true by lia.
    cbn [w_msgs fst snd]. rewrite sub_length. cbn [repeat]. split; [reflexivity|].
    unfold serving_call, serving in *. cbn [t_for]. rewrite count_occ_app, FR. cbn [count_occ].
    destruct (Nat.eq_dec (t_next t) (t_next t)); [lia|congruence].
  - cbn [fst snd t_world]. rewrite Nat.sub_diag. auto.
Qed.
