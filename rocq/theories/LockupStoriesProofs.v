(** Proofs about the stories of the calls of the lockup factory. *)
From Coq Require Import NArith Arith List Bool String Lia Permutation.
From Verif Require Import Prelude PreludeFacts MapFacts Messages LockupFactoryModel LockupFactorySpec LockupFactoryProofs.
From Verif Require Import FactoryAnswers FactoryStories FactoryStoriesProofs LockupStories.
Import ListNotations.
Open Scope N_scope.

Definition entries (t : town) : list (nat * msg) := combine (t_for t) (w_msgs (t_world t)).

Definition open_story (g : genesis) (k : nat) (l : list lnote) (e : msg) : Prop :=
  exists who x m a, asks_for g a m /\
  match e with
  | MCreate a' x' _ cb => a' = a /\ x' = x /\ cb = OnLockupCreate a x who /\ l = [NCalled k who x m]
  | MBack cb ok => cb = OnLockupCreate a x who /\
      l = if ok : bool then [NCalled k who x m; NCreated k a x] else [NCalled k who x m]
  end.
Definition full_story (g : genesis) (k : nat) (l : list lnote) : Prop :=
  refused k l \/ paid_back g k l \/ built g k l.

Record tinv (g : genesis) (s : factory) (b0 : N) (evs : list event) (l : list obs) (t : town) (ns : list lnote) : Prop :=
mkTinv {
  ti_inv : inv g s b0 evs l (t_world t);
  ti_len : List.length (t_for t) = List.length (w_msgs (t_world t));
  ti_books : books call msg (open_story g) (full_story g) (t_next t) (entries t) ns
}.

Lemma tracked_app g t a b : tracked g t (a ++ b) = tracked g (tracked g t a) b.
Proof. revert t. induction a as [|e a IH]; intros t; cbn; auto. Qed.
Lemma notes_app g t a b : notes g t (a ++ b) = (notes g t a ++ notes g (tracked g t a) b)%list.
Proof. revert t. induction a as [|e a IH]; intros t; cbn; auto. now rewrite IH, app_assoc. Qed.

Lemma entries_take t n k m : List.length (t_for t) = List.length (w_msgs (t_world t)) ->
  nth_error (w_msgs (t_world t)) n = Some m -> nth_error (t_for t) n = Some k ->
  Permutation (entries t) ((k, m) :: combine (drop_nth n (t_for t)) (drop_nth n (w_msgs (t_world t)))).
Proof.
  intros L M K. unfold entries. pose proof (nth_combine _ _ _ _ _ K M) as X. apply drop_nth_perm in X.
  now rewrite <- combine_drop in X.
Qed.
Lemma entries_more msgs w' fors next k m : List.length fors = List.length msgs -> w_msgs w' = (msgs ++ [m])%list ->
  entries (mkTown w' (fors ++ [k]) next) = (combine fors msgs ++ [(k, m)])%list.
Proof. intros L W. unfold entries. cbn [t_for t_world]. rewrite W. now rewrite combine_app. Qed.

Lemma track_world g t ev : List.length (t_for t) = List.length (w_msgs (t_world t)) ->
  t_world (fst (track g t ev)) = step g (t_world t) ev.
Proof.
  intros L. unfold step. destruct ev as [who attached m|n gas time|n|x|a]; cbn [track step_obs].
  - unfold serve. destruct (run _ _ _ _ _ _) as [[w' l]|]; reflexivity.
  - destruct (nth_error (w_msgs (t_world t)) n) as [[a x args cb|cb ok]|] eqn:M; try reflexivity.
    destruct (nth_same_length n _ _ _ (eq_sym L) M) as (k & K). rewrite K.
    destruct (create_lockup _ _ _ _ _ _ _); reflexivity.
  - destruct (nth_error (w_msgs (t_world t)) n) as [[a x args cb|cb ok]|] eqn:M; try reflexivity.
    destruct (nth_same_length n _ _ _ (eq_sym L) M) as (k & K). rewrite K.
    unfold serve. destruct (run _ _ _ _ _ _) as [[w' l]|]; reflexivity.
  - reflexivity.
  - reflexivity.
Qed.

Lemma run_create_ok g w who attached results owner duration timestamp vesting release whitelist w' l :
  run g w who attached results (Create owner duration timestamp vesting release whitelist) = Some (w', l) ->
  exists a args, a = lockup_name g owner /\
    w_msgs w' = (w_msgs w ++ [MCreate a attached args (OnLockupCreate a attached who)])%list /\
    l = [BAccepted who a attached].
Proof.
  unfold run. destruct (exec _ _ _) as [[s ps]|] eqn:E; [|discriminate].
  apply exec_create_ok in E. destruct E as (MC & -> & ->).
  destruct (_ <=? _); [|discriminate]. intros Q. injection Q as <- <-.
  eexists _, _. split; [reflexivity|]. split; reflexivity.
Qed.
Lemma run_callback g s b0 evs l w n a x u ok : inv g s b0 evs l w ->
  nth_error (w_msgs w) n = Some (MBack (OnLockupCreate a x u) ok) ->
  exists w', run g (mkWorld (w_factory w) (w_balance w) (w_accounts w) (drop_nth n (w_msgs w))) (g_self g) 0 [ok]
      (OnLockupCreate a x u) = Some (w', if ok : bool then [] else [BRefund u x]) /\
    w_msgs w' = drop_nth n (w_msgs w).
Proof.
  intros I E. pose proof (i_balance _ _ _ _ _ _ I) as B.
  destruct (take _ _ _ E) as (_ & T4).
  unfold run. cbn [w_factory w_balance w_accounts w_msgs]. rewrite exec_callback.
  destruct ok; cbn [total_tokens fold_right tokens_of fst snd msgs_of flat_map obs_of map app ref1] in *.
  - replace (0 <=? w_balance w + 0) with true by lia. eexists. split; [reflexivity|]. cbn. apply app_nil_r.
  - replace (x + 0 <=? w_balance w + 0) with true by lia. eexists. split; [reflexivity|]. cbn. apply app_nil_r.
Qed.
Lemma sub_length {A} (l : list A) x : (List.length (l ++ [x]) - List.length l = 1)%nat.
Proof. rewrite app_length. cbn. lia. Qed.

Lemma tinv_step g s b0 evs l t ns ev : tinv g s b0 evs l t ns ->
  exists l', tinv g s b0 (evs ++ [ev]) l' (fst (track g t ev)) (ns ++ snd (track g t ev)).
Proof.
  intros [I L B].
  assert (exists l', inv g s b0 (evs ++ [ev]) l' (t_world (fst (track g t ev)))) as (l' & I').
  { eexists. rewrite track_world by auto. apply inv_step, I. }
  exists l'.
  assert (List.length (t_for (fst (track g t ev))) = List.length (w_msgs (t_world (fst (track g t ev)))) /\
    books call msg (open_story g) (full_story g) (t_next (fst (track g t ev)))
      (entries (fst (track g t ev))) (ns ++ snd (track g t ev))) as [L' B']; [|now constructor].
  clear l' I'.
  destruct ev as [who attached m|n gas time|n|x|a]; cbn [track].
  - (* a call *)
    unfold serve. destruct (run g (t_world t) who attached [] m) as [[w' lo]|] eqn:R; cbn [fst snd].
    + destruct m as [owner duration timestamp vesting release whitelist|a x u].
      2:{ exfalso. unfold run in R. destruct (exec _ _ _) as [r|] eqn:X; [|discriminate].
          eapply exec_callback_stranger; eauto. }
      apply run_create_ok in R. destruct R as (a & args & EA & W & ->).
      cbn [t_for t_world t_next notes_of flat_map lockup_returns answer_of app].
      unfold new_for. rewrite W, sub_length. cbn [repeat]. split.
      * rewrite !app_length, L. reflexivity.
      * rewrite (entries_more _ _ _ _ _ _ L W). fold (entries t).
        apply books_call; auto.
        exists who, attached, (Create owner duration timestamp vesting release whitelist), a.
        split; [exists owner, duration, timestamp, vesting, release, whitelist; auto|]. auto.
    + split; [exact L|]. apply books_refused; auto. left. eexists _, _, _. reflexivity.
  - (* a creation *)
    destruct (nth_error (w_msgs (t_world t)) n) as [[a x args cb|cb ok]|] eqn:M; try (cbn [fst snd]; now rewrite app_nil_r).
    destruct (nth_same_length n _ _ _ (eq_sym L) M) as (k & K). rewrite K.
    pose proof (books_perm _ _ _ _ _ _ _ _ (entries_take _ _ _ _ L M K) B) as B1.
    pose proof (bk_open _ _ _ _ _ _ _ B1 _ _ (or_introl eq_refl)) as O.
    destruct O as (who & x0 & m & a0 & AF & -> & -> & -> & S).
    pose proof (drop_length n _ _ L) as L1.
    cbn [step_obs]. rewrite M. destruct (create_lockup _ _ _ _ _ _ _) as [p|];
      cbn [fst snd t_for t_world t_next notes_of flat_map app w_msgs].
    + split; [rewrite !app_length, L1; reflexivity|].
      erewrite entries_more; [|exact L1|reflexivity].
      eapply books_move; [exact B1|repeat constructor|]. rewrite S. exists who, x0, m, a0. cbn. auto.
    + split; [rewrite !app_length, L1; reflexivity|].
      erewrite entries_more; [|exact L1|reflexivity].
      eapply books_move; [exact B1|repeat constructor|]. rewrite S. exists who, x0, m, a0. cbn. auto.
  - (* a callback *)
    destruct (nth_error (w_msgs (t_world t)) n) as [[a x args cb|cb ok]|] eqn:M; try (cbn [fst snd]; now rewrite app_nil_r).
    destruct (nth_same_length n _ _ _ (eq_sym L) M) as (k & K). rewrite K.
    pose proof (books_perm _ _ _ _ _ _ _ _ (entries_take _ _ _ _ L M K) B) as B1.
    pose proof (bk_open _ _ _ _ _ _ _ B1 _ _ (or_introl eq_refl)) as O.
    destruct O as (who & x0 & m & a0 & AF & -> & S).
    pose proof (drop_length n _ _ L) as L1.
    destruct (run_callback _ _ _ _ _ _ _ _ _ _ _ I M) as (w' & R & W').
    unfold serve. rewrite R. unfold new_for. cbn [w_msgs]. rewrite W', Nat.sub_diag. cbn [repeat]. rewrite app_nil_r.
    destruct ok; cbn [fst snd t_for t_world t_next notes_of flat_map app lockup_returns bind is_promise_success ctx_results answer_of w_msgs].
    + split; [rewrite W'; exact L1|].
      unfold entries. cbn [t_for t_world]. rewrite W'.
      eapply books_finish; [exact B1|repeat constructor|]. rewrite S. right. right.
      exists who, x0, m, a0. auto.
    + split; [rewrite W'; exact L1|].
      unfold entries. cbn [t_for t_world]. rewrite W'.
      eapply books_finish; [exact B1|repeat constructor|]. rewrite S. right. left.
      exists who, x0, m, a0. auto.
  - cbn [fst snd]. rewrite app_nil_r. auto.
  - cbn [fst snd]. rewrite app_nil_r. auto.
Qed.

Lemma tinv_history g wl fnd t evs : town_starts g wl fnd t ->
  exists l, tinv g (mkFactory wl fnd) (w_balance (t_world t)) evs l (tracked g t evs) (notes g t evs).
Proof.
  intros (S & F & N). induction evs as [|h hs (l & IH)] using rev_ind.
  - exists []. cbn. constructor.
    + now apply inv_starts.
    + rewrite F. destruct S as [_ S _ _]. now rewrite S.
    + rewrite N. unfold entries. rewrite F. apply books_start.
  - destruct (tinv_step _ _ _ _ _ _ _ h IH) as (l' & X). exists l'.
    rewrite tracked_app, notes_app. cbn [tracked notes]. now rewrite app_nil_r.
Qed.

Lemma entries_fst t : List.length (t_for t) = List.length (w_msgs (t_world t)) -> map fst (entries t) = t_for t.
Proof. apply map_fst_combine. Qed.

Lemma lockup_stories g wl fnd t0 evs k : town_starts g wl fnd t0 -> (k < t_next (tracked g t0 evs))%nat ->
  let s := story k (notes g t0 evs) in
  (serving_call k (tracked g t0 evs) = 0%nat /\ (refused k s \/ paid_back g k s \/ built g k s)) \/
  (serving_call k (tracked g t0 evs) = 1%nat /\ under_way g k s).
Proof.
  intros T K s. destruct (tinv_history g wl fnd t0 evs T) as (l & [I L B]).
  unfold serving_call. rewrite <- (entries_fst _ L).
  destruct (books_serving _ _ _ _ _ _ _ k B K) as [[S D]|[S (e & _ & O)]]; [left; auto|right].
  split; auto. destruct O as (who & x & m & a & AF & O). exists who, x, m, a. split; auto.
  destruct e as [a' x' args cb|cb ok].
  - left. apply O.
  - destruct ok; [right|left]; apply O.
Qed.

(** * The tracked history is the plain one *)
Lemma notes_of_creations k l : creations (notes_of k l) = logged_creations l.
Proof. unfold creations, notes_of, logged_creations. induction l as [|[] l IH]; cbn; auto; now rewrite IH. Qed.
Lemma notes_of_payments k l : payments (notes_of k l) = refunded l.
Proof. unfold payments, notes_of, refunded. induction l as [|[] l IH]; cbn; auto; now rewrite IH. Qed.
Lemma notes_of_calls k l : calls_made (notes_of k l) = [].
Proof. unfold calls_made, notes_of. induction l as [|[] l IH]; cbn; auto. Qed.
Lemma answer_of_nothing k b r : creations (answer_of k b r) = [] /\ payments (answer_of k b r) = [] /\ calls_made (answer_of k b r) = [].
Proof. unfold answer_of. destruct b, r as [[|]|]; cbn; auto. Qed.

Lemma track_same g t ev : List.length (t_for t) = List.length (w_msgs (t_world t)) ->
  creations (snd (track g t ev)) = logged_creations (snd (step_obs g (t_world t) ev)) /\
  payments (snd (track g t ev)) = refunded (snd (step_obs g (t_world t) ev)) /\
  calls_made (snd (track g t ev)) = incoming_calls [ev] /\
  t_next (fst (track g t ev)) = (t_next t + List.length (incoming_calls [ev]))%nat.
Proof.
  intros L. destruct ev as [who attached m|n gas time|n|x|a]; cbn [track step_obs].
  - unfold serve. destruct (run _ _ _ _ _ _) as [[w' l]|]; cbn [fst snd].
    + destruct (answer_of_nothing (t_next t) true (lockup_returns (mkCtx (g_self g) who attached [] (g_sha256 g)) m)) as (A & B & C).
      change (NCalled ?a ?b ?c ?d :: ?l) with ([NCalled a b c d] ++ l)%list. rewrite !creations_app, !payments_app, !calls_made_app.
      rewrite A, B, C, !app_nil_r, notes_of_creations, notes_of_payments, notes_of_calls.
      do 3 (split; [reflexivity|]). cbn. lia.
    + do 3 (split; [reflexivity|]). cbn. lia.
  - destruct (nth_error (w_msgs (t_world t)) n) as [[a x args cb|cb ok]|] eqn:M; [|cbn; auto|cbn; auto].
    destruct (nth_same_length n _ _ _ (eq_sym L) M) as (k & K). rewrite K.
    destruct (create_lockup _ _ _ _ _ _ _); cbn [fst snd]; rewrite ?notes_of_creations, ?notes_of_payments, ?notes_of_calls; cbn; auto.
  - destruct (nth_error (w_msgs (t_world t)) n) as [[a x args cb|cb ok]|] eqn:M; [cbn; auto| |cbn; auto].
    destruct (nth_same_length n _ _ _ (eq_sym L) M) as (k & K). rewrite K.
    unfold serve. destruct (run _ _ _ _ _ _) as [[w' l]|]; cbn [fst snd].
    + destruct (answer_of_nothing k true (lockup_returns (mkCtx (g_self g) (g_self g) 0 [ok] (g_sha256 g)) cb)) as (A & B & C).
      rewrite creations_app, payments_app, calls_made_app, A, B, C, !app_nil_r, notes_of_creations, notes_of_payments, notes_of_calls.
      do 3 (split; [reflexivity|]). cbn. lia.
    + cbn. auto.
  - cbn. auto.
  - cbn. auto.
Qed.

Lemma lockup_same_history g wl fnd t0 evs : town_starts g wl fnd t0 ->
  t_world (tracked g t0 evs) = final g (t_world t0) evs /\
  creations (notes g t0 evs) = logged_creations (log g (t_world t0) evs) /\
  payments (notes g t0 evs) = refunded (log g (t_world t0) evs) /\
  calls_made (notes g t0 evs) = incoming_calls evs /\
  t_next (tracked g t0 evs) = List.length (incoming_calls evs).
Proof.
  intros T. induction evs as [|ev hs IH] using rev_ind.
  - cbn. destruct T as (_ & _ & N). auto.
  - destruct IH as (W & C & P & K & N). destruct (tinv_history g wl fnd t0 hs T) as (l & [_ L _]).
    destruct (track_same g (tracked g t0 hs) ev L) as (C' & P' & K' & N').
    pose proof (track_world g (tracked g t0 hs) ev L) as W'.
    rewrite tracked_app, notes_app, log_app, final_app. cbn [tracked notes final log]. rewrite !app_nil_r.
    rewrite creations_app, payments_app, calls_made_app, C, P, K, C', P', K', W', N', W, N.
    unfold logged_creations, refunded, incoming_calls. rewrite !flat_map_app, app_length. auto.
Qed.

Lemma lockup_refused g wl fnd t0 evs who x m : town_starts g wl fnd t0 ->
  let t := tracked g t0 evs in
  let t' := fst (track g t (ECall who x m)) in
  if accepts g (t_world t) who x m
  then under_way g (t_next t) (snd (track g t (ECall who x m))) /\ serving_call (t_next t) t' = 1%nat
  else snd (track g t (ECall who x m)) = [NCalled (t_next t) who x m; NAnswer (t_next t) SFailed] /\
       t_world t' = t_world t.
Proof.
  intros T t t'. unfold accepts, t'. clear t'. destruct (tinv_history g wl fnd t0 evs T) as (l & [I L B]). fold t in I, L, B.
  assert (FR : serving (t_next t) (t_for t) = 0%nat).
  { rewrite <- (entries_fst _ L). apply count_occ_not_In. intros X. apply (bk_low _ _ _ _ _ _ _ B) in X. lia. }
  cbn [track]. unfold serve. destruct (run g (t_world t) who x [] m) as [[w' lo]|] eqn:R; cbn [fst snd].
  - destruct m as [owner duration timestamp vesting release whitelist|a y u].
    2:{ exfalso. unfold run in R. destruct (exec _ _ _) as [r|] eqn:X; [|discriminate].
        eapply exec_callback_stranger; eauto. }
    apply run_create_ok in R. destruct R as (a & args & EA & W & ->). split.
    + cbn. exists who, x, (Create owner duration timestamp vesting release whitelist), a.
      split; [exists owner, duration, timestamp, vesting, release, whitelist; auto|auto].
    + unfold serving_call, serving, new_for in *. cbn [t_for]. rewrite W, sub_length.
      rewrite !count_occ_app in *. cbn [repeat count_occ]. destruct (Nat.eq_dec (t_next t) (t_next t)); [lia|congruence].
  - auto.
Qed.
