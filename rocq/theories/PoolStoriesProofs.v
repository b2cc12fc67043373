(** Proofs about the stories of the calls of the staking pool factory. *)
From Coq Require Import NArith Arith List Bool String Lia Permutation.
From Verif Require Import Prelude PreludeFacts MapFacts Messages PoolFactoryModel PoolFactorySpec PoolFactoryProofs.
From Verif Require Import FactoryAnswers FactoryStories FactoryStoriesProofs PoolStories.
From Verif Require WhitelistModel.
Import ListNotations.
Open Scope N_scope.

(** What is in flight for a call: a message of the factory, or a request to the whitelist. *)
Definition flying := (msg + account_id * account_id)%type.
Definition entries (t : town) : list (nat * flying) :=
  (combine (t_for t) (map inl (w_msgs (t_world t))) ++ map (fun r => (fst r, inr (snd r))) (t_asks t))%list.

Definition open_story (self wl : account_id) (k : nat) (l : list pnote) (e : flying) : Prop :=
  exists who x m a, asks_for self a m /\
  match e with
  | inl (MCreate a' x' _ cb) => a' = a /\ x' = x /\ cb = OnStakingPoolCreate a x who /\ l = [NCalled k who x m]
  | inl (MBack cb ok) => cb = OnStakingPoolCreate a x who /\
      l = if ok : bool then [NCalled k who x m; NCreated k a x] else [NCalled k who x m]
  | inr (target, a') => target = wl /\ a' = a /\ l = [NCalled k who x m; NCreated k a x]
  end.
Definition full_story (self : account_id) (k : nat) (l : list pnote) : Prop :=
  refused k l \/ paid_back self k l \/ exists answer, built self k answer l.

Record tinv (self wl : account_id) (b0 : N) (evs : list event) (l : list obs) (t : town) (ns : list pnote) : Prop :=
mkTinv {
  ti_inv : inv self wl b0 evs l (t_world t);
  ti_len : List.length (t_for t) = List.length (w_msgs (t_world t));
  ti_books : books call flying (open_story self wl) (full_story self) (t_next t) (entries t) ns
}.

Lemma tracked_app self wl t a b : tracked self wl t (a ++ b) = tracked self wl (tracked self wl t a) b.
Proof. revert t. induction a as [|e a IH]; intros t; cbn; auto. Qed.
Lemma notes_app self wl t a b : notes self wl t (a ++ b) = (notes self wl t a ++ notes self wl (tracked self wl t a) b)%list.
Proof. revert t. induction a as [|e a IH]; intros t; cbn; auto. now rewrite IH, app_assoc. Qed.

Lemma entries_take t n k m : List.length (t_for t) = List.length (w_msgs (t_world t)) ->
  nth_error (w_msgs (t_world t)) n = Some m -> nth_error (t_for t) n = Some k ->
  Permutation (entries t)
    ((k, inl m) :: combine (drop_nth n (t_for t)) (map inl (drop_nth n (w_msgs (t_world t)))) ++
     map (fun r => (fst r, inr (snd r))) (t_asks t))%list.
Proof.
  intros L M K. unfold entries.
  assert (M' : nth_error (map inl (w_msgs (t_world t))) n = Some (inl m : flying)) by now rewrite nth_error_map, M.
  pose proof (nth_combine _ _ _ _ _ K M') as X. apply drop_nth_perm in X. rewrite <- combine_drop in X.
  replace (map inl (drop_nth n (w_msgs (t_world t)))) with (drop_nth n (map (@inl msg (account_id * account_id)) (w_msgs (t_world t)))).
  - change (?a :: ?b ++ ?c)%list with ((a :: b) ++ c)%list. apply Permutation_app_tail. exact X.
  - generalize (w_msgs (t_world t)). clear. induction n as [|n IH]; intros [|x l]; cbn; auto. now rewrite IH.
Qed.

Lemma entries_more msgs w' fors l asks next k m : List.length fors = List.length msgs ->
  w_msgs w' = (msgs ++ [m])%list ->
  Permutation (entries (mkTown w' (fors ++ [k]) l asks next))
    ((combine fors (map inl msgs) ++ map (fun r => (fst r, inr (snd r))) asks) ++ [(k, inl m)]).
Proof.
  intros L W. unfold entries. cbn [t_for t_world w_msgs t_asks]. rewrite W, map_app.
  rewrite combine_app by now rewrite map_length.
  cbn [map combine]. rewrite <- !app_assoc. apply Permutation_app_head. apply Permutation_app_comm.
Qed.

Definition event_of (h : happening) : list event := match h with HFactory ev => [ev] | _ => [] end.

(** The factory moves as if nothing were tracked. *)
Lemma track_world self wl t ev : List.length (t_for t) = List.length (w_msgs (t_world t)) ->
  t_world (fst (track self wl t (HFactory ev))) = step self (t_world t) ev.
Proof.
  intros L. unfold step. destruct ev as [who attached m|n gas epoch|n|x|a]; cbn [track step_obs].
  - unfold serve. destruct (run _ _ _ _ _ _) as [[w' l]|]; reflexivity.
  - destruct (nth_error (w_msgs (t_world t)) n) as [[a x args cb|cb ok]|] eqn:M; try reflexivity.
    destruct (nth_same_length n _ _ _ (eq_sym L) M) as (k & K). rewrite K.
    destruct (create_pool _ _ _ _ _ _ _); reflexivity.
  - destruct (nth_error (w_msgs (t_world t)) n) as [[a x args cb|cb ok]|] eqn:M; try reflexivity.
    destruct (nth_same_length n _ _ _ (eq_sym L) M) as (k & K). rewrite K.
    unfold serve. destruct (run _ _ _ _ _ _) as [[w' l]|]; reflexivity.
  - reflexivity.
  - reflexivity.
Qed.
Lemma track_list_world self wl t h : event_of h = [] -> t_world (fst (track self wl t h)) = t_world t.
Proof.
  destruct h as [ev|who attached m|n gas]; intros E; [discriminate| |]; cbn [track].
  - destruct (WM.exec _ _ _) as [[l b]|]; reflexivity.
  - destruct (nth_error _ _) as [[k [target a]]|]; [|reflexivity].
    destruct (_ && _); [|reflexivity]. destruct (WM.exec _ _ _) as [[l b]|]; reflexivity.
Qed.

Lemma asks_take (t : town) n k r : nth_error (t_asks t) n = Some (k, r) ->
  Permutation (entries t)
    ((k, inr r) :: entries (mkTown (t_world t) (t_for t) (t_list t) (drop_nth n (t_asks t)) (t_next t))).
Proof.
  intros E. unfold entries. cbn [t_world t_for t_asks].
  apply drop_nth_perm in E. apply (Permutation_map (fun r => (fst r, inr (snd r) : flying))) in E. cbn [map fst snd] in E.
  rewrite E. symmetry. apply Permutation_middle.
Qed.

Lemma run_create_ok self w who attached results name owner key fee w' l :
  run self w who attached results (CreateStakingPool name owner key fee) = Some (w', l) ->
  exists a m, direct_subaccount self name a /\ m = MCreate a attached (mkArgs owner key fee) (OnStakingPoolCreate a attached who) /\
    w_msgs w' = (w_msgs w ++ [m])%list /\ l = [BAccepted who a attached].
Proof.
  unfold run. destruct (exec _ _ _) as [[s ps]|] eqn:E; [|discriminate].
  apply exec_create_ok in E. destruct E as (MC & -> & ->). apply may_create_sub in MC. destruct MC as (SUB & _).
  destruct (_ <=? _); [|discriminate]. intros Q. injection Q as <- <-.
  exists (name ++ "." ++ self)%string. eexists. split; [exact SUB|]. split; [reflexivity|]. split; reflexivity.
Qed.
Lemma run_callback self wl b0 evs l w n a x u ok : inv self wl b0 evs l w ->
  nth_error (w_msgs w) n = Some (MBack (OnStakingPoolCreate a x u) ok) ->
  exists w', run self (mkWorld (w_factory w) (w_balance w) (w_accounts w) (drop_nth n (w_msgs w))) self 0 [ok]
      (OnStakingPoolCreate a x u) = Some (w', if ok : bool then [BWhitelist wl a] else [BRefund u x]) /\
    w_msgs w' = drop_nth n (w_msgs w).
Proof.
  intros I E. pose proof (i_wl _ _ _ _ _ _ I) as WL. pose proof (i_balance _ _ _ _ _ _ I) as B.
  destruct (take _ _ _ E) as (_ & _ & _ & T4).
  unfold run. cbn [w_factory w_balance w_accounts w_msgs]. rewrite exec_callback.
  destruct ok; cbn [total_tokens fold_right tokens_of fst snd msgs_of flat_map obs_of map app ref1] in *.
  - replace (0 + 0 <=? w_balance w + 0) with true by lia. eexists. split; [rewrite WL; reflexivity|].
    cbn. apply app_nil_r.
  - replace (x + 0 <=? w_balance w + 0) with true by lia. eexists. split; [reflexivity|]. cbn. apply app_nil_r.
Qed.

Lemma sub_length {A} (l : list A) x : (List.length (l ++ [x]) - List.length l = 1)%nat.
Proof. rewrite app_length. cbn. lia. Qed.

Lemma tinv_step self wl b0 evs l t ns h : tinv self wl b0 evs l t ns ->
  exists l', tinv self wl b0 (evs ++ event_of h) l' (fst (track self wl t h)) (ns ++ snd (track self wl t h)).
Proof.
  intros [I L B].
  assert (exists l', inv self wl b0 (evs ++ event_of h) l' (t_world (fst (track self wl t h)))) as (l' & I').
  { destruct h as [ev|who attached m|n gas].
    - eexists. rewrite track_world by auto. cbn [event_of]. apply inv_step, I.
    - exists l. rewrite track_list_world by reflexivity. cbn [event_of]. now rewrite app_nil_r.
    - exists l. rewrite track_list_world by reflexivity. cbn [event_of]. now rewrite app_nil_r. }
  exists l'.
  assert (List.length (t_for (fst (track self wl t h))) = List.length (w_msgs (t_world (fst (track self wl t h)))) /\
    books call flying (open_story self wl) (full_story self) (t_next (fst (track self wl t h)))
      (entries (fst (track self wl t h))) (ns ++ snd (track self wl t h))) as [L' B']; [|now constructor].
  clear l' I'.
  destruct h as [ev|who attached m|n gas]; [destruct ev as [who attached m|n gas epoch|n|x|a]| |]; cbn [track].
  - (* a call *)
    unfold serve. destruct (run self (t_world t) who attached [] m) as [[w' lo]|] eqn:R; cbn [fst snd].
    + destruct m as [name owner key fee|a x u].
      2:{ exfalso. unfold run in R. destruct (exec _ _ _) as [r|] eqn:X; [|discriminate].
          eapply exec_callback_stranger; eauto. }
      apply run_create_ok in R. destruct R as (a & m & SUB & -> & W & ->).
      set (m := MCreate a attached (mkArgs owner key fee) (OnStakingPoolCreate a attached who)) in *.
      cbn [t_for t_world t_next notes_of asks_of flat_map pool_returns answer_of app].
      unfold new_for. rewrite W, sub_length. cbn [repeat]. rewrite app_nil_r. split.
      * rewrite !app_length, L. reflexivity.
      * eapply books_perm; [symmetry; eapply entries_more; [exact L|exact W]|]. fold (entries t).
        apply books_call; auto.
        exists who, attached, (CreateStakingPool name owner key fee), a.
        split; [exists name, owner, key, fee; auto|]. unfold m. auto.
    + split; [exact L|]. apply books_refused; auto. left. eexists _, _, _. reflexivity.
  - (* a creation *)
    destruct (nth_error (w_msgs (t_world t)) n) as [[a x args cb|cb ok]|] eqn:M; try (cbn [fst snd]; now rewrite app_nil_r).
    destruct (nth_same_length n _ _ _ (eq_sym L) M) as (k & K). rewrite K.
    pose proof (books_perm _ _ _ _ _ _ _ _ (entries_take _ _ _ _ L M K) B) as B1.
    pose proof (bk_open _ _ _ _ _ _ _ B1 _ _ (or_introl eq_refl)) as O.
    destruct O as (who & x0 & m & a0 & AF & -> & -> & -> & S).
    pose proof (drop_length n _ _ L) as L1.
    cbn [step_obs]. rewrite M. destruct (create_pool _ _ _ _ _ _ _) as [p|];
      cbn [fst snd t_for t_world t_next notes_of flat_map app w_msgs].
    + split; [rewrite !app_length, L1; reflexivity|].
      eapply books_perm; [symmetry; eapply entries_more; [exact L1|reflexivity]|].
      eapply books_move; [exact B1|repeat constructor|]. rewrite S. exists who, x0, m, a0. cbn. auto.
    + split; [rewrite !app_length, L1; reflexivity|].
      eapply books_perm; [symmetry; eapply entries_more; [exact L1|reflexivity]|].
      eapply books_move; [exact B1|repeat constructor|]. rewrite S. exists who, x0, m, a0. cbn. auto.
  - (* a callback *)
    destruct (nth_error (w_msgs (t_world t)) n) as [[a x args cb|cb ok]|] eqn:M; try (cbn [fst snd]; now rewrite app_nil_r).
    destruct (nth_same_length n _ _ _ (eq_sym L) M) as (k & K). rewrite K.
    pose proof (books_perm _ _ _ _ _ _ _ _ (entries_take _ _ _ _ L M K) B) as B1.
    pose proof (bk_open _ _ _ _ _ _ _ B1 _ _ (or_introl eq_refl)) as O.
    destruct O as (who & x0 & m & a0 & AF & -> & S).
    pose proof (drop_length n _ _ L) as L1.
    destruct (run_callback _ _ _ _ _ _ _ _ _ _ _ I M) as (w' & R & W').
    unfold serve. rewrite R. unfold new_for. cbn [w_msgs]. rewrite W', Nat.sub_diag. cbn [repeat]. rewrite app_nil_r.
    destruct ok; cbn [fst snd t_for t_world t_next notes_of asks_of flat_map app pool_returns bind is_promise_success ctx_results answer_of w_msgs].
    + split; [rewrite W'; exact L1|]. rewrite app_nil_r.
      unfold entries. cbn [t_for t_world t_asks]. rewrite W', map_app. cbn [map fst snd].
      rewrite app_assoc. rewrite <- (app_nil_r ns). eapply books_move; [exact B1|constructor|].
      rewrite S. exists who, x0, m, a0. cbn. auto.
    + split; [rewrite W'; exact L1|]. rewrite app_nil_r.
      unfold entries. cbn [t_for t_world t_asks]. rewrite W'.
      eapply books_finish; [exact B1|repeat constructor|]. rewrite S. right. left.
      exists who, x0, m, a0. auto.
  - cbn [fst snd]. rewrite app_nil_r. auto.
  - cbn [fst snd]. rewrite app_nil_r. auto.
  - destruct (WM.exec _ _ _) as [[wl' b]|]; cbn [fst snd]; rewrite app_nil_r; auto.
  - destruct (nth_error (t_asks t) n) as [[k [target a]]|] eqn:A; [|cbn [fst snd]; rewrite app_nil_r; auto].
    pose proof (books_perm _ _ _ _ _ _ _ _ (asks_take _ _ _ _ A) B) as B1.
    pose proof (bk_open _ _ _ _ _ _ _ B1 _ _ (or_introl eq_refl)) as O.
    destruct O as (who & x0 & m & a0 & AF & -> & -> & S). rewrite String.eqb_refl. cbn [andb].
    destruct gas; [destruct (WM.exec _ _ _) as [[wl' b]|]|]; cbn [fst snd]; (split; [exact L|]);
      (eapply books_finish; [exact B1|repeat constructor|]); rewrite S; right; right.
    + exists (Some b), who, x0, m, a0. auto.
    + exists None, who, x0, m, a0. auto.
    + exists None, who, x0, m, a0. auto.
Qed.

Lemma tinv_history self wl t hs : town_starts wl t ->
  exists l, tinv self wl (w_balance (t_world t)) (events hs) l (tracked self wl t hs) (notes self wl t hs).
Proof.
  intros (S & F & A & N). induction hs as [|h hs (l & IH)] using rev_ind.
  - exists []. cbn. constructor.
    + now apply inv_starts.
    + rewrite F. destruct S as [_ S]. now rewrite S.
    + rewrite N. unfold entries. rewrite F, A. apply books_start.
  - destruct (tinv_step _ _ _ _ _ _ _ h IH) as (l' & X). exists l'.
    rewrite tracked_app, notes_app. cbn [tracked notes]. rewrite app_nil_r.
    replace (events (hs ++ [h])) with (events hs ++ event_of h)%list; [exact X|].
    unfold events. rewrite flat_map_app. destruct h; reflexivity.
Qed.

Lemma entries_fst t : List.length (t_for t) = List.length (w_msgs (t_world t)) ->
  map fst (entries t) = (t_for t ++ map fst (t_asks t))%list.
Proof.
  intros L. unfold entries. rewrite map_app, map_fst_combine by now rewrite map_length. f_equal.
  rewrite map_map. now apply map_ext.
Qed.

Lemma pool_stories self wl t0 hs k : town_starts wl t0 -> (k < t_next (tracked self wl t0 hs))%nat ->
  let s := story k (notes self wl t0 hs) in
  (serving_call k (tracked self wl t0 hs) = 0%nat /\
     (refused k s \/ paid_back self k s \/ exists answer, built self k answer s)) \/
  (serving_call k (tracked self wl t0 hs) = 1%nat /\ under_way self k s).
Proof.
  intros T K s. destruct (tinv_history self wl t0 hs T) as (l & [I L B]).
  unfold serving_call. rewrite <- (entries_fst _ L).
  destruct (books_serving _ _ _ _ _ _ _ k B K) as [[S D]|[S (e & _ & O)]]; [left; auto|right].
  split; auto. destruct O as (who & x & m & a & AF & O). exists who, x, m, a. split; auto.
  destruct e as [[a' x' args cb|cb ok]|[target a']].
  - left. apply O.
  - destruct ok; [right|left]; apply O.
  - right. apply O.
Qed.

(** * The tracked history is the plain one *)
Lemma notes_of_creations k l : creations (notes_of k l) = logged_creations l.
Proof. unfold creations, notes_of, logged_creations. induction l as [|[] l IH]; cbn; auto; now rewrite IH. Qed.
Lemma notes_of_payments k l : payments (notes_of k l) = refunded l.
Proof. unfold payments, notes_of, refunded. induction l as [|[] l IH]; cbn; auto; now rewrite IH. Qed.
Lemma notes_of_calls k l : calls_made (notes_of k l) = [].
Proof. unfold calls_made, notes_of. induction l as [|[] l IH]; cbn; auto. Qed.
Lemma answer_of_nothing k b r : creations (answer_of k b r) = [] /\ payments (answer_of k b r) = [] /\ calls_made (answer_of k b r) = [].
Proof. unfold answer_of. destruct b, r as [[|]|]; cbn; auto. Qed.

Lemma track_same self wl t h : List.length (t_for t) = List.length (w_msgs (t_world t)) ->
  creations (snd (track self wl t h)) = logged_creations (log self (t_world t) (event_of h)) /\
  payments (snd (track self wl t h)) = refunded (log self (t_world t) (event_of h)) /\
  calls_made (snd (track self wl t h)) = incoming_calls (event_of h) /\
  t_world (fst (track self wl t h)) = final self (t_world t) (event_of h).
Proof.
  intros L. destruct h as [ev|who attached m|n gas].
  - rewrite (track_world self wl t ev L). cbn [event_of log final incoming_calls flat_map]. rewrite !app_nil_r.
    destruct ev as [who attached m|n gas epoch|n|x|a]; cbn [track step_obs].
    + unfold serve. destruct (run _ _ _ _ _ _) as [[w' l]|]; cbn [fst snd].
      * destruct (answer_of_nothing (t_next t) true (pool_returns (mkCtx self who attached []) m)) as (A & B & C).
        change (NCalled ?a ?b ?c ?d :: ?l) with ([NCalled a b c d] ++ l)%list. rewrite !creations_app, !payments_app, !calls_made_app.
        rewrite A, B, C, !app_nil_r, notes_of_creations, notes_of_payments, notes_of_calls.
        auto.
      * auto.
    + destruct (nth_error (w_msgs (t_world t)) n) as [[a x args cb|cb ok]|] eqn:M; [|auto|auto].
      destruct (nth_same_length n _ _ _ (eq_sym L) M) as (k & K). rewrite K.
      destruct (create_pool _ _ _ _ _ _ _); cbn [fst snd]; rewrite ?notes_of_creations, ?notes_of_payments, ?notes_of_calls; auto.
    + destruct (nth_error (w_msgs (t_world t)) n) as [[a x args cb|cb ok]|] eqn:M; [auto| |auto].
      destruct (nth_same_length n _ _ _ (eq_sym L) M) as (k & K). rewrite K.
      unfold serve. destruct (run _ _ _ _ _ _) as [[w' l]|]; cbn [fst snd].
      * destruct (answer_of_nothing k true (pool_returns (mkCtx self self 0 [ok]) cb)) as (A & B & C).
        rewrite creations_app, payments_app, calls_made_app, A, B, C, !app_nil_r, notes_of_creations, notes_of_payments, notes_of_calls.
        auto.
      * auto.
    + auto.
    + auto.
  - cbn [event_of log final track]. destruct (WM.exec _ _ _) as [[l b]|]; auto.
  - cbn [event_of log final track]. destruct (nth_error _ _) as [[k [target a]]|]; auto.
    destruct (_ && _); auto. destruct (WM.exec _ _ _) as [[l b]|]; auto.
Qed.

Lemma pool_same_history self wl t0 hs : town_starts wl t0 ->
  t_world (tracked self wl t0 hs) = final self (t_world t0) (events hs) /\
  creations (notes self wl t0 hs) = logged_creations (log self (t_world t0) (events hs)) /\
  payments (notes self wl t0 hs) = refunded (log self (t_world t0) (events hs)) /\
  calls_made (notes self wl t0 hs) = incoming_calls (events hs) /\
  t_next (tracked self wl t0 hs) = List.length (incoming_calls (events hs)).
Proof.
  intros T. induction hs as [|h hs IH] using rev_ind.
  - cbn. destruct T as (_ & _ & _ & N). auto.
  - destruct IH as (W & C & P & K & N). destruct (tinv_history self wl t0 hs T) as (l & [_ L _]).
    destruct (track_same self wl (tracked self wl t0 hs) h L) as (C' & P' & K' & W').
    assert (E : events (hs ++ [h]) = (events hs ++ event_of h)%list)
      by (unfold events; rewrite flat_map_app; destruct h; reflexivity).
    rewrite tracked_app, notes_app, E, log_app, final_app. cbn [tracked notes]. rewrite app_nil_r.
    rewrite creations_app, payments_app, calls_made_app, C, P, K, C', P', K', W', W.
    unfold logged_creations, refunded, incoming_calls. rewrite !flat_map_app. do 4 (split; [reflexivity|]).
    rewrite app_length. fold (incoming_calls (events hs)). rewrite <- N.
    destruct h as [ev|who attached m|n gas]; [destruct ev as [who attached m|n gas epoch|n|x|a]| |]; cbn [track event_of flat_map app List.length].
    + unfold serve. destruct (run _ _ _ _ _ _) as [[w' l0]|]; cbn; lia.
    + destruct (nth_error _ n) as [[]|]; try (cbn; lia). destruct (nth_error (t_for _) n); [|cbn; lia].
      destruct (step_obs _ _ _). cbn. lia.
    + destruct (nth_error _ n) as [[]|]; try (cbn; lia). destruct (nth_error (t_for _) n); [|cbn; lia].
      unfold serve. destruct (run _ _ _ _ _ _) as [[w' l0]|]; cbn; lia.
    + cbn. lia.
    + cbn. lia.
    + destruct (WM.exec _ _ _) as [[wl' b]|]; cbn; lia.
    + destruct (nth_error _ _) as [[k [target a]]|]; [|cbn; lia].
      destruct (_ && _); [|cbn; lia]. destruct (WM.exec _ _ _) as [[wl' b]|]; cbn; lia.
Qed.

(** * What the whitelist's answer means *)
Lemma add_exec l self a : is_valid_account_id a = true ->
  match WM.exec (WM.mkCtx self 0) l (WM.AddStakingPool a) with
  | Ok (l', b) => WM.is_whitelisted l a = Ok (negb b) /\ WM.is_whitelisted l' a = Ok true
  | Panic _ => WM.is_factory_whitelisted l self <> Ok true /\ self <> WM.foundation_account_id l
  end.
Proof.
  intros V. unfold WM.exec, WM.add_staking_pool, WM.assert_called_by_foundation, WM.ls_insert, WM.is_whitelisted,
    WM.is_factory_whitelisted, WM.ls_contains. cbn [WM.ctx_attached WM.ctx_predecessor N.eqb require bind].
  rewrite V. cbn [require bind].
  destruct (smem (WM.lookup_key WM.FACTORY_PREFIX self) (WM.keys l)) eqn:F; cbn [negb require bind].
  - cbn [WM.keys]. rewrite negb_involutive. split; [reflexivity|]. f_equal. apply smem_in, sinsert_in. auto.
  - destruct (String.eqb_spec self (WM.foundation_account_id l)) as [E|E]; cbn [require bind].
    + cbn [WM.keys]. rewrite negb_involutive. split; [reflexivity|]. f_equal. apply smem_in, sinsert_in. auto.
    + split; auto. unfold require. destruct (is_valid_account_id self); cbn; congruence.
Qed.

Lemma pool_listed self wl t0 hs h k a r : town_starts wl t0 ->
  let t := tracked self wl t0 hs in
  let t' := fst (track self wl t h) in
  In (NListed k a r) (snd (track self wl t h)) ->
  match r with
  | Some b => WM.is_whitelisted (t_list t) a = Ok (negb b) /\ WM.is_whitelisted (t_list t') a = Ok true
  | None => t_list t' = t_list t /\
      ((exists n, h = HAsk n false) \/
       (WM.is_factory_whitelisted (t_list t) self <> Ok true /\ self <> WM.foundation_account_id (t_list t)))
  end.
Proof.
  intros T t t' H. destruct (tinv_history self wl t0 hs T) as (l & [I L B]). fold t in I, L, B.
  unfold t' in *. clear t'. revert H.
  assert (NO : forall k' l0 b r0, ~ In (NListed k a r) (notes_of k' l0 ++ answer_of k' b r0)).
  { intros k' l0 b r0 X. apply in_app_iff in X. destruct X as [X|X].
    - unfold notes_of in X. apply in_flat_map in X. destruct X as (o & _ & X). destruct o; cbn in X; intuition discriminate.
    - unfold answer_of in X. destruct b, r0 as [[|]|]; cbn in X; intuition discriminate. }
  destruct h as [ev|who attached m|n gas]; [destruct ev as [who attached m|n gas epoch|n|x|b]| |]; cbn [track].
  - unfold serve. destruct (run _ _ _ _ _ _) as [[w' lo]|]; cbn [fst snd]; intros [H|H]; try discriminate H.
    + exfalso. eapply NO, H.
    + destruct H as [H|[]]. discriminate H.
  - destruct (nth_error _ n) as [[]|]; try (intros []). destruct (nth_error (t_for _) n); [|intros []].
    destruct (step_obs _ _ _) as [w' lo]. cbn [fst snd]. intros H. exfalso. apply (NO n0 lo true (Ok Later)).
    apply in_or_app. auto.
  - destruct (nth_error _ n) as [[]|]; try (intros []). destruct (nth_error (t_for _) n); [|intros []].
    unfold serve. destruct (run _ _ _ _ _ _) as [[w' lo]|]; cbn [fst snd]; intros H.
    + exfalso. eapply NO, H.
    + destruct H as [H|[]]. discriminate H.
  - intros [].
  - intros [].
  - destruct (WM.exec _ _ _) as [[wl' b]|]; intros [].
  - destruct (nth_error (t_asks t) n) as [[k' [target a']]|] eqn:A; [|intros []].
    pose proof (books_perm _ _ _ _ _ _ _ _ (asks_take _ _ _ _ A) B) as B1.
    pose proof (bk_open _ _ _ _ _ _ _ B1 _ _ (or_introl eq_refl)) as O.
    destruct O as (who & x0 & m & a0 & AF & -> & -> & S). rewrite String.eqb_refl. cbn [andb].
    destruct AF as (name & owner & key & fee & _ & _ & _ & _ & V).
    destruct gas.
    + pose proof (add_exec (t_list t) self a0 V) as X.
      destruct (WM.exec _ _ _) as [[wl' b]|]; cbn [fst snd t_list]; intros [H|[H|[]]]; try discriminate H.
      * injection H as _ <- <-. exact X.
      * injection H as _ <- <-. auto.
    + cbn [fst snd t_list]; intros [H|[H|[]]]; try discriminate H. injection H as _ <- <-. eauto.
Qed.

(** * A refused call changes nothing; every other call is under way *)
Lemma pool_refused self wl t0 hs who x m : town_starts wl t0 ->
  let t := tracked self wl t0 hs in
  let t' := fst (track self wl t (HFactory (ECall who x m))) in
  if accepts self (t_world t) who x m
  then under_way self (t_next t) (snd (track self wl t (HFactory (ECall who x m)))) /\
       serving_call (t_next t) t' = 1%nat
  else snd (track self wl t (HFactory (ECall who x m))) = [NCalled (t_next t) who x m; NAnswer (t_next t) SFailed] /\
       t_world t' = t_world t /\ t_list t' = t_list t /\ t_asks t' = t_asks t.
Proof.
  intros T t t'. unfold accepts, t'. clear t'. destruct (tinv_history self wl t0 hs T) as (l & [I L B]). fold t in I, L, B.
  assert (FR : serving (t_next t) (t_for t ++ map fst (t_asks t)) = 0%nat).
  { rewrite <- (entries_fst _ L). apply count_occ_not_In. intros X. apply (bk_low _ _ _ _ _ _ _ B) in X. lia. }
  cbn [track]. unfold serve. destruct (run self (t_world t) who x [] m) as [[w' lo]|] eqn:R; cbn [fst snd].
  - destruct m as [name owner key fee|a y u].
    2:{ exfalso. unfold run in R. destruct (exec _ _ _) as [r|] eqn:X; [|discriminate].
        eapply exec_callback_stranger; eauto. }
    apply run_create_ok in R. destruct R as (a & m & SUB & -> & W & ->). split.
    + cbn. exists who, x, (CreateStakingPool name owner key fee), a. split; [exists name, owner, key, fee; auto|auto].
    + unfold serving_call, serving, new_for in *. cbn [t_for t_asks asks_of flat_map]. rewrite W, sub_length, app_nil_r.
      rewrite !count_occ_app in *. cbn [repeat count_occ]. destruct (Nat.eq_dec (t_next t) (t_next t)); [lia|congruence].
  - auto.
Qed.
