(** Proofs about the answers that callers of the lockup see. *)
From Coq Require Import NArith List Bool String Lia Permutation Arith.
From Verif Require Import Prelude PreludeFacts MapFacts LockupModel LockupWorld LockupSpec LockupEffects LockupInv
  LockupMoves LockupAnswers.
From Verif Require LockupBook LockupFacts.
From Verif Require Import LockupAnswersSpec.
Import ListNotations.
Open Scope N_scope.
Module LB := LockupBook.

(** * Lists *)
Lemma calls_app k a b : calls_of k (a ++ b) = (calls_of k a ++ calls_of k b)%list.
Proof. induction a as [|[j who m|j r x|j y] a IH]; cbn; auto. destruct (Nat.eqb j k); cbn; now rewrite IH. Qed.
Lemma requests_app k a b : requests_of k (a ++ b) = (requests_of k a ++ requests_of k b)%list.
Proof. induction a as [|[j who m|j r x|j y] a IH]; cbn; auto. destruct (Nat.eqb j k); cbn; now rewrite IH. Qed.
Lemma answers_app k a b : answers_of k (a ++ b) = (answers_of k a ++ answers_of k b)%list.
Proof. induction a as [|[j who m|j r x|j y] a IH]; cbn; auto. destruct (Nat.eqb j k); cbn; now rewrite IH. Qed.

Definition about (k : nat) (n : note) : Prop :=
  match n with NCalled j _ _ | NRequest j _ _ | NAnswer j _ => j = k end.
Lemma about_others k j l : Forall (about k) l -> j <> k ->
  calls_of j l = [] /\ requests_of j l = [] /\ answers_of j l = [].
Proof.
  intros H E. induction H as [|n l Hn H IH]; [auto|]. destruct IH as (I1 & I2 & I3).
  destruct n as [i who m|i r x|i y]; cbn in *; subst i; destruct (Nat.eqb_spec k j); try congruence; auto.
Qed.
Lemma shown_about k r : Forall (about k) (shown k r).
Proof. destruct r; cbn; repeat constructor. Qed.
Lemma answer_about k j a l : Forall (about k) l -> In (NAnswer j a) l -> j = k.
Proof. intros H Hi. rewrite Forall_forall in H. exact (H _ Hi). Qed.
Lemma answer_in k a l : In (NAnswer k a) l -> In a (answers_of k l).
Proof.
  induction l as [|n l IH]; cbn; [tauto|]. intros [->|H].
  - rewrite Nat.eqb_refl. now left.
  - destruct n; auto. destruct (Nat.eqb _ _); [right|]; auto.
Qed.

Definition bearing (k : nat) (x : msg * nat) : bool :=
  Nat.eqb (snd x) k && match fst x with MTokens _ => false | _ => true end.
Definition open_in (k : nat) (l : list (msg * nat)) : list msg := map fst (filter (bearing k) l).
Lemma open_for_in k t : open_for k t = open_in k (combine (w_msgs (t_world t)) (t_for t)).
Proof. reflexivity. Qed.
Lemma open_in_app k a b : open_in k (a ++ b) = (open_in k a ++ open_in k b)%list.
Proof. unfold open_in. now rewrite filter_app, map_app. Qed.

Lemma combine_app {A B} (a a' : list A) (b b' : list B) : List.length a = List.length b ->
  combine (a ++ a') (b ++ b') = (combine a b ++ combine a' b')%list.
Proof.
  revert b. induction a as [|x a IH]; intros [|y b] H; try discriminate; [reflexivity|].
  cbn. rewrite IH; [reflexivity|]. now injection H.
Qed.
Lemma combine_drop {A B} n (a : list A) (b : list B) :
  combine (drop_nth n a) (drop_nth n b) = drop_nth n (combine a b).
Proof.
  revert n b. induction a as [|x a IH]; intros n b; [now destruct n, b|].
  destruct b as [|y b]; destruct n as [|n]; cbn; auto; [now destruct a|now rewrite IH].
Qed.
Lemma drop_length {A B} n (a : list A) (b : list B) : List.length a = List.length b ->
  List.length (drop_nth n a) = List.length (drop_nth n b).
Proof.
  revert n b. induction a as [|x a IH]; intros [|n] [|y b] H; try discriminate; cbn; auto.
Qed.
Lemma nth_combine {A B} n (a : list A) (b : list B) x y :
  nth_error a n = Some x -> nth_error b n = Some y -> nth_error (combine a b) n = Some (x, y).
Proof.
  revert n b. induction a as [|z a IH]; intros [|n] [|u b] H1 H2; try discriminate; cbn in *; auto.
  congruence.
Qed.
Lemma nth_same_length {A B} n (a : list A) (b : list B) x : List.length a = List.length b ->
  nth_error a n = Some x -> exists y, nth_error b n = Some y.
Proof.
  intros H E. destruct (nth_error b n) eqn:F; [eauto|]. apply nth_error_None in F.
  assert (nth_error a n <> None) by congruence. apply nth_error_Some in H0. lia.
Qed.
Lemma filter_drop {A} (f : A -> bool) n l x : nth_error l n = Some x ->
  if f x then Permutation (filter f l) (x :: filter f (drop_nth n l)) else filter f (drop_nth n l) = filter f l.
Proof.
  revert n. induction l as [|y l IH]; intros [|n] H; try discriminate.
  - injection H as ->. cbn. now destruct (f x).
  - cbn in H. specialize (IH n H). cbn [drop_nth filter]. destruct (f x).
    + destruct (f y); [|exact IH]. rewrite IH. apply perm_swap.
    + destruct (f y); [now rewrite IH|exact IH].
Qed.
Lemma open_drop k n l m : nth_error l n = Some (m, k) ->
  match m with
  | MTokens _ => open_in k (drop_nth n l) = open_in k l
  | _ => forall x, open_in k l = [x] -> x = m /\ open_in k (drop_nth n l) = []
  end.
Proof.
  intros H. pose proof (filter_drop (bearing k) n l (m, k) H) as F. unfold bearing at 1 in F. cbn in F.
  rewrite Nat.eqb_refl in F. unfold open_in. destruct m; cbn in F; try (now rewrite F);
  intros x Hx; pose proof (Permutation_map fst F) as P; rewrite Hx in P;
  apply Permutation_length_1_inv in P; cbn in P; injection P as -> P; rewrite P; auto.
Qed.
Lemma open_mem k n l m : nth_error l n = Some (m, k) -> match m with MTokens _ => False | _ => True end ->
  open_in k l <> [].
Proof.
  intros H B E. unfold open_in in E. apply map_eq_nil in E.
  assert (In (m, k) (filter (bearing k) l)).
  { apply filter_In. split; [eapply nth_error_In; eauto|]. unfold bearing. cbn. rewrite Nat.eqb_refl. now destruct m. }
  rewrite E in H0. contradiction.
Qed.
Lemma open_drop_other j k n l m : nth_error l n = Some (m, k) -> j <> k -> open_in j (drop_nth n l) = open_in j l.
Proof.
  intros H E. pose proof (filter_drop (bearing j) n l (m, k) H) as F. unfold bearing at 1 in F. cbn in F.
  destruct (Nat.eqb_spec k j); [congruence|]. cbn in F. unfold open_in. now rewrite F.
Qed.
Definition bears (m : msg) : bool := match m with MTokens _ => false | _ => true end.
Lemma open_new k l : open_in k (combine l (repeat k (List.length l))) = filter bears l.
Proof.
  unfold open_in. induction l as [|m l IH]; [reflexivity|]. cbn. unfold bearing at 1. cbn. rewrite Nat.eqb_refl.
  cbn [andb]. unfold bears at 1. destruct m; cbn; now rewrite IH.
Qed.
Lemma open_new_other j k l : j <> k -> open_in j (combine l (repeat k (List.length l))) = [].
Proof.
  intros E. unfold open_in. induction l as [|m l IH]; [reflexivity|]. cbn. unfold bearing at 1. cbn.
  destruct (Nat.eqb_spec k j); [congruence|]. exact IH.
Qed.
Lemma more_app a new k : more a (a ++ new) k = repeat k (List.length new).
Proof. unfold more. rewrite app_length. f_equal. lia. Qed.
Lemma open_sub k a b m : In m (open_in k (combine a b)) -> In m a.
Proof.
  unfold open_in. intros H. apply in_map_iff in H. destruct H as ((x & y) & E & H). apply filter_In in H.
  destruct H as [H _]. cbn in E. subst x. eapply in_combine_l; eauto.
Qed.

(** * Where a call stands *)

(** The request that a call has led to, after the requests [reqs]. *)
Inductive asked (m : call) (s : contract) : list (remote * option answer) -> remote -> option call -> Prop :=
| A_select wl p : m = SelectStakingPool p ->
    asked m s [] (RIsWhitelisted wl p) (Some (OnWhitelistIsWhitelisted p))
| A_pool p op cb : owner_op m = Some (op, cb) -> at_pool s p -> asked m s [] (RPool p op) (Some cb)
| A_vote v : m = CheckTransfersVote -> asked m s [] (RGetResult v) (Some OnGetResultFromTransferPoll)
| A_transfer y r : m = Transfer y r -> asked m s [] (RTransfer r y) None
| A_key pk : m = AddFullAccessKey pk -> asked m s [] (RAddFullAccessKey pk) None
| A_unstake p : m = TerminationPrepareToWithdraw -> at_pool s p ->
    asked m s [] (RPool p PGetStaked) (Some OnGetAccountStakedBalanceToUnstake)
| A_withdraw p : m = TerminationPrepareToWithdraw -> at_pool s p ->
    asked m s [] (RPool p PGetUnstaked) (Some OnGetAccountUnstakedBalanceToWithdraw)
| A_pay r y : m = TerminationWithdraw r -> 0 < y ->
    asked m s [] (RTransfer r y) (Some (OnWithdrawUnvestedAmount y r))
| A_all_next p x : m = WithdrawAllFromStakingPool -> at_pool s p -> 0 < x ->
    asked m s [(RPool p PGetUnstaked, Some (ABalance x))] (RPool p (PWithdraw x)) (Some (OnStakingPoolWithdraw x))
| A_unstake_next p x : m = TerminationPrepareToWithdraw -> at_pool s p -> 0 < x ->
    asked m s [(RPool p PGetStaked, Some (ABalance x))] (RPool p (PUnstake x))
      (Some (OnStakingPoolUnstakeForTermination x))
| A_withdraw_next p x : m = TerminationPrepareToWithdraw -> at_pool s p -> 0 < x ->
    asked m s [(RPool p PGetUnstaked, Some (ABalance x))] (RPool p (PWithdraw x))
      (Some (OnStakingPoolWithdrawForTermination x)).

(** The results a request can have. *)
Definition fits (r : remote) (x : option answer) : Prop :=
  x = None \/
  match r with
  | RIsWhitelisted _ _ => exists b, x = Some (ABool b)
  | RGetResult _ => exists o, x = Some (APollResult o)
  | RPool _ op => if is_view op then exists y, x = Some (ABalance y) else x = Some AVoid
  | RTransfer _ _ | RAddFullAccessKey _ => x = Some AVoid
  end.

Inductive stands (m : call) (s : contract) : list (remote * option answer) -> list seen -> list msg -> Prop :=
| St_over reqs a : stands m s reqs [a] []
| St_asks reqs r cb : asked m s reqs r cb -> stands m s reqs [] [MCall r cb]
| St_back reqs r cb x : asked m s reqs r (Some cb) -> fits r x ->
    stands m s (reqs ++ [(r, x)]) [] [MBack cb x].

Record good (t : tracked) (l : list note) : Prop := mkGood {
  g_length : List.length (w_msgs (t_world t)) = List.length (t_for t);
  g_new : forall k, (t_next t <= k)%nat ->
    calls_of k l = [] /\ requests_of k l = [] /\ answers_of k l = [] /\ open_for k t = [];
  g_old : forall k, (k < t_next t)%nat -> exists who m, calls_of k l = [(who, m)] /\
    stands m (w_lockup (t_world t)) (requests_of k l) (answers_of k l) (open_for k t)
}.

(** * The selected pool stays while an operation is on its way *)
Lemma at_pool_some s p : at_pool s p <-> exists st d, staking_information s = Some (mkStaking p st d).
Proof.
  unfold at_pool. destruct (staking_information s) as [[q st d]|]; cbn; split.
  - intros [= ->]. eauto.
  - intros (st' & d' & [= -> -> ->]). reflexivity.
  - discriminate.
  - intros (st' & d' & [=]).
Qed.

Lemma effect_at_pool c s m s' o p : effect c s m s' o -> busy s = true -> at_pool s p -> at_pool s' p.
Proof.
  intros H Hb Hp. pose proof Hp as Hp'. apply at_pool_some in Hp'. destruct Hp' as (st0 & d0 & E).
  unfold busy in Hb. rewrite E in Hb. cbn in Hb. destruct st0; [discriminate|].
  assert (forall q st d, staking_information s = Some (mkStaking q st d) -> q = p) as Eq by (intros; congruence).
  inversion H; subst; try congruence;
  try match goal with K : staking_information s = Some (mkStaking ?q _ _) |- _ => pose proof (Eq _ _ _ K); subst q end;
  try (exact Hp); try (now apply at_pool_some; cbn; eauto).
  - destruct (_ <? _); exact Hp.
Qed.

Lemma at_pool_step g w ev p : inv w -> total scnt (w_msgs w) <> 0 -> at_pool (w_lockup w) p ->
  at_pool (w_lockup (step g w ev)) p.
Proof.
  intros HI Hs Hp. pose proof (staking_busy _ _ _ (i_msgs w HI) Hs) as Hb.
  pose proof (step_move g w ev HI) as M. revert M. generalize (step g w ev) (snd (step_obs g w ev)).
  intros w' l M. destruct M; try (exact Hp);
  match goal with H : effect _ _ _ _ _ |- _ => exact (effect_at_pool _ _ _ _ _ _ H Hb Hp) end.
Qed.

Lemma asked_keep m s s' reqs r cb : asked m s reqs r cb ->
  (forall p op, r = RPool p op -> at_pool s p -> at_pool s' p) -> asked m s' reqs r cb.
Proof.
  intros H K. destruct H; try (econstructor; eauto; fail).
Qed.
Lemma staking_in m l : In m l -> staking_msg m = true -> total scnt l <> 0.
Proof. intros H E. pose proof (total_in scnt m l H) as T. unfold scnt at 1 in T. rewrite E in T. lia. Qed.
Lemma asked_staking m s reqs p op cb : asked m s reqs (RPool p op) (Some cb) -> staking_callback cb = true.
Proof.
  intros H. inversion H; subst; try reflexivity.
  match goal with K : owner_op m = _ |- _ => destruct m; cbn in K; try discriminate; injection K as <- <-; reflexivity end.
Qed.
Lemma stands_keep g w ev m reqs ans ms : inv w -> incl ms (w_msgs w) ->
  stands m (w_lockup w) reqs ans ms -> stands m (w_lockup (step g w ev)) reqs ans ms.
Proof.
  intros HI Hin H. destruct H as [reqs a|reqs r cb H|reqs r cb x H Hf].
  - constructor.
  - constructor. eapply asked_keep; [exact H|]. intros p op -> Hp. apply at_pool_step; auto.
    eapply staking_in; [apply Hin; now left|reflexivity].
  - constructor; [|exact Hf]. eapply asked_keep; [exact H|]. intros p op -> Hp. apply at_pool_step; auto.
    eapply staking_in; [apply Hin; now left|]. cbn. eapply asked_staking; eauto.
Qed.

(** * One event *)

(** An event that has to do with the call number [k] alone. *)
Lemma good_touch g t l k t' l' ev :
  inv (t_world t) -> good t l -> t_world t' = step g (t_world t) ev ->
  List.length (w_msgs (t_world t')) = List.length (t_for t') ->
  Forall (about k) l' -> (forall j, j <> k -> open_for j t' = open_for j t) ->
  (t_next t' = t_next t /\ (k < t_next t)%nat \/ t_next t' = S (t_next t) /\ k = t_next t) ->
  (exists who m, calls_of k (l ++ l') = [(who, m)] /\
     stands m (w_lockup (t_world t')) (requests_of k (l ++ l')) (answers_of k (l ++ l')) (open_for k t')) ->
  good t' (l ++ l').
Proof.
  intros HI HG Hw Hlen Hab Hop Hnext Hk. split; [exact Hlen| |].
  - intros j Hj. assert (j <> k) as E by lia. destruct (about_others _ _ _ Hab E) as (E1 & E2 & E3).
    rewrite calls_app, requests_app, answers_app, E1, E2, E3, !app_nil_r, (Hop j E). apply (g_new t l HG). lia.
  - intros j Hj. destruct (Nat.eq_dec j k) as [->|E]; [exact Hk|].
    destruct (about_others _ _ _ Hab E) as (E1 & E2 & E3).
    rewrite calls_app, requests_app, answers_app, E1, E2, E3, !app_nil_r, (Hop j E).
    destruct (g_old t l HG j ltac:(lia)) as (who & m & Hc & Hs). exists who, m. split; [exact Hc|].
    rewrite Hw. apply stands_keep; auto. intros x Hx. eapply open_sub; exact Hx.
Qed.
(** An event that has to do with no call. *)
Lemma good_same g t l ev :
  inv (t_world t) -> good t l -> w_msgs (step g (t_world t) ev) = w_msgs (t_world t) ->
  good (same t (step g (t_world t) ev)) (l ++ []).
Proof.
  intros HI HG Hm. rewrite app_nil_r. split; cbn [same t_world t_for t_next].
  - rewrite Hm. apply (g_length t l HG).
  - intros k Hk. destruct (g_new t l HG k Hk) as (E1 & E2 & E3 & E4).
    unfold open_for, same in *. cbn [t_world t_for]. rewrite Hm. auto.
  - intros k Hk. destruct (g_old t l HG k Hk) as (who & m & Hc & Hs). exists who, m. split; [exact Hc|].
    replace (open_for k _) with (open_for k t) by (unfold open_for, same; cbn [t_world t_for]; now rewrite Hm).
    apply stands_keep; auto. intros x Hx. eapply open_sub; exact Hx.
Qed.

Lemma filter_posted o : filter bears (posted o) = posted o.
Proof. destruct o; reflexivity. Qed.

Lemma with_pool_now s p st0 d0 st d : staking_information s = Some (mkStaking p st0 d0) ->
  with_pool s p st d = LB.pool_now s st d.
Proof. intros E. unfold LB.pool_now. rewrite E. reflexivity. Qed.
Lemma with_term_at s u ts st : vesting_information s = VTerminating (mkTermination u ts) ->
  with_term s u st = LB.at_stage s st.
Proof. intros E. unfold LB.at_stage. rewrite E. reflexivity. Qed.
Lemma recorded_is s p st d : staking_information s = Some (mkStaking p st d) -> LB.recorded s = d.
Proof. intros E. unfold LB.recorded. now rewrite E. Qed.

(** A call by somebody: the answer, or the request it leads to. *)
Lemma call_stands g w who m s o :
  who <> g_self g -> effect (call_ctx g w who) (w_lockup w) m s o ->
  (returns (call_ctx g w who) m = RNothing /\ o = None /\ tells m SNothing [] (w_lockup w) s) \/
  (returns (call_ctx g w who) m = RPromise /\
   exists r cb, posted o = [MCall r cb] /\ asked m s [] r cb).
Proof.
  intros Hw H. inversion H; subst; try (exfalso; cbn in *; congruence).
  - right. split; [reflexivity|]. repeat eexists. now constructor.
  - left. split; [reflexivity|]. split; [reflexivity|]. cbn. split; [reflexivity|].
    unfold LB.selected. match goal with K : staking_information _ = _ |- _ => rewrite K end. auto.
  - right. split; [match goal with K : owner_op m = _ |- _ => destruct m; try discriminate K; reflexivity end|].
    repeat eexists. apply A_pool; [eassumption|]. apply at_pool_some. cbn. eauto.
  - right. split; [reflexivity|]. repeat eexists. now constructor.
  - right. split; [reflexivity|]. repeat eexists. now constructor.
  - right. split; [reflexivity|]. repeat eexists. now constructor.
  - left. split; [reflexivity|]. split; [reflexivity|]. split; [reflexivity|]. do 2 eexists. split; [eassumption|reflexivity].
  - right. split; [reflexivity|]. repeat eexists. apply A_unstake; auto. apply at_pool_some. cbn. eauto.
  - right. split; [reflexivity|]. repeat eexists. apply A_withdraw; auto. apply at_pool_some. cbn. eauto.
  - right. split; [reflexivity|]. repeat eexists. now constructor.
Qed.

(** What the execution of a request leads to. *)
Lemma execute_new w r cb o pools new l : execute w r cb o = Some (pools, new, l) ->
  filter bears new = back cb (result_of w r o) /\ fits r (result_of w r o).
Proof.
  assert (forall x b, filter bears (tokens x ++ back cb b) = back cb b) as T.
  { intros x b. unfold tokens. destruct (x =? 0), cb; reflexivity. }
  assert (forall b, filter bears (back cb b) = back cb b) as B by (intros; now destruct cb).
  unfold execute, fits. intros H.
  destruct o as [| |b|x| |su uu], r as [wl p|v|p op|to a|pk]; cbn in H; try discriminate;
  try (injection H as <- <- <-; cbn; rewrite ?T, ?B; split; eauto; fail).
  - destruct (is_view op) eqn:E; [|discriminate]. injection H as <- <- <-. cbn. rewrite B. split; eauto.
  - destruct (w_pools w p) eqn:Ep. destruct (pool_keeps op _ _) eqn:E; [|discriminate].
    injection H as <- <- <-. cbn [result_of]. split.
    + destruct op; rewrite ?T; first [apply B|reflexivity].
    + right. destruct op; try reflexivity; cbn in E; now rewrite andb_false_r in E.
Qed.

Ltac effects H :=
  inversion H; subst; clear H; try discriminate;
  try match goal with K : _ = _ \/ _ = _ |- _ => destruct K as [K|K]; try discriminate K; injection K as <- end;
  try match goal with K : ctx_results (back_ctx _ _ _) = _ |- _ => cbn in K; injection K; intros; subst; clear K end;
  try discriminate.
Ltac answered b := left; exists b; split; [reflexivity|]; split; [reflexivity|]; unfold tells.

Lemma void_answer p op x : is_view op = false -> fits (RPool p op) x -> x = None \/ x = Some AVoid.
Proof. intros E [H|H]; [auto|]. cbn in H. rewrite E in H. auto. Qed.
Lemma at_pool_eq s p q st d : at_pool s p -> staking_information s = Some (mkStaking q st d) -> p = q.
Proof. unfold at_pool. intros H E. rewrite E in H. cbn in H. congruence. Qed.
Ltac books :=
  repeat match goal with
  | K : staking_information ?s = Some (mkStaking ?q ?st ?d) |- context[LockupEffects.with_pool ?s ?q ?st' ?d'] =>
      rewrite (with_pool_now s q st d st' d' K)
  | K : staking_information ?s = Some (mkStaking ?q ?st ?d) |- context[LB.recorded ?s] =>
      rewrite (recorded_is s q st d K)
  end; try (unfold LB.over);
  repeat match goal with
  | K : staking_information ?s = Some (mkStaking ?q ?st ?d) |- context[LB.recorded ?s] =>
      rewrite (recorded_is s q st d K)
  end.
(** The result of an operation that is not a view. *)
Ltac two_results Hf :=
  apply void_answer in Hf; [|reflexivity]; destruct Hf as [Hf|Hf]; subst; try discriminate;
  try match goal with K : Some _ = Some _ |- _ => injection K; intros; subst; clear K end.
Ltac pool_says :=
  match goal with
  | |- context[(RPool ?p ?op, None)] => answered (SBool false)
  | |- context[(RPool ?p ?op, Some _)] => answered (SBool true)
  end;
  unfold pool_answer; eexists; split; [eassumption|]; split; [reflexivity|]; books; reflexivity.

Lemma with_both s p st0 d0 d u ts st :
  staking_information s = Some (mkStaking p st0 d0) -> vesting_information s = VTerminating (mkTermination u ts) ->
  with_term (with_pool s p Idle d) u st = LB.at_stage (LB.pool_now s Idle d) st.
Proof.
  intros E V. rewrite (with_pool_now _ _ _ _ _ _ E). apply with_term_at with ts. exact V.
Qed.
Lemma phase_stage s cb : phase_ok (get_termination_status s) cb = true ->
  match cb with
  | OnGetAccountStakedBalanceToUnstake | OnStakingPoolUnstakeForTermination _ => LB.stage s = Some UnstakingInProgress
  | OnGetAccountUnstakedBalanceToWithdraw | OnStakingPoolWithdrawForTermination _ =>
      LB.stage s = Some WithdrawingFromStakingPoolInProgress
  | _ => True
  end.
Proof.
  change (LB.stage s) with (get_termination_status s).
  destruct cb; cbn; auto; destruct (get_termination_status s) as [[]|]; auto; discriminate.
Qed.
Lemma not_enabled s : are_transfers_enabled s = false -> LB.enabled s = false.
Proof. auto. Qed.
Ltac same_pool_as Est :=
  match goal with K : at_pool _ _ |- _ => pose proof (at_pool_eq _ _ _ _ _ K Est); subst end.
Ltac next_request :=
  right; split; [cbn; match goal with K : 0 < _ |- _ => apply N.ltb_lt in K; now rewrite K end|];
  do 2 eexists; split; [reflexivity|]; cbn [app].

(** A callback that runs: the answer, or the next request. *)
Lemma back_stands g w m reqs r cb x s o :
  inv w -> In (MBack cb x) (w_msgs w) -> asked m (w_lockup w) reqs r (Some cb) -> fits r x ->
  effect (back_ctx g w x) (w_lockup w) cb s o ->
  (exists a, shown 0 (returns (back_ctx g w x) cb) = [NAnswer 0 a] /\ o = None /\
     tells m a (reqs ++ [(r, x)]) (w_lockup w) s) \/
  (returns (back_ctx g w x) cb = RPromise /\
   exists r' cb', posted o = [MCall r' cb'] /\ asked m s (reqs ++ [(r, x)]) r' cb').
Proof.
  intros HI Hin Ha Hf He.
  pose proof (proj1 (Forall_forall _ _) (i_msgs w HI) _ Hin) as Hok. cbn [msg_ok] in Hok.
  inversion Ha; subst; clear Ha.
  - (* the whitelist has answered *)
    effects He. answered (SBool true). split; [reflexivity|].
    unfold LB.selected. match goal with K : staking_information _ = None |- _ => rewrite K end.
    repeat split. eexists. reflexivity.
  - (* an operation of the owner *)
    match goal with K : owner_op m = _ |- _ => destruct m; cbn in K; try discriminate; injection K as <- <- end;
    cbn [staking_callback] in Hok; destruct Hok as (q & d0 & Est & Hph & Hans).
    + two_results Hf; effects He; pool_says.
    + two_results Hf; effects He; pool_says.
    + (* the balance at the pool *)
      effects He. answered SNothing. do 2 eexists. split; [eassumption|]. split; [reflexivity|]. books. reflexivity.
    + two_results Hf; effects He; pool_says.
    + (* the unstaked balance at the pool *)
      effects He.
      * match goal with K : only_status _ ?r = true |- _ => destruct r as [[]|]; cbn in K; try discriminate;
          apply N.eqb_eq in K; subst end.
        answered (SBool true). unfold two_steps.
        do 2 eexists. split; [eassumption|]. split; [left; split; reflexivity|]. books. now rewrite N.sub_0_r.
      * next_request. same_pool_as Est. replace p0 with q by congruence. now apply A_all_next.
    + two_results Hf; effects He; pool_says.
    + two_results Hf; effects He; pool_says.
    + two_results Hf; effects He; pool_says.
  - (* the voting contract has answered *)
    effects He.
    + answered (SBool true). split; [now apply not_enabled|]. eexists. eexists. split; reflexivity.
    + answered (SBool false). split; [now apply not_enabled|]. eexists. split; reflexivity.
  - (* a termination: the staked balance at the pool *)
    cbn [staking_callback] in Hok; destruct Hok as (q & d0 & Est & Hph & Hans). apply phase_stage in Hph.
    effects He.
    + next_request. same_pool_as Est. replace p0 with q by congruence. now apply A_unstake_next.
    + answered (SBool true). left. split; [exact Hph|]. do 2 eexists. split; [eassumption|].
      split; [left; split; reflexivity|]. erewrite with_both by eassumption. books. reflexivity.
  - (* a termination: the unstaked balance at the pool *)
    cbn [staking_callback] in Hok; destruct Hok as (q & d0 & Est & Hph & Hans). apply phase_stage in Hph.
    effects He.
    + next_request. same_pool_as Est. replace p0 with q by congruence. now apply A_withdraw_next.
    + answered (SBool true). right. split; [exact Hph|]. do 2 eexists. split; [eassumption|].
      split; [left; split; reflexivity|]. erewrite with_both by eassumption. books. now rewrite N.sub_0_r.
  - (* the unvested tokens *)
    cbn in Hok. destruct Hok as (u & Hv & Hle).
    effects He;
    (assert (LB.owed (w_lockup w) = u) as Ho by (unfold LB.owed; now rewrite Hv));
    (assert (get_terminated_unvested_balance (w_lockup w) = u) as Hu
      by (unfold get_terminated_unvested_balance; now rewrite Hv)).
    + destruct Hf as [Hf|Hf]; [discriminate|]. injection Hf as ->.
      answered (SBool true). exists y. split; [assumption|]. rewrite Ho. split; [assumption|]. split; [reflexivity|].
      unfold paid_unvested. rewrite Ho, Hu. now destruct (N.ltb_spec y u).
    + answered (SBool false). exists y. split; [assumption|]. rewrite Ho. split; [assumption|]. split; [reflexivity|].
      eapply with_term_at; eassumption.
  - (* everything unstaked, withdrawn *)
    cbn [staking_callback] in Hok; destruct Hok as (q & d0 & Est & Hph & Hans).
    two_results Hf; effects He.
    + answered (SBool false). do 2 eexists. split; [eassumption|]. split; [eassumption|]. split; [reflexivity|]. books. reflexivity.
    + answered (SBool true). do 2 eexists. split; [eassumption|].
      split; [right; split; [eassumption|reflexivity]|]. books. reflexivity.
  - (* a termination: unstaked *)
    cbn [staking_callback] in Hok; destruct Hok as (q & d0 & Est & Hph & Hans). apply phase_stage in Hph.
    two_results Hf; effects He.
    + answered (SBool false). left. split; [exact Hph|]. do 2 eexists. split; [eassumption|].
      split; [eassumption|]. split; [reflexivity|]. erewrite with_both by eassumption. books. reflexivity.
    + answered (SBool true). left. split; [exact Hph|]. do 2 eexists. split; [eassumption|].
      split; [right; split; [eassumption|reflexivity]|]. erewrite with_both by eassumption. books. reflexivity.
  - (* a termination: withdrawn *)
    cbn [staking_callback] in Hok; destruct Hok as (q & d0 & Est & Hph & Hans). apply phase_stage in Hph.
    two_results Hf; effects He.
    + answered (SBool false). right. split; [exact Hph|]. do 2 eexists. split; [eassumption|].
      split; [eassumption|]. split; [reflexivity|]. erewrite with_both by eassumption. books. reflexivity.
    + answered (SBool true). right. split; [exact Hph|]. do 2 eexists. split; [eassumption|].
      split; [right; split; [eassumption|reflexivity]|]. erewrite with_both by eassumption. books. reflexivity.
Qed.

(** A callback that fails. *)
Lemma lost_tells g w n m reqs r cb x l :
  inv w -> nth_error (w_msgs w) n = Some (MBack cb x) -> asked m (w_lockup w) reqs r (Some cb) -> fits r x ->
  run g (mkWorld (w_lockup w) (w_balance w) (w_time w) (w_pools w) (drop_nth n (w_msgs w)))
    (g_self g) 0 [x] cb = (None, l) ->
  tells m SFailed (reqs ++ [(r, x)]) (w_lockup w) (w_lockup w).
Proof.
  intros HI Hn Ha Hf Hr. pose proof (callback_fails g w n cb x l HI Hn Hr) as Hm.
  pose proof (msg_at w n _ HI Hn) as Hok. cbn [msg_ok] in Hok. unfold tells. split; [reflexivity|]. right.
  inversion Ha; subst; clear Ha; try discriminate Hm.
  - do 2 eexists. split; [reflexivity|].
    destruct (LB.selected (w_lockup w)) eqn:E1; [auto|]. destruct (LB.terminating (w_lockup w)) eqn:E2; [auto|].
    left. intros ->. unfold LB.selected, LB.terminating in *.
    unfold run, exec in Hr. cbn in Hr. unfold on_whitelist_is_whitelisted, callback_bool, assert_self in Hr. cbn in Hr.
    rewrite String.eqb_refl in Hr. cbn in Hr.
    unfold assert_staking_pool_is_not_selected, assert_no_termination in Hr.
    destruct (staking_information (w_lockup w)); [discriminate|]. cbn in Hr.
    destruct (vesting_information (w_lockup w)); discriminate.
  - match goal with K : owner_op m = _ |- _ => destruct m; cbn in K; try discriminate; injection K as <- <- end;
    try discriminate Hm; destruct x; try discriminate Hm;
    (split; [cbn [staking_callback] in Hok; destruct Hok as (q & d0 & Est & _); unfold busy; now rewrite Est|]); eauto.
  - do 2 eexists. split; [reflexivity|].
    destruct (LB.enabled (w_lockup w)) eqn:E1; [auto|]. left. destruct Hf as [Hf|(o & Hf)]; [exact Hf|]. subst x. exfalso.
    unfold run, exec in Hr. cbn in Hr. unfold on_get_result_from_transfer_poll, callback_poll, assert_self in Hr. cbn in Hr.
    rewrite String.eqb_refl in Hr. cbn in Hr.
    unfold assert_transfers_disabled, are_transfers_enabled in Hr.
    unfold LB.enabled in E1. destruct (transfers_information (lockup_information (w_lockup w))); [discriminate|].
    cbn in Hr. destruct o; discriminate.
  - cbn [staking_callback] in Hok; destruct Hok as (q & d0 & Est & Hph & Hans). apply phase_stage in Hph.
    destruct x; try discriminate Hm. split; [unfold busy; now rewrite Est|]. eauto.
  - cbn [staking_callback] in Hok; destruct Hok as (q & d0 & Est & Hph & Hans). apply phase_stage in Hph.
    destruct x; try discriminate Hm. split; [unfold busy; now rewrite Est|]. eauto 6.
Qed.

(** What an answer written down says. *)
Definition truthful (l l' : list note) (s s' : contract) : Prop :=
  forall k a, In (NAnswer k a) l' -> exists who m, calls_of k (l ++ l') = [(who, m)] /\
    tells m a (requests_of k (l ++ l')) s s'.

Lemma step_msgs_call g w who m s p :
  who <> g_self g -> exec (call_ctx g w who) (w_lockup w) m = Ok (s, p) -> spent p <= w_balance w ->
  step g w (ECall who 0 m) = after w s (w_msgs w) p.
Proof. intros H1 H2 H3. unfold step. now rewrite (call_obs g w who m s p H1 H2 H3). Qed.

Lemma open_call k t s p : List.length (w_msgs (t_world t)) = List.length (t_for t) ->
  forall j, open_in j (combine (w_msgs (t_world t) ++ posted p) (t_for t ++ more (w_msgs (t_world t)) (w_msgs (after (t_world t) s (w_msgs (t_world t)) p)) k)) =
  (open_for j t ++ if Nat.eqb j k then posted p else [])%list.
Proof.
  intros Hl j. cbn [after w_msgs]. rewrite more_app, (combine_app _ _ _ _ Hl), open_in_app, open_for_in. f_equal.
  destruct (Nat.eqb_spec j k) as [->|E]; [rewrite open_new; apply filter_posted|now apply open_new_other].
Qed.

Lemma open_next j k n (msgs : list msg) (fors : list nat) m new :
  List.length msgs = List.length fors -> nth_error msgs n = Some m -> nth_error fors n = Some k ->
  j <> k -> open_in j (combine (drop_nth n msgs ++ new) (drop_nth n fors ++ repeat k (List.length new))) =
  open_in j (combine msgs fors).
Proof.
  intros Hl Hm Hk E. rewrite (combine_app _ _ _ _ (drop_length n _ _ Hl)), combine_drop, open_in_app.
  rewrite (open_drop_other j k n _ m (nth_combine n _ _ _ _ Hm Hk) E), (open_new_other _ _ _ E). apply app_nil_r.
Qed.
Lemma open_this k n (msgs : list msg) (fors : list nat) m new :
  List.length msgs = List.length fors -> nth_error msgs n = Some m -> nth_error fors n = Some k ->
  open_in k (combine (drop_nth n msgs ++ new) (drop_nth n fors ++ repeat k (List.length new))) =
  (open_in k (drop_nth n (combine msgs fors)) ++ filter bears new)%list.
Proof.
  intros Hl Hm Hk. now rewrite (combine_app _ _ _ _ (drop_length n _ _ Hl)), combine_drop, open_in_app, open_new.
Qed.

Lemma tag_known t l n m k : good t l -> nth_error (w_msgs (t_world t)) n = Some m -> nth_error (t_for t) n = Some k ->
  bears m = true -> (k < t_next t)%nat.
Proof.
  intros HG Hm Hk B. destruct (Nat.lt_ge_cases k (t_next t)) as [|E]; [assumption|].
  destruct (g_new t l HG k E) as (_ & _ & _ & O). exfalso.
  rewrite open_for_in in O. eapply open_mem; [exact (nth_combine _ _ _ _ _ Hm Hk)| |exact O].
  now destruct m.
Qed.

Lemma truthful_nil l s s' : truthful l [] s s'.
Proof. intros k a []. Qed.

(** The message [n], which travels for the call [k], is used up; what comes of it is written down for [k]. *)
Lemma consumed t l n m k : good t l ->
  nth_error (w_msgs (t_world t)) n = Some m -> nth_error (t_for t) n = Some k -> bears m = true ->
  (k < t_next t)%nat /\ open_in k (drop_nth n (combine (w_msgs (t_world t)) (t_for t))) = [] /\
  answers_of k l = [] /\ exists who c, calls_of k l = [(who, c)] /\
    match m with
    | MCall r cb => asked c (w_lockup (t_world t)) (requests_of k l) r cb
    | MBack cb x => exists reqs r, requests_of k l = (reqs ++ [(r, x)])%list /\
        asked c (w_lockup (t_world t)) reqs r (Some cb) /\ fits r x
    | MTokens _ => False
    end.
Proof.
  intros HG Hm Hk B. pose proof (tag_known t l n m k HG Hm Hk B) as Hlt. split; [exact Hlt|].
  destruct (g_old t l HG k Hlt) as (who & c & Hc & Hs). rewrite open_for_in in Hs.
  pose proof (nth_combine _ _ _ _ _ Hm Hk) as Hn. pose proof (open_drop _ _ _ _ Hn) as D.
  pose proof (open_mem _ _ _ _ Hn) as M.
  inversion Hs as [reqs a E1 E2 E3|reqs r cb Ha E1 E2 E3|reqs r cb x Ha Hf E1 E2 E3].
  - exfalso. apply M; [now destruct m|congruence].
  - destruct m as [r' cb'|cb' r'|a']; [| |discriminate B]; destruct (D _ (eq_sym E3)) as [E D']; try discriminate E;
    injection E as <- <-. split; [exact D'|]. split; [congruence|]. exists who, c. split; [exact Hc|exact Ha].
  - destruct m as [r' cb'|cb' r'|a']; [| |discriminate B]; destruct (D _ (eq_sym E3)) as [E D']; try discriminate E.
    injection E as <- <-. split; [exact D'|]. split; [congruence|]. exists who, c. split; [exact Hc|].
    exists reqs, r. auto.
Qed.

Lemma in_shown k j a r : In (NAnswer j a) (shown k r) ->
  j = k /\ match r with RNothing => a = SNothing | RBool b => a = SBool b | RPromise => False end.
Proof. destruct r; cbn; intros [H|[]] || intros []; injection H as <- <-; auto. Qed.
Lemma shown_calls k j r : calls_of j (shown k r) = [].
Proof. now destruct r. Qed.
Lemma shown_requests k j r : requests_of j (shown k r) = [].
Proof. now destruct r. Qed.
Lemma shown_answers k r : answers_of k (shown k r) =
  match r with RNothing => [SNothing] | RBool b => [SBool b] | RPromise => [] end.
Proof. destruct r; cbn; now rewrite ?Nat.eqb_refl. Qed.

Lemma track_good g t l ev : inv (t_world t) -> good t l ->
  good (fst (track g t ev)) (l ++ snd (track g t ev)) /\
  truthful l (snd (track g t ev)) (w_lockup (t_world t)) (w_lockup (t_world (fst (track g t ev)))).
Proof.
  intros HI HG. pose proof (g_length t l HG) as Hlen.
  assert (Hsame : w_msgs (step g (t_world t) ev) = w_msgs (t_world t) ->
    track g t ev = (same t (step g (t_world t) ev), []) ->
    good (fst (track g t ev)) (l ++ snd (track g t ev)) /\
    truthful l (snd (track g t ev)) (w_lockup (t_world t)) (w_lockup (t_world (fst (track g t ev))))).
  { intros Hm E. rewrite E. cbn [fst snd]. split; [now apply good_same|apply truthful_nil]. }
  destruct ev as [tt|x|p s u|who att m|n o|n].
  - apply Hsame; [|reflexivity]. unfold step. cbn [step_obs]. now destruct (_ && _).
  - apply Hsame; reflexivity.
  - apply Hsame; [|reflexivity]. unfold step. cbn [step_obs]. now destruct (_ && _).
  - (* a call *)
    destruct (String.eqb_spec who (g_self g)) as [->|Hw].
    { apply Hsame; [unfold step; cbn; now rewrite String.eqb_refl|cbn; now rewrite String.eqb_refl]. }
    set (k := t_next t) in *. destruct (g_new t l HG k (le_n _)) as (N1 & N2 & N3 & N4).
    destruct (run g (t_world t) who att [] m) as [[w1|] l1] eqn:Hr.
    + pose proof (run_after _ _ _ _ _ _ _ _ Hr) as (-> & s & p & Hx & He & Hle & -> & ->).
      fold (call_ctx g (t_world t) who) in Hx, He.
      pose proof (step_msgs_call g (t_world t) who m s p Hw Hx Hle) as Hst.
      assert (track g t (ECall who 0 m) =
        (mkTracked (after (t_world t) s (w_msgs (t_world t)) p)
           (t_for t ++ more (w_msgs (t_world t)) (w_msgs (after (t_world t) s (w_msgs (t_world t)) p)) k) (S k),
         NCalled k who m :: shown k (returns (call_ctx g (t_world t) who) m))) as ->.
      { cbn [track]. destruct (String.eqb_spec who (g_self g)); [contradiction|]. rewrite Hr, Hst, N.add_0_r. reflexivity. }
      cbn [fst snd].
      assert (Forall (about k) (NCalled k who m :: shown k (returns (call_ctx g (t_world t) who) m))) as Hab
        by (constructor; [reflexivity|apply shown_about]).
      assert (Hc : calls_of k (l ++ NCalled k who m :: shown k (returns (call_ctx g (t_world t) who) m)) = [(who, m)]).
      { rewrite calls_app, N1. cbn. now rewrite Nat.eqb_refl, shown_calls. }
      assert (Hq : requests_of k (l ++ NCalled k who m :: shown k (returns (call_ctx g (t_world t) who) m)) = []).
      { rewrite requests_app, N2. cbn. now rewrite shown_requests. }
      assert (Hop : forall j, open_for j (mkTracked (after (t_world t) s (w_msgs (t_world t)) p)
           (t_for t ++ more (w_msgs (t_world t)) (w_msgs (after (t_world t) s (w_msgs (t_world t)) p)) k) (S k)) =
           (open_for j t ++ if Nat.eqb j k then posted p else [])%list).
      { intros j. apply (open_call k t s p Hlen). }
      pose proof (call_stands g (t_world t) who m s p Hw He) as Hcs. split.
      * eapply (good_touch g t l k _ _ (ECall who 0 m)); eauto.
        -- cbn [t_world t_for after w_msgs]. rewrite more_app, !app_length, repeat_length. now rewrite Hlen.
        -- intros j E. rewrite Hop. destruct (Nat.eqb_spec j k); [contradiction|]. apply app_nil_r.
        -- exists who, m. split; [exact Hc|]. rewrite Hq, Hop, N4, Nat.eqb_refl, answers_app, N3. cbn [app answers_of].
           rewrite shown_answers. cbn [t_world after w_lockup].
           destruct Hcs as [(-> & -> & _)|(-> & r & cb & -> & Ha)]; now constructor.
      * intros j a Hi. cbn in Hi. destruct Hi as [Hi|Hi]; [discriminate|].
        apply in_shown in Hi. destruct Hi as [-> Hi]. exists who, m. split; [exact Hc|]. rewrite Hq.
        destruct Hcs as [(E & -> & Ht)|(E & _)]; rewrite E in Hi; [|contradiction]. subst a. exact Ht.
    + assert (step g (t_world t) (ECall who att m) = t_world t) as Hst.
      { unfold step. cbn [step_obs]. destruct (String.eqb_spec who (g_self g)); [contradiction|]. now rewrite Hr. }
      assert (track g t (ECall who att m) =
        (mkTracked (t_world t) (t_for t) (S k), [NCalled k who m; NAnswer k SFailed])) as ->.
      { cbn [track]. destruct (String.eqb_spec who (g_self g)); [contradiction|]. now rewrite Hr, Hst. }
      cbn [fst snd].
      assert (Hc : calls_of k (l ++ [NCalled k who m; NAnswer k SFailed]) = [(who, m)]).
      { rewrite calls_app, N1. cbn. now rewrite Nat.eqb_refl. }
      assert (Hq : requests_of k (l ++ [NCalled k who m; NAnswer k SFailed]) = []).
      { rewrite requests_app, N2. reflexivity. }
      split.
      * eapply (good_touch g t l k _ _ (ECall who att m)); eauto.
        -- repeat constructor.
        -- exists who, m. split; [exact Hc|]. rewrite Hq, answers_app, N3. cbn. rewrite Nat.eqb_refl.
           change (open_for k (mkTracked (t_world t) (t_for t) (S k))) with (open_for k t). rewrite N4. constructor.
      * intros j a Hi. cbn in Hi. destruct Hi as [Hi|[Hi|[]]]; [discriminate|]. injection Hi as <- <-.
        exists who, m. split; [exact Hc|]. rewrite Hq. cbn. auto.
  - (* a request is executed *)
    destruct (nth_error (w_msgs (t_world t)) n) as [[r cb|cb r|a]|] eqn:Hn;
    try (apply Hsame; [unfold step; cbn; now rewrite Hn|cbn; now rewrite Hn]).
    destruct (nth_same_length n _ _ _ Hlen Hn) as (k & Hk).
    destruct (execute (t_world t) r cb o) as [[[pools new] l1]|] eqn:Hx;
    [|apply Hsame; [unfold step; cbn; now rewrite Hn, Hx|cbn; now rewrite Hn, Hk, Hx]].
    destruct (execute_new _ _ _ _ _ _ _ Hx) as [Hnew Hfit].
    destruct (consumed t l n _ k HG Hn Hk eq_refl) as (Hlt & Hdrop & Hans & who & c & Hc & Ha).
    set (w' := mkWorld (w_lockup (t_world t)) (w_balance (t_world t)) (w_time (t_world t)) pools
                 (drop_nth n (w_msgs (t_world t)) ++ new)).
    assert (step g (t_world t) (EDeliver n o) = w') as Hst by (unfold step; cbn; now rewrite Hn, Hx).
    set (ans := match cb with
               | Some _ => []
               | None => [NAnswer k match result_of (t_world t) r o with Some _ => SNothing | None => SFailed end]
               end).
    assert (track g t (EDeliver n o) =
      (mkTracked w' (drop_nth n (t_for t) ++ repeat k (List.length new)) (t_next t),
       NRequest k r (result_of (t_world t) r o) :: ans)) as ->.
    { cbn [track]. rewrite Hn, Hk, Hx, Hst. unfold w'. cbn [w_msgs]. now rewrite more_app. }
    cbn [fst snd].
    assert (Hab : Forall (about k) (NRequest k r (result_of (t_world t) r o) :: ans)).
    { constructor; [reflexivity|]. unfold ans. destruct cb; repeat constructor. }
    assert (Hc' : calls_of k (l ++ NRequest k r (result_of (t_world t) r o) :: ans) = [(who, c)]).
    { rewrite calls_app, Hc. unfold ans. now destruct cb. }
    assert (Hq : requests_of k (l ++ NRequest k r (result_of (t_world t) r o) :: ans) =
      (requests_of k l ++ [(r, result_of (t_world t) r o)])%list).
    { rewrite requests_app. cbn. rewrite Nat.eqb_refl. unfold ans. now destruct cb. }
    split.
    + eapply (good_touch g t l k _ _ (EDeliver n o)); eauto.
      * unfold w'. cbn [t_world t_for w_msgs]. rewrite !app_length, repeat_length. f_equal. now apply drop_length.
      * intros j E. rewrite !open_for_in. unfold w'. cbn [t_world t_for w_msgs]. eapply open_next; eauto.
      * exists who, c. split; [exact Hc'|]. rewrite Hq, answers_app, Hans, open_for_in. unfold w'.
        cbn [t_world t_for w_msgs w_lockup]. rewrite (open_this _ _ _ _ _ _ Hlen Hn Hk), Hdrop, Hnew.
        unfold ans, back. destruct cb as [cb|]; cbn [app answers_of]; [|rewrite Nat.eqb_refl]; now constructor.
    + intros j a Hi. cbn in Hi. destruct Hi as [Hi|Hi]; [discriminate|].
      unfold ans in Hi. destruct cb as [cb|]; [contradiction|]. destruct Hi as [Hi|[]]. injection Hi as <- <-.
      exists who, c. split; [exact Hc'|]. rewrite Hq. unfold w'. cbn [t_world w_lockup].
      inversion Ha; subst; cbn [app].
      * destruct Hfit as [->| ->]; cbn; auto.
      * destruct o; try discriminate Hx. cbn. auto.
  - (* a message arrives *)
    destruct (nth_error (w_msgs (t_world t)) n) as [[r cb|cb x|a]|] eqn:Hn;
    try (apply Hsame; [unfold step; cbn; now rewrite Hn|cbn; now rewrite Hn]);
    destruct (nth_same_length n _ _ _ Hlen Hn) as (k & Hk).
    + (* a callback *)
      destruct (consumed t l n _ k HG Hn Hk eq_refl) as (Hlt & Hdrop & Hans & who & c & Hc & reqs & r & Hreq & Ha & Hfit).
      destruct (run g (mkWorld (w_lockup (t_world t)) (w_balance (t_world t)) (w_time (t_world t)) (w_pools (t_world t))
                  (drop_nth n (w_msgs (t_world t)))) (g_self g) 0 [x] cb) as [[w1|] l1] eqn:Hr.
      * pose proof (run_after _ _ _ _ _ _ _ _ Hr) as (_ & s & p & Hx & He & Hle & -> & ->). wsimpl.
        fold (back_ctx g (t_world t) x) in Hx, He.
        set (w' := after (t_world t) s (drop_nth n (w_msgs (t_world t))) p).
        assert (step g (t_world t) (ERun n) = w') as Hst by (unfold step; cbn; now rewrite Hn, Hr).
        assert (track g t (ERun n) =
          (mkTracked w' (drop_nth n (t_for t) ++ repeat k (List.length (posted p))) (t_next t),
           shown k (returns (back_ctx g (t_world t) x) cb))) as ->.
        { cbn [track]. rewrite Hn, Hk, Hr, Hst. unfold w'. cbn [after w_msgs]. now rewrite more_app. }
        cbn [fst snd].
        pose proof (back_stands g (t_world t) c reqs r cb x s p HI (nth_error_In _ _ Hn) Ha Hfit He) as Hb.
        assert (Hc' : calls_of k (l ++ shown k (returns (back_ctx g (t_world t) x) cb)) = [(who, c)])
          by (rewrite calls_app, shown_calls, Hc; reflexivity).
        assert (Hq : requests_of k (l ++ shown k (returns (back_ctx g (t_world t) x) cb)) = (reqs ++ [(r, x)])%list)
          by (rewrite requests_app, shown_requests, Hreq, app_nil_r; reflexivity).
        split.
        -- eapply (good_touch g t l k _ _ (ERun n)); eauto.
           ++ unfold w'. cbn [t_world t_for after w_msgs]. rewrite !app_length, repeat_length. f_equal. now apply drop_length.
           ++ apply shown_about.
           ++ intros j E. rewrite !open_for_in. unfold w'. cbn [t_world t_for after w_msgs]. eapply open_next; eauto.
           ++ exists who, c. split; [exact Hc'|]. rewrite Hq, answers_app, Hans, shown_answers, open_for_in. unfold w'.
              cbn [t_world t_for after w_msgs w_lockup]. rewrite (open_this _ _ _ _ _ _ Hlen Hn Hk), Hdrop, filter_posted.
              cbn [app]. destruct Hb as [(a & E & -> & _)|(-> & r' & cb' & -> & Ha')].
              ** destruct (returns _ cb); try discriminate E; cbn; constructor.
              ** now constructor.
        -- intros j a Hi. apply in_shown in Hi. destruct Hi as [-> Hi]. exists who, c. split; [exact Hc'|]. rewrite Hq.
           destruct Hb as [(a' & E & -> & Ht)|(E & _)].
           ++ replace a with a'; [exact Ht|]. destruct (returns _ cb); try discriminate E; cbn in E; injection E as <-; auto.
           ++ rewrite E in Hi. contradiction.
      * set (w' := mkWorld (w_lockup (t_world t)) (w_balance (t_world t)) (w_time (t_world t)) (w_pools (t_world t))
                     (drop_nth n (w_msgs (t_world t)))).
        assert (step g (t_world t) (ERun n) = w') as Hst by (unfold step; cbn; now rewrite Hn, Hr).
        assert (track g t (ERun n) = (mkTracked w' (drop_nth n (t_for t) ++ repeat k (List.length (@nil msg))) (t_next t),
           [NAnswer k SFailed])) as ->.
        { cbn [track]. rewrite Hn, Hk, Hr, Hst. unfold w'. cbn [w_msgs]. unfold more. now rewrite Nat.sub_diag. }
        cbn [fst snd].
        assert (Hc' : calls_of k (l ++ [NAnswer k SFailed]) = [(who, c)]) by (rewrite calls_app, Hc; reflexivity).
        assert (Hq : requests_of k (l ++ [NAnswer k SFailed]) = (reqs ++ [(r, x)])%list)
          by (rewrite requests_app, Hreq, app_nil_r; reflexivity).
        split.
        -- eapply (good_touch g t l k _ _ (ERun n)); eauto.
           ++ unfold w'. cbn [t_world t_for w_msgs]. rewrite !app_length. cbn. rewrite Nat.add_0_r. now apply drop_length.
           ++ repeat constructor.
           ++ intros j E. rewrite !open_for_in. unfold w'. cbn [t_world t_for w_msgs].
              rewrite <- (app_nil_r (drop_nth n (w_msgs (t_world t)))). eapply open_next; eauto.
           ++ exists who, c. split; [exact Hc'|]. rewrite Hq, answers_app, Hans, open_for_in. unfold w'.
              cbn [t_world t_for w_msgs w_lockup]. rewrite <- (app_nil_r (drop_nth n (w_msgs (t_world t)))).
              rewrite (open_this _ _ _ _ _ _ Hlen Hn Hk), Hdrop. cbn. rewrite Nat.eqb_refl. constructor.
        -- intros j a Hi. destruct Hi as [Hi|[]]. injection Hi as <- <-. exists who, c. split; [exact Hc'|]. rewrite Hq.
           unfold w'. cbn [t_world w_lockup]. eapply lost_tells; eauto.
    + (* tokens *)
      assert (step g (t_world t) (ERun n) = mkWorld (w_lockup (t_world t)) (w_balance (t_world t) + a)
        (w_time (t_world t)) (w_pools (t_world t)) (drop_nth n (w_msgs (t_world t)))) as Hst
        by (unfold step; cbn; now rewrite Hn).
      assert (track g t (ERun n) = (mkTracked (step g (t_world t) (ERun n)) (drop_nth n (t_for t)) (t_next t), [])) as ->
        by (cbn [track]; now rewrite Hn, Hk).
      cbn [fst snd]. rewrite Hst. split; [|apply truthful_nil]. rewrite app_nil_r.
      assert (Hop : forall j, open_for j (mkTracked (mkWorld (w_lockup (t_world t)) (w_balance (t_world t) + a)
        (w_time (t_world t)) (w_pools (t_world t)) (drop_nth n (w_msgs (t_world t)))) (drop_nth n (t_for t)) (t_next t)) =
        open_for j t).
      { intros j. rewrite !open_for_in. cbn [t_world t_for w_msgs]. rewrite combine_drop.
        pose proof (nth_combine _ _ _ _ _ Hn Hk) as Hnk. destruct (Nat.eq_dec j k) as [->|E].
        - exact (open_drop _ _ _ _ Hnk).
        - exact (open_drop_other _ _ _ _ _ Hnk E). }
      split.
      * cbn [t_world t_for w_msgs]. now apply drop_length.
      * intros j Hj. rewrite Hop. apply (g_new t l HG). exact Hj.
      * intros j Hj. rewrite Hop. exact (g_old t l HG j Hj).
Qed.

(** * Whole histories *)
Lemma track_world g t ev : t_world (fst (track g t ev)) = step g (t_world t) ev.
Proof.
  destruct ev as [tt|x|p s u|who att m|n o|n]; try reflexivity; cbn [track].
  - destruct (String.eqb who (g_self g)); [reflexivity|].
    now destruct (run g (t_world t) who att [] m) as [[?|] ?].
  - destruct (nth_error (w_msgs (t_world t)) n) as [[r cb|cb r|a]|]; try reflexivity.
    destruct (nth_error (t_for t) n); [|reflexivity]. now destruct (execute (t_world t) r cb o) as [[[? ?] ?]|].
  - destruct (nth_error (w_msgs (t_world t)) n) as [[r cb|cb r|a]|]; try reflexivity;
    now destruct (nth_error (t_for t) n).
Qed.
Lemma tracked_world g t evs : t_world (tracked_to g t evs) = final g (t_world t) evs.
Proof. revert t. induction evs as [|ev evs IH]; intros t; [reflexivity|]. cbn. now rewrite IH, track_world. Qed.
Lemma tracked_to_app g t a b : tracked_to g t (a ++ b) = tracked_to g (tracked_to g t a) b.
Proof. revert t. induction a as [|ev a IH]; intros t; [reflexivity|]. cbn. apply IH. Qed.
Lemma notes_app g t a b : notes g t (a ++ b) = (notes g t a ++ notes g (tracked_to g t a) b)%list.
Proof. revert t. induction a as [|ev a IH]; intros t; [reflexivity|]. cbn. now rewrite IH, app_assoc. Qed.

Lemma good_all g t l evs : inv (t_world t) -> good t l -> good (tracked_to g t evs) (l ++ notes g t evs).
Proof.
  revert t l. induction evs as [|ev evs IH]; intros t l HI HG; cbn; [now rewrite app_nil_r|].
  rewrite app_assoc. apply IH.
  - rewrite track_world. now apply inv_step.
  - now apply track_good.
Qed.
Lemma good_begin w : w_msgs w = [] -> good (begin w) [].
Proof.
  intros E. split; cbn [begin t_world t_for t_next].
  - now rewrite E.
  - intros k _. unfold open_for. cbn. now rewrite E.
  - intros k H. inversion H.
Qed.

Lemma answers_once g w evs : starts g w -> forall k, (k < t_next (tracked_to g (begin w) evs))%nat ->
  exists who m, calls_of k (notes g (begin w) evs) = [(who, m)] /\
    ((exists a, answers_of k (notes g (begin w) evs) = [a]) /\ open_for k (tracked_to g (begin w) evs) = [] \/
     answers_of k (notes g (begin w) evs) = [] /\
     exists msg, open_for k (tracked_to g (begin w) evs) = [msg] /\ waits_for m (requests_of k (notes g (begin w) evs)) msg).
Proof.
  intros HS k Hk. pose proof (inv_start g w HS) as HI.
  pose proof (good_all g (begin w) [] evs HI (good_begin w (st_msgs g w HS))) as HG. cbn [app] in HG.
  destruct (g_old _ _ HG k Hk) as (who & m & Hc & Hs). exists who, m. split; [exact Hc|].
  inversion Hs as [reqs a E1 E2 E3|reqs r cb Ha E1 E2 E3|reqs r cb x Ha Hf E1 E2 E3].
  - left. eauto.
  - right. split; [reflexivity|]. eexists. split; [reflexivity|]. unfold waits_for.
    inversion Ha; subst; (split; [first [now left|right; eauto 6]|]); split; intros H'; try discriminate H';
    try contradiction H'; try exact I; try reflexivity.
    match goal with K : owner_op m = _ |- _ => destruct m; try discriminate K; contradiction end.
  - right. split; [reflexivity|]. eexists. split; [reflexivity|]. unfold waits_for.
    exists reqs, r. split; [reflexivity|]. inversion Ha; subst; cbn; auto.
Qed.

Lemma answers_tell g w evs ev : starts g w -> forall k a,
  In (NAnswer k a) (snd (track g (tracked_to g (begin w) evs) ev)) ->
  exists who m, calls_of k (notes g (begin w) (evs ++ [ev])) = [(who, m)] /\
    tells m a (requests_of k (notes g (begin w) (evs ++ [ev])))
      (w_lockup (final g w evs)) (w_lockup (final g w (evs ++ [ev]))).
Proof.
  intros HS k a Hi. pose proof (inv_start g w HS) as HI.
  pose proof (good_all g (begin w) [] evs HI (good_begin w (st_msgs g w HS))) as HG. cbn [app] in HG.
  assert (inv (t_world (tracked_to g (begin w) evs))) as HI' by (rewrite tracked_world; now apply inv_final).
  destruct (track_good g _ _ ev HI' HG) as [_ HT]. destruct (HT k a Hi) as (who & m & Hc & Ht).
  exists who, m. rewrite notes_app. cbn [notes]. rewrite app_nil_r. split; [exact Hc|].
  rewrite track_world, tracked_world in Ht. cbn [begin t_world] in Ht.
  replace (final g w (evs ++ [ev])) with (step g (final g w evs) ev); [exact Ht|].
  clear. revert w. induction evs as [|e evs IH]; intros w; [reflexivity|]. cbn. apply IH.
Qed.
