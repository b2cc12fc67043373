(** The wrapped NEAR token through whole histories. *)
From Coq Require Import NArith List Bool String Lia ZifyN ZifyBool Permutation.
From Verif Require Import Prelude PreludeFacts MapFacts Messages WNearModel WNearSpec WNearProofs.
Import ListNotations.
Open Scope string_scope.
Open Scope N_scope.
#[local] Opaque DEPOSIT.

Definition triple := (account_id * account_id * N)%type.
Definition tdec (x y : string * string * N) : {x = y} + {x <> y}.
Proof. repeat decide equality. Defined.
Ltac pc := unfold triple, account_id in *; perm_count tdec.

Definition msg_ok (m : msg) : Prop :=
  match m with
  | MTransfer _ _ => True
  | MOnTransfer s d x | MResolve s d x _ =>
      s <> d /\ is_valid_account_id s = true /\ is_valid_account_id d = true /\ x < U128_BOUND
  end.
Record inv (b : N) (evs : list event) (l : list obs) (w : world) : Prop := mkInv {
  i_wf : wf (w_token w);
  i_backed : b + owed (w_token w) <= w_balance w;
  i_msgs : Forall msg_ok (w_msgs w);
  i_calls : Permutation (transfer_calls l) (resolved l ++ unresolved l ++ in_flight w);
  i_ledger : w_balance w + due_total w + paid_total l = b + attached_total l + incomes evs
}.

Lemma tc_app l l' : transfer_calls (l ++ l') = (transfer_calls l ++ transfer_calls l')%list.
Proof. apply flat_map_app. Qed.
Lemma rs_app l l' : resolved (l ++ l') = (resolved l ++ resolved l')%list.
Proof. apply flat_map_app. Qed.
Lemma ur_app l l' : unresolved (l ++ l') = (unresolved l ++ unresolved l')%list.
Proof. apply flat_map_app. Qed.
Lemma at_app l l' : attached_total (l ++ l') = attached_total l + attached_total l'.
Proof. unfold attached_total. now rewrite map_app, sum_app. Qed.
Lemma pd_app l l' : paid_total (l ++ l') = paid_total l + paid_total l'.
Proof. unfold paid_total. now rewrite map_app, sum_app. Qed.
Lemma in_app_evs evs evs' : incomes (evs ++ evs') = incomes evs + incomes evs'.
Proof. unfold incomes. now rewrite map_app, sum_app. Qed.
Definition flying (ms : list msg) : list triple :=
  flat_map (fun m => match m with MOnTransfer s r x | MResolve s r x _ => [(s, r, x)] | _ => [] end) ms.
Definition dues (ms : list msg) : N := sum (map (fun m => match m with MTransfer _ x => x | _ => 0 end) ms).
Lemma fl_app l l' : flying (l ++ l') = (flying l ++ flying l')%list.
Proof. apply flat_map_app. Qed.
Lemma du_app l l' : dues (l ++ l') = dues l + dues l'.
Proof. unfold dues. now rewrite map_app, sum_app. Qed.
Lemma fl_perm l l' : Permutation l l' -> Permutation (flying l) (flying l').
Proof.
  unfold flying. induction 1; cbn [flat_map]; auto.
  - now apply Permutation_app_head.
  - rewrite !app_assoc. apply Permutation_app_tail, Permutation_app_comm.
  - etransitivity; eauto.
Qed.
Lemma du_perm l l' : Permutation l l' -> dues l = dues l'.
Proof. intros P. unfold dues. now apply sum_perm, Permutation_map. Qed.

(** Messages of the promises of a call. *)
Lemma effect_msgs c t cl t' ps v : wf t -> ctx_result c = None -> is_valid_account_id (ctx_predecessor c) = true ->
  ctx_predecessor c <> ctx_current c -> effect c t cl t' ps v ->
  Forall msg_ok (map message ps) /\ dues (map message ps) = sent ps /\
  flying (map message ps) = match cl with FtTransferCall r x => [(ctx_predecessor c, r, x)] | _ => [] end.
Proof.
  intros W R V NE F. destruct F; cbn [map message flying flat_map app]; try congruence.
  all: try (split; [repeat constructor|]; split; reflexivity).
  - split; [|split; [cbn; lia|reflexivity]]. repeat constructor; auto.
    pose proof (bal_le t (ctx_predecessor c) W) as L. rewrite (ft_get _ _ _ H3) in L. pose proof (wf_bound t W). lia.
  - destruct (0 <? _); cbn [map message flat_map app]; (split; [repeat constructor|]); split; cbn; auto; lia.
  - destruct (0 <? _); cbn [map message flat_map app]; (split; [repeat constructor|]); split; cbn; auto; lia.
Qed.

Lemma resolve_total t self s d x r : wf t -> msg_ok (MResolve s d x r) ->
  exists t' used, exec (mkCtx self self 0 GAS_FOR_RESOLVE_TRANSFER (Some r)) t (FtResolveTransfer s d x) = Ok (t', [], VAmount used) /\
    effect (mkCtx self self 0 GAS_FOR_RESOLVE_TRANSFER (Some r)) t (FtResolveTransfer s d x) t' [] (VAmount used).
Proof.
  intros W (NE & Vs & Vd & Lx). set (c := mkCtx self self 0 GAS_FOR_RESOLVE_TRANSFER (Some r)).
  assert (A : arguments_ok (FtResolveTransfer s d x) = true).
  { cbn [arguments_ok]. rewrite Vs, Vd. unfold fits. cbn [andb]. now apply N.ltb_lt. }
  assert (X : forall t' used, effect c t (FtResolveTransfer s d x) t' [] (VAmount used) ->
    exec c t (FtResolveTransfer s d x) = Ok (t', [], VAmount used)).
  { intros t' used F. apply effect_exec; auto. }
  destruct (N.eq_dec (unused_of r x) 0) as [Z|Z].
  { eexists _, _. split; [apply X|]; apply (F_resolve_nothing c t s d x r); auto. }
  destruct (mget d (accounts t)) as [bd|] eqn:G.
  2: { eexists _, _. split; [apply X|]; apply (F_resolve_nothing c t s d x r); auto; right; now apply ft_none. }
  destruct (N.eq_dec bd 0) as [Z'|Z'].
  { eexists _, _. split; [apply X|]; apply (F_resolve_nothing c t s d x r); auto; right; subst; now apply ft_get. }
  destruct (mget s (accounts t)) as [bs|] eqn:GS.
  - eexists _, _. split; [apply X|]; apply (F_resolve_refund c t s d x r bd bs); auto; try lia;
      rewrite mget_minsert_neq; auto.
  - eexists _, _. split; [apply X|]; apply (F_resolve_burn c t s d x r bd); auto; lia.
Qed.

Lemma inv_step self b evs l w ev : inv b evs l w ->
  inv b (evs ++ [ev]) (l ++ snd (step_obs self w ev)) (step self w ev).
Proof.
  intros [W B M C L]. unfold step.
  pose proof (in_app_evs evs [ev]) as IS.
  assert (KEEP : forall o, transfer_calls o = [] -> resolved o = [] -> unresolved o = [] ->
            attached_total o = 0 -> paid_total o = 0 -> incomes [ev] = 0 -> inv b (evs ++ [ev]) (l ++ o) w).
  { intros o E1 E2 E3 E4 E5 E6. constructor; auto.
    - rewrite tc_app, rs_app, ur_app, E1, E2, E3, !app_nil_r. auto.
    - rewrite pd_app, at_app. lia. }
  unfold in_flight, due_total in *. fold (flying (w_msgs w)) in *. fold (dues (w_msgs w)) in *.
  destruct ev as [who attached gas cl|n ok|n r|n gas|x]; cbn [step_obs].
  - assert (I0 : incomes [ECall who attached gas cl] = 0) by reflexivity.
    destruct (String.eqb who self || negb (is_valid_account_id who)) eqn:G; [apply KEEP; auto|].
    apply orb_false_iff in G. destruct G as [G V]. apply String.eqb_neq in G. apply negb_false_iff in V.
    destruct (exec _ _ _) as [[[t ps] v]|e] eqn:E; [|apply KEEP; auto].
    apply exec_effect in E; auto. pose proof (effect_wf _ _ _ _ _ _ W E) as W'.
    pose proof (effect_owed _ _ _ _ _ _ W E) as O. cbn [ctx_attached] in O.
    destruct (effect_msgs (mkCtx self who attached gas None) _ _ _ _ _ W eq_refl V G E) as (M' & D' & F'). cbn [ctx_predecessor] in F'.
    replace (sent ps <=? w_balance w + attached) with true by lia. cbn [fst snd].
    constructor; cbn [w_token w_balance w_msgs]; auto.
    + lia.
    + apply Forall_app. auto.
    + unfold in_flight. cbn [w_msgs]. fold (flying (w_msgs w ++ map message ps)). rewrite fl_app, F', tc_app, rs_app, ur_app.
      cbn [resolved unresolved flat_map]. rewrite !app_nil_r.
      assert (T : transfer_calls [BAccepted who attached cl v] = match cl with FtTransferCall r x => [(who, r, x)] | _ => [] end).
      { destruct cl; reflexivity. }
      rewrite T. rewrite C. rewrite !app_assoc. apply Permutation_refl.
    + unfold due_total. cbn [w_msgs]. fold (dues (w_msgs w ++ map message ps)). rewrite du_app, D', pd_app, at_app.
      cbn [paid_total attached_total map sum fold_right]. change (paid_total [BAccepted who attached cl v]) with 0.
      change (attached_total [BAccepted who attached cl v]) with (attached + 0). lia.
  - assert (I0 : incomes [EPay n ok] = 0) by reflexivity.
    destruct (nth_error (w_msgs w) n) as [m|] eqn:E; [|apply KEEP; auto]. destruct m as [to x| |]; [|apply KEEP; auto|apply KEEP; auto].
    apply drop_nth_perm in E. pose proof (fl_perm _ _ E) as FP. pose proof (du_perm _ _ E) as DP.
    pose proof M as M1. rewrite E in M1. inversion M1 as [|? ? _ M']; subst.
    change (flying (MTransfer to x :: drop_nth n (w_msgs w))) with (flying (drop_nth n (w_msgs w))) in FP.
    change (dues (MTransfer to x :: drop_nth n (w_msgs w))) with (x + dues (drop_nth n (w_msgs w))) in DP.
    destruct ok; cbn [fst snd]; constructor; cbn [w_token w_balance w_msgs]; auto; try lia.
    1, 3: unfold in_flight; cbn [w_msgs]; fold (flying (drop_nth n (w_msgs w))); rewrite tc_app, rs_app, ur_app;
      cbn [transfer_calls resolved unresolved flat_map]; rewrite !app_nil_r, <- FP; exact C.
    + unfold due_total. cbn [w_msgs]. fold (dues (drop_nth n (w_msgs w))). rewrite pd_app, at_app.
      change (paid_total [BPaid to x]) with (x + 0). change (attached_total [BPaid to x]) with 0. lia.
    + unfold due_total. cbn [w_msgs]. fold (dues (drop_nth n (w_msgs w))). rewrite pd_app, at_app.
      change (paid_total [BBounced to x]) with 0. change (attached_total [BBounced to x]) with 0. lia.
  - assert (I0 : incomes [EReceive n r] = 0) by reflexivity.
    destruct (nth_error (w_msgs w) n) as [m|] eqn:E; [|apply KEEP; auto]. destruct m as [|s d x|]; [apply KEEP; auto| |apply KEEP; auto].
    apply drop_nth_perm in E. pose proof (fl_perm _ _ E) as FP. pose proof (du_perm _ _ E) as DP.
    pose proof M as M1. rewrite E in M1. inversion M1 as [|? ? MO M']; subst.
    change (flying (MOnTransfer s d x :: drop_nth n (w_msgs w))) with ((s, d, x) :: flying (drop_nth n (w_msgs w))) in FP.
    change (dues (MOnTransfer s d x :: drop_nth n (w_msgs w))) with (0 + dues (drop_nth n (w_msgs w))) in DP.
    cbn [fst snd]. rewrite app_nil_r. constructor; cbn [w_token w_balance w_msgs]; auto; try lia.
    + apply Forall_app. split; auto.
    + unfold in_flight. cbn [w_msgs]. fold (flying (drop_nth n (w_msgs w) ++ [MResolve s d x r])). rewrite fl_app.
      change (flying [MResolve s d x r]) with [(s, d, x)]. clear - C FP. pc.
    + unfold due_total. cbn [w_msgs]. fold (dues (drop_nth n (w_msgs w) ++ [MResolve s d x r])). rewrite du_app.
      change (dues [MResolve s d x r]) with 0. lia.
  - assert (I0 : incomes [EResolve n gas] = 0) by reflexivity.
    destruct (nth_error (w_msgs w) n) as [m|] eqn:E; [|apply KEEP; auto]. destruct m as [| |s d x r]; [apply KEEP; auto|apply KEEP; auto|].
    apply drop_nth_perm in E. pose proof (fl_perm _ _ E) as FP. pose proof (du_perm _ _ E) as DP.
    pose proof M as M1. rewrite E in M1. inversion M1 as [|? ? MO M']; subst.
    change (flying (MResolve s d x r :: drop_nth n (w_msgs w))) with ((s, d, x) :: flying (drop_nth n (w_msgs w))) in FP.
    change (dues (MResolve s d x r :: drop_nth n (w_msgs w))) with (0 + dues (drop_nth n (w_msgs w))) in DP.
    destruct (resolve_total (w_token w) self s d x r W MO) as (t' & used & -> & F).
    pose proof (effect_wf _ _ _ _ _ _ W F) as W'. pose proof (effect_owed _ _ _ _ _ _ W F) as O. cbn [ctx_attached sent fold_right] in O.
    change (sent []) with 0. replace (0 <=? w_balance w) with true by lia. rewrite andb_true_r.
    destruct gas; cbn [fst snd map]; rewrite ?app_nil_r; constructor; cbn [w_token w_balance w_msgs]; auto; try lia.
    + unfold in_flight. cbn [w_msgs]. fold (flying (drop_nth n (w_msgs w))). rewrite tc_app, rs_app, ur_app.
      cbn [transfer_calls resolved unresolved flat_map app]. rewrite ?app_nil_r. clear - C FP. pc.
    + unfold due_total. cbn [w_msgs]. fold (dues (drop_nth n (w_msgs w))). rewrite pd_app, at_app.
      change (paid_total [BResolved s d x used]) with 0. change (attached_total [BResolved s d x used]) with 0. lia.
    + unfold in_flight. cbn [w_msgs]. fold (flying (drop_nth n (w_msgs w))). rewrite tc_app, rs_app, ur_app.
      cbn [transfer_calls resolved unresolved flat_map app]. rewrite ?app_nil_r. clear - C FP. pc.
    + unfold due_total. cbn [w_msgs]. fold (dues (drop_nth n (w_msgs w))). rewrite pd_app, at_app.
      change (paid_total [BUnresolved s d x]) with 0. change (attached_total [BUnresolved s d x]) with 0. lia.
  - cbn [fst snd]. rewrite app_nil_r. change (incomes [EIncome x]) with (x + 0) in IS.
    constructor; cbn [w_token w_balance w_msgs]; auto; try lia. unfold due_total. cbn [w_msgs]. fold (dues (w_msgs w)). lia.
Qed.

Lemma inv_history self b evs : inv b evs (log self (start b) evs) (final self (start b) evs).
Proof.
  induction evs as [|ev evs IH] using rev_ind.
  - constructor; cbn [log final start w_token w_balance w_msgs]; auto.
    + exact wf_new.
    + unfold owed, new. cbn [total_supply accounts]. change (mlen []) with 0. lia.
  - rewrite final_app, log_app. cbn [final log]. rewrite app_nil_r. now apply inv_step.
Qed.
Lemma wf_reach self b evs : wf (w_token (final self (start b) evs)).
Proof. exact (i_wf _ _ _ _ (inv_history self b evs)). Qed.

(** * Sums over accounts *)
Lemma registered_mem w a : wf (w_token w) -> registered w a <-> mmem a (accounts (w_token w)) = true.
Proof.
  intros W. unfold registered, storage_balance_of. rewrite (storage_min_ok _ W). cbn [bind].
  destruct (mmem a (accounts (w_token w))); split; eauto; [intros (s & H)|]; discriminate.
Qed.

Lemma remove_sum (a : string) l : NoDup l -> In a l ->
  exists l', Permutation l (a :: l') /\ NoDup l'.
Proof.
  intros ND I. apply in_split in I. destruct I as (l1 & l2 & ->). exists (l1 ++ l2)%list. split.
  - symmetry. apply Permutation_middle.
  - now apply NoDup_remove_1 in ND.
Qed.
Definition look (m : umap string N) (a : string) : N := match mget a m with Some b => b | None => 0 end.
Lemma look_cons k v m a : look ((k, v) :: m) a = if keqb a k then v else look m a.
Proof. unfold look. cbn [mget]. destruct (keqb a k); auto. Qed.
Lemma sum_over (m : umap string N) l : NoDup (mkeys m) -> NoDup l ->
  (forall a, look m a <> 0 -> In a l) -> msum (fun x => x) m = sum (map (look m) l).
Proof.
  revert l. induction m as [|[k v] m IH]; intros l ND NL H.
  - unfold msum. cbn [fold_right]. clear NL H. induction l as [|a l IHl]; auto.
  - inversion ND as [|? ? NI ND']; subst.
    assert (X : forall l', ~ In k l' -> map (look ((k, v) :: m)) l' = map (look m) l').
    { intros l' N0. apply map_ext_in. intros a I. rewrite look_cons, keqb_neq; auto. intros ->. contradiction. }
    assert (NK : look m k = 0). { unfold look. apply mget_none_notin in NI. now rewrite NI. }
    change (msum (fun x => x) ((k, v) :: m)) with (v + msum (fun x => x) m).
    assert (NZ : forall a, look m a <> 0 -> a <> k /\ In a l).
    { intros a N0. assert (a <> k) by (intros ->; contradiction). split; auto. apply H. rewrite look_cons, keqb_neq; auto. }
    destruct (in_dec string_dec k l) as [I|I].
    + destruct (remove_sum k l NL I) as (l' & P & NL').
      pose proof NL as NL2. rewrite P in NL2. inversion NL2 as [|? ? NI' _]; subst.
      rewrite (sum_perm _ _ (Permutation_map _ P)). cbn [map]. rewrite (X l' NI'), look_cons, keqb_refl.
      rewrite (IH l' ND' NL'); [reflexivity|]. intros a N0. destruct (NZ a N0) as [NE J].
      rewrite P in J. destruct J as [J|J]; congruence.
    + assert (v = 0). { destruct (N.eq_dec v 0); auto. exfalso. apply I, H. rewrite look_cons, keqb_refl. auto. }
      subst. rewrite (X l I). rewrite <- (IH l ND' NL); [lia|]. intros a N0. now apply NZ.
Qed.
Lemma supply_is_sum self b evs l : NoDup l ->
  (forall a, bal (final self (start b) evs) a <> 0 -> In a l) ->
  supply (final self (start b) evs) = sum (map (bal (final self (start b) evs)) l).
Proof.
  set (w := final self (start b) evs). intros ND H. destruct (wf_reach self b evs) as [NK S _ _]. fold w in NK, S.
  unfold supply, ft_total_supply. rewrite S. exact (sum_over _ l NK ND H).
Qed.

Lemma count_registered w l : wf (w_token w) -> NoDup l -> (forall a, In a l -> registered w a) ->
  N.of_nat (List.length l) <= mlen (accounts (w_token w)).
Proof.
  intros W ND H. unfold mlen. assert (L : (List.length l <= List.length (mkeys (accounts (w_token w))))%nat).
  { apply NoDup_incl_length; auto. intros a I. apply in_mkeys_mmem. apply registered_mem; auto. }
  unfold mkeys in L. rewrite map_length in L. unfold umap in *. lia.
Qed.
Lemma fully_backed self b evs l : let w := final self (start b) evs in
  NoDup l -> (forall a, In a l -> registered w a) ->
  b + supply w + DEPOSIT * N.of_nat (List.length l) <= w_balance w.
Proof.
  intros w ND H. pose proof (i_backed _ _ _ _ (inv_history self b evs)) as B. fold w in B.
  pose proof (count_registered w l (wf_reach self b evs) ND H) as L. unfold owed in B. unfold supply, ft_total_supply.
  apply (N.mul_le_mono_l _ _ DEPOSIT) in L. lia.
Qed.
Lemma usage_le l : Forall (fun a => slen a <= 64) l ->
  STORAGE_BYTE_COST * sum (map record_usage l) <= DEPOSIT * N.of_nat (List.length l).
Proof.
  assert (E : DEPOSIT = STORAGE_BYTE_COST * 125) by reflexivity. rewrite E.
  induction 1 as [|a l Ha _ IH]; cbn [map sum fold_right List.length]; [lia|]. fold (sum (map record_usage l)).
  assert (U : record_usage a <= 125) by (unfold record_usage; lia).
  replace (N.of_nat (S (List.length l))) with (1 + N.of_nat (List.length l)) by lia. nia.
Qed.
Lemma storage_is_paid self b evs l : let w := final self (start b) evs in
  NoDup l -> (forall a, In a l -> registered w a) -> Forall (fun a => slen a <= 64) l ->
  b + supply w + STORAGE_BYTE_COST * sum (map record_usage l) <= w_balance w.
Proof.
  intros w ND H F. pose proof (fully_backed self b evs l ND H) as B. cbv zeta in B. fold w in B.
  pose proof (usage_le l F) as U. etransitivity; [|exact B]. apply N.add_le_mono_l. exact U.
Qed.
Lemma ledger self b evs : let w := final self (start b) evs in let l := log self (start b) evs in
  w_balance w + due_total w + paid_total l = b + attached_total l + incomes evs.
Proof. exact (i_ledger _ _ _ _ (inv_history self b evs)). Qed.
Lemma calls_accounted self b evs : let w := final self (start b) evs in let l := log self (start b) evs in
  Permutation (transfer_calls l) (resolved l ++ unresolved l ++ in_flight w).
Proof. exact (i_calls _ _ _ _ (inv_history self b evs)). Qed.
