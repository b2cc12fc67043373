(** Proofs about the staking pool factory. *)
From Coq Require Import NArith List Bool String Ascii Permutation.
From Verif Require Import Prelude PreludeFacts MapFacts Messages PoolFactoryModel PoolFactorySpec.
From Verif Require StakingPoolModel WhitelistModel WhitelistSpec WhitelistProofs.
Import ListNotations.
Open Scope string_scope.
Open Scope N_scope.

Definition pair_dec : forall x y : string * N, {x = y} + {x <> y}.
Proof. decide equality; [apply N.eq_dec | apply string_dec]. Defined.
Definition names_dec : forall x y : string * string, {x = y} + {x <> y}.
Proof. decide equality; apply string_dec. Defined.

Ltac pc dec := unfold account_id in *; perm_count dec.

Lemma sremove_perm (a : account_id) s : NoDup s -> In a s -> Permutation s (a :: sremove a s).
Proof.
  intros ND I. apply NoDup_Permutation; auto.
  - constructor; [|now apply NoDup_sremove]. rewrite sremove_in. tauto.
  - intros x. cbn [In]. rewrite sremove_in. destruct (string_dec x a); [subst|]; intuition congruence.
Qed.
Lemma sinsert_perm (a : account_id) s : smem a s = false -> Permutation (a :: s) (sinsert a s).
Proof. intros E. unfold sinsert. rewrite E. apply Permutation_cons_append. Qed.

(** * What a call does *)
Definition fee_ok (f : fraction) : bool :=
  negb (SM.denominator f =? 0) && (SM.numerator f <=? SM.denominator f).
Lemma fee_ok_spec f : fee_ok f = true <-> valid_fee f.
Proof. unfold fee_ok, valid_fee. rewrite andb_true_iff, negb_true_iff, N.eqb_neq, N.leb_le. tauto. Qed.

Definition may_create (self : account_id) (s : factory) (attached : N) (name : string) (owner : account_id)
    (fee : fraction) : bool :=
  (MIN_ATTACHED_BALANCE <=? attached) && negb (has_dot name) && is_valid_account_id (name ++ "." ++ self) &&
  is_valid_account_id owner && fee_ok fee && negb (smem (name ++ "." ++ self) (staking_pool_account_ids s)).

Lemma exec_create self s who attached results name owner key fee :
  exec (mkCtx self who attached results) s (CreateStakingPool name owner key fee) =
  if may_create self s attached name owner fee then
    Ok (mkFactory (staking_pool_whitelist_account_id s) (sinsert (name ++ "." ++ self) (staking_pool_account_ids s)),
        [PCreate (name ++ "." ++ self) attached (mkArgs owner key fee)
           (OnStakingPoolCreate (name ++ "." ++ self) attached who)])
  else exec (mkCtx self who attached results) s (CreateStakingPool name owner key fee).
Proof.
  destruct (may_create self s attached name owner fee) eqn:E; auto.
  unfold may_create in E. rewrite !andb_true_iff in E. destruct E as (((((A & B) & C) & D) & F) & G).
  unfold fee_ok in F. rewrite andb_true_iff in F. destruct F as [F1 F2].
  unfold exec, create_staking_pool, fraction_assert_valid. cbn [ctx_attached ctx_current ctx_predecessor].
  cbv zeta. rewrite A, B, C, D, F1, F2, G. reflexivity.
Qed.
Lemma exec_create_ok self s who attached results name owner key fee s' ps :
  exec (mkCtx self who attached results) s (CreateStakingPool name owner key fee) = Ok (s', ps) ->
  may_create self s attached name owner fee = true /\
  s' = mkFactory (staking_pool_whitelist_account_id s) (sinsert (name ++ "." ++ self) (staking_pool_account_ids s)) /\
  ps = [PCreate (name ++ "." ++ self) attached (mkArgs owner key fee)
           (OnStakingPoolCreate (name ++ "." ++ self) attached who)].
Proof.
  unfold exec, create_staking_pool, fraction_assert_valid. cbn [ctx_attached ctx_current ctx_predecessor].
  cbv zeta. intros H. inv_res. unfold may_create, fee_ok.
  repeat match goal with E : ?b = true |- context [?b] => rewrite E end. auto.
Qed.
Lemma exec_callback_stranger self s who attached a x u :
  forall r, exec (mkCtx self who attached []) s (OnStakingPoolCreate a x u) <> Ok r.
Proof.
  intros r. unfold exec, on_staking_pool_create, is_promise_success. cbn [ctx_results]. intros H. inv_res.
Qed.
Lemma exec_callback self s a x u ok :
  exec (mkCtx self self 0 [ok]) s (OnStakingPoolCreate a x u) =
  if ok : bool then Ok (s, [PAddStakingPool (staking_pool_whitelist_account_id s) a])
  else Ok (mkFactory (staking_pool_whitelist_account_id s) (sremove a (staking_pool_account_ids s)),
           [PTransfer u x]).
Proof.
  unfold exec, on_staking_pool_create. cbn [ctx_attached ctx_predecessor ctx_current].
  rewrite String.eqb_refl. cbn [N.eqb require bind is_promise_success ctx_results].
  destruct ok; reflexivity.
Qed.

(** * The invariant *)
Definition msg_ok (self : account_id) (m : msg) : Prop :=
  match m with
  | MCreate a x args cb => (exists u, cb = OnStakingPoolCreate a x u) /\ MIN_ATTACHED_BALANCE <= x /\
      (exists name, direct_subaccount self name a) /\
      is_valid_account_id (a_owner_id args) = true /\ valid_fee (a_reward_fee_fraction args)
  | MBack cb _ => exists a x u, cb = OnStakingPoolCreate a x u
  end.

Record inv (self wl : account_id) (b0 : N) (evs : list event) (l : list obs) (w : world) : Prop := mkInv {
  i_msgs : Forall (msg_ok self) (w_msgs w);
  i_wl : staking_pool_whitelist_account_id (w_factory w) = wl;
  i_balance : w_balance w = b0 + incomes evs + to_refund w;
  i_ids : Permutation (staking_pool_account_ids (w_factory w)) (created_pools l ++ pending_pools w);
  i_nodup : NoDup (staking_pool_account_ids (w_factory w));
  i_money : Permutation (accepted l) (created l ++ refunded l ++ pending w);
  i_white : Permutation (map (pair wl) (created_pools l)) (whitelisted l ++ map (pair wl) (to_whitelist w));
  i_stuck : stuck l = []
}.

Lemma flat_map_snoc {A B} (f : A -> list B) l x : flat_map f (l ++ [x]) = (flat_map f l ++ f x)%list.
Proof. rewrite flat_map_app. cbn [flat_map]. now rewrite app_nil_r. Qed.

Lemma incomes_snoc evs ev :
  incomes (evs ++ [ev]) = incomes evs + match ev with EIncome x => x | _ => 0 end.
Proof.
  induction evs as [|e evs IH]; cbn [app incomes fold_right]; [destruct ev; lia|].
  fold (incomes (evs ++ [ev])). fold (incomes evs). rewrite IH. destruct e; lia.
Qed.

Definition pend1 (m : msg) : list (account_id * account_id * N) :=
  match m with
  | MCreate a x _ (OnStakingPoolCreate _ _ who) => [(who, a, x)]
  | MBack (OnStakingPoolCreate a x who) false => [(who, a, x)]
  | _ => []
  end.
Definition white1 (m : msg) : list account_id :=
  match m with MBack (OnStakingPoolCreate a _ _) true => [a] | _ => [] end.
Lemma pending_creations_eq w : pending_creations w = flat_map pend1 (w_msgs w).
Proof. reflexivity. Qed.
Lemma to_whitelist_eq w : to_whitelist w = flat_map white1 (w_msgs w).
Proof. reflexivity. Qed.
Definition ref1 (m : msg) : N := match m with MBack (OnStakingPoolCreate _ y _) false => y | _ => 0 end.
Definition refs (l : list msg) : N := fold_right (fun m x => ref1 m + x) 0 l.
Lemma to_refund_eq w : to_refund w = refs (w_msgs w).
Proof.
  unfold to_refund, refs. induction (w_msgs w) as [|m l IH]; cbn [fold_right]; auto.
  rewrite IH. destruct m as [|[] []]; reflexivity.
Qed.
Lemma refs_app l l' : refs (l ++ l') = refs l + refs l'.
Proof. unfold refs. induction l as [|m l IH]; cbn [app fold_right]; auto. rewrite IH. lia. Qed.
Lemma refs_perm l l' : Permutation l l' -> refs l = refs l'.
Proof. unfold refs. induction 1; cbn [fold_right]; lia. Qed.

Lemma pending_eq w : pending w = map (fun c => (fst (fst c), snd c)) (flat_map pend1 (w_msgs w)).
Proof. reflexivity. Qed.
Lemma pending_pools_eq w : pending_pools w = map (fun c => snd (fst c)) (flat_map pend1 (w_msgs w)).
Proof. reflexivity. Qed.
#[local] Opaque pending pending_pools to_whitelist to_refund.

Ltac logs :=
  unfold accepted, created, refunded, created_pools, whitelisted, stuck in *;
  rewrite ?flat_map_app in *; cbn [flat_map app] in *; rewrite ?app_nil_r in *.
Ltac flight := rewrite ?pending_eq, ?pending_pools_eq, ?to_whitelist_eq, ?to_refund_eq in *; cbn [w_msgs] in *;
  rewrite ?flat_map_app, ?map_app, ?refs_app in *;
  cbn [flat_map pend1 white1 refs fold_right ref1 map app fst snd] in *; rewrite ?app_nil_r in *.

Lemma nth_msg_ok self w n m : Forall (msg_ok self) (w_msgs w) -> nth_error (w_msgs w) n = Some m ->
  msg_ok self m /\ Forall (msg_ok self) (drop_nth n (w_msgs w)).
Proof.
  intros F E. apply drop_nth_perm in E. rewrite E in F. inversion F; subst. auto.
Qed.

Lemma has_dot_append_nil self : is_valid_account_id ("" ++ "." ++ self) = false.
Proof.
  unfold is_valid_account_id. change ("" ++ "." ++ self) with (String "."%char self).
  cbn [valid_chars]. change (char_kind ".") with (Some true). cbn [andb]. apply andb_false_r.
Qed.

Lemma may_create_sub self s attached name owner fee : may_create self s attached name owner fee = true ->
  direct_subaccount self name (name ++ "." ++ self) /\ MIN_ATTACHED_BALANCE <= attached /\
  is_valid_account_id owner = true /\ valid_fee fee /\ ~ In (name ++ "." ++ self) (staking_pool_account_ids s).
Proof.
  unfold may_create. rewrite !andb_true_iff, fee_ok_spec, !negb_true_iff, N.leb_le.
  intros (((((A & B) & C) & D) & F) & G).
  split; [|split; [|split; [|split]]]; auto.
  - split; [reflexivity|]. split; [|split; auto].
    intros ->. rewrite has_dot_append_nil in C. discriminate.
  - intros I. apply smem_in in I. congruence.
Qed.

Lemma perm_map_flat {B C} (f : B -> C) (g : msg -> list B) l l' :
  Permutation l l' -> Permutation (map f (flat_map g l)) (map f (flat_map g l')).
Proof. intros P. apply Permutation_map, Permutation_flat_map, P. Qed.

(** Taking a message out, seen by every reading of the messages. *)
Lemma take w n m : nth_error (w_msgs w) n = Some m ->
  let r := mkWorld (w_factory w) (w_balance w) (w_accounts w) (drop_nth n (w_msgs w)) in
  Permutation (pending w) (map (fun c => (fst (fst c), snd c)) (pend1 m) ++ pending r) /\
  Permutation (pending_pools w) (map (fun c => snd (fst c)) (pend1 m) ++ pending_pools r) /\
  Permutation (to_whitelist w) (white1 m ++ to_whitelist r) /\
  to_refund w = ref1 m + to_refund r.
Proof.
  intros E r. apply drop_nth_perm in E. unfold r. flight. rewrite <- !map_app.
  repeat split.
  - apply Permutation_map. change (pend1 m ++ flat_map pend1 (drop_nth n (w_msgs w)))%list
      with (flat_map pend1 (m :: drop_nth n (w_msgs w))). now apply Permutation_flat_map.
  - apply Permutation_map. change (pend1 m ++ flat_map pend1 (drop_nth n (w_msgs w)))%list
      with (flat_map pend1 (m :: drop_nth n (w_msgs w))). now apply Permutation_flat_map.
  - change (white1 m ++ flat_map white1 (drop_nth n (w_msgs w)))%list
      with (flat_map white1 (m :: drop_nth n (w_msgs w))). now apply Permutation_flat_map.
  - now rewrite (refs_perm _ _ E).
Qed.

Ltac nothing := constructor; cbn [fst snd]; auto; try (rewrite incomes_snoc; lia); logs; auto.

Lemma inv_step self wl b0 evs l w ev : inv self wl b0 evs l w ->
  inv self wl b0 (evs ++ [ev]) (l ++ snd (step_obs self w ev)) (step self w ev).
Proof.
  intros [M W B I ND C H S]. unfold step.
  destruct ev as [who attached m|n gas epoch|n|x|a]; cbn [step_obs].
  - (* a call *)
    unfold run. destruct m as [name owner key fee|a x u].
    + destruct (exec _ _ _) as [[s ps]|e] eqn:E.
      * apply exec_create_ok in E. destruct E as (E & -> & ->).
        apply may_create_sub in E. destruct E as (SUB & MIN & OW & FEE & FRESH).
        set (a := name ++ "." ++ self) in *. clearbody a.
        cbn [total_tokens fold_right tokens_of]. rewrite N.add_0_r.
        replace (attached <=? w_balance w + attached) with true by lia.
        assert (NS : smem a (staking_pool_account_ids (w_factory w)) = false).
        { destruct (smem _ _) eqn:X; auto. apply smem_in in X. contradiction. }
        pose proof (sinsert_perm _ _ NS) as P.
        cbn [fst snd obs_of map msgs_of flat_map app].
        constructor; cbn [w_msgs w_factory w_balance staking_pool_whitelist_account_id staking_pool_account_ids]; auto.
        -- apply Forall_app. split; auto. constructor; auto. cbn [msg_ok a_owner_id a_reward_fee_fraction].
           repeat split; eauto; apply FEE.
        -- rewrite incomes_snoc. flight. lia.
        -- logs. flight. pc string_dec.
        -- apply (Permutation_NoDup P). constructor; auto.
        -- logs. flight. pc pair_dec.
        -- logs. flight. auto.
        -- logs. auto.
      * constructor; cbn [fst snd]; auto; try (rewrite incomes_snoc; lia); logs; auto.
    + destruct (exec _ _ _) as [r|e] eqn:E; [exfalso; eapply exec_callback_stranger; eauto|].
      constructor; cbn [fst snd]; auto; try (rewrite incomes_snoc; lia); logs; auto.
  - (* a creation is executed *)
    destruct (nth_error (w_msgs w) n) as [[a x args cb|cb ok]|] eqn:E; [|nothing|nothing].
    destruct (nth_msg_ok _ _ _ _ M E) as [OK F]. destruct (take _ _ _ E) as (T1 & T2 & T3 & T4).
    cbn [msg_ok] in OK. destruct OK as ((u & ->) & MIN & SUB & OW & FEE).
    destruct (create_pool self w a x args gas epoch) as [p|]; cbn [fst snd payer].
    + constructor; cbn [w_msgs w_factory w_balance]; auto.
      * apply Forall_app. split; auto. constructor; auto. cbn. eauto.
      * rewrite incomes_snoc. flight. lia.
      * logs. flight. pc string_dec.
      * logs. flight. pc pair_dec.
      * logs. flight. apply (Permutation_map (pair wl)) in T3. rewrite ?map_app in *. cbn [map] in *. pc names_dec.
      * logs. auto.
    + constructor; cbn [w_msgs w_factory w_balance]; auto.
      * apply Forall_app. split; auto. constructor; auto. cbn. eauto.
      * rewrite incomes_snoc. flight. lia.
      * logs. flight. pc string_dec.
      * logs. flight. pc pair_dec.
      * logs. flight. apply (Permutation_map (pair wl)) in T3. rewrite ?map_app in *. cbn [map] in *. pc names_dec.
      * logs. auto.
  - (* a callback *)
    destruct (nth_error (w_msgs w) n) as [[a x args cb|cb ok]|] eqn:E; [nothing| |nothing].
    destruct (nth_msg_ok _ _ _ _ M E) as [OK F]. destruct (take _ _ _ E) as (T1 & T2 & T3 & T4).
    cbn [msg_ok] in OK. destruct OK as (a & x & u & ->).
    unfold run. cbn [w_factory w_balance w_accounts w_msgs]. rewrite exec_callback.
    destruct ok.
    + cbn [total_tokens fold_right tokens_of fst snd msgs_of flat_map obs_of map app].
      replace (0 + 0 <=? w_balance w + 0) with true by lia. cbn [fst snd].
      constructor; cbn [w_msgs w_factory w_balance]; rewrite ?app_nil_r; auto.
      * rewrite incomes_snoc. flight. lia.
      * logs. flight. pc string_dec.
      * logs. flight. pc pair_dec.
      * logs. flight. apply (Permutation_map (pair wl)) in T3. rewrite ?map_app in *. cbn [map] in *.
        rewrite W. pc names_dec.
      * logs. auto.
    + cbn [total_tokens fold_right tokens_of fst snd msgs_of flat_map obs_of map app ref1] in *.
      replace (x + 0 <=? w_balance w + 0) with true by lia. cbn [fst snd].
      assert (In a (staking_pool_account_ids (w_factory w))) as IN.
      { eapply Permutation_in; [symmetry; exact I|]. apply in_or_app. right.
        eapply Permutation_in; [symmetry; exact T2|]. cbn. auto. }
      pose proof (sremove_perm _ _ ND IN) as P.
      constructor; cbn [w_msgs w_factory w_balance staking_pool_whitelist_account_id staking_pool_account_ids];
        rewrite ?app_nil_r; auto.
      * rewrite incomes_snoc. flight. lia.
      * logs. flight. pc string_dec.
      * now apply NoDup_sremove.
      * logs. flight. pc pair_dec.
      * logs. flight. apply (Permutation_map (pair wl)) in T3. rewrite ?map_app in *. cbn [map] in *. pc names_dec.
      * logs. auto.
  - constructor; cbn [fst snd w_msgs w_factory w_balance]; auto; try (rewrite incomes_snoc; flight; lia); logs; flight; auto.
  - constructor; cbn [fst snd w_msgs w_factory w_balance]; auto; try (rewrite incomes_snoc; flight; lia); logs; flight; auto.
Qed.

Lemma final_app self w evs evs' : final self w (evs ++ evs') = final self (final self w evs) evs'.
Proof. revert w. induction evs as [|e evs IH]; intros w; cbn; auto. Qed.
Lemma log_app self w evs evs' : log self w (evs ++ evs') = (log self w evs ++ log self (final self w evs) evs')%list.
Proof. revert w. induction evs as [|e evs IH]; intros w; cbn; auto. now rewrite IH, app_assoc. Qed.

Lemma inv_starts self wl w : starts wl w -> inv self wl (w_balance w) [] [] w.
Proof.
  intros [N0 E]. unfold new in N0. destruct w as [f b ac ms]. cbn [w_factory w_msgs w_balance] in *. inv_res.
  constructor; cbn; flight; auto; try reflexivity; try constructor; try lia.
Qed.

Lemma inv_history self wl w evs : starts wl w ->
  inv self wl (w_balance w) evs (log self w evs) (final self w evs).
Proof.
  intros ST. induction evs as [|ev evs IH] using rev_ind; [now apply inv_starts|].
  rewrite final_app, log_app. cbn [final log]. rewrite app_nil_r. now apply inv_step.
Qed.

(** * Liveness: what is in flight can always be brought to its end *)
Definition work (l : list msg) : nat :=
  fold_right (fun m n => (match m with MCreate _ _ _ _ => 2 | MBack _ _ => 1 end + n)%nat) 0%nat l.
Lemma work_app l l' : work (l ++ l') = (work l + work l')%nat.
Proof. unfold work. induction l as [|m l IH]; cbn [app fold_right]; auto. rewrite IH. lia. Qed.

Lemma run_msgs self w who attached results cb r : run self w who attached results cb = Some r ->
  match cb with
  | OnStakingPoolCreate _ _ _ => w_msgs (fst r) = w_msgs w
  | _ => True
  end.
Proof.
  unfold run. destruct (exec _ _ _) as [[s ps]|e] eqn:E; [|discriminate].
  destruct (_ <=? _); [|discriminate]. intros H. injection H as <-. cbn [fst w_msgs].
  destruct cb; auto. unfold exec, on_staking_pool_create in E. inv_res.
  match goal with H : (if ?b then _ else _) = _ |- _ => destruct b; inv_res end; apply app_nil_r.
Qed.

Lemma drain self wl b0 : forall k evs l w, inv self wl b0 evs l w -> (work (w_msgs w) <= k)%nat ->
  exists more, w_msgs (final self w more) = [].
Proof.
  induction k as [|k IH]; intros evs l w I LE.
  - exists []. cbn [final]. destruct (w_msgs w) as [|[] ?]; auto; cbn in LE; lia.
  - destruct (w_msgs w) as [|m ms] eqn:E; [exists []; auto|].
    assert (exists ev, (work (w_msgs (step self w ev)) <= k)%nat) as [ev W].
    { destruct m as [a x args cb|cb ok].
      - exists (ECreate 0 false 0). unfold step. cbn [step_obs]. rewrite E. cbn [nth_error].
        unfold create_pool. rewrite orb_true_r. cbn [fst w_msgs drop_nth]. rewrite work_app.
        cbn [work fold_right] in *. fold (work ms) in *. lia.
      - exists (ERun 0). unfold step. cbn [step_obs]. rewrite E. cbn [nth_error].
        destruct (run _ _ _ _ _ _) as [[w' o]|] eqn:R.
        + pose proof (run_msgs _ _ _ _ _ _ _ R) as M. destruct I as [M0 _ _ _ _ _ _ _].
          rewrite E in M0. inversion M0 as [|? ? OK _]; subst. cbn [msg_ok] in OK.
          destruct OK as (a & x & u & ->). cbn [fst w_msgs drop_nth] in *. rewrite M.
          cbn [work fold_right] in *. fold (work ms) in *. lia.
        + cbn [fst w_msgs drop_nth]. cbn [work fold_right] in *. fold (work ms) in *. lia. }
    destruct (IH _ _ _ (inv_step _ _ _ _ _ _ ev I) W) as [more D].
    exists (ev :: more). exact D.
Qed.

(** * The properties *)
Lemma deposits_accounted self wl w evs : starts wl w ->
  Permutation (accepted (log self w evs))
    (created (log self w evs) ++ refunded (log self w evs) ++ pending (final self w evs)).
Proof. intros ST. exact (i_money _ _ _ _ _ _ (inv_history self wl w evs ST)). Qed.

Lemma callbacks_never_fail self wl w evs : starts wl w -> stuck (log self w evs) = [].
Proof. intros ST. exact (i_stuck _ _ _ _ _ _ (inv_history self wl w evs ST)). Qed.

Lemma can_always_finish self wl w evs : starts wl w ->
  exists more, w_msgs (final self w (evs ++ more)) = [] /\
    Permutation (accepted (log self w (evs ++ more)))
      (created (log self w (evs ++ more)) ++ refunded (log self w (evs ++ more))).
Proof.
  intros ST. destruct (drain self wl _ _ _ _ _ (inv_history self wl w evs ST) (le_n _)) as [more D].
  exists more. rewrite <- final_app in D. split; auto.
  pose proof (deposits_accounted self wl w (evs ++ more) ST) as P.
  rewrite pending_eq, D in P. cbn [flat_map map] in P. now rewrite app_nil_r in P.
Qed.

Lemma factory_keeps_nothing self wl w evs : starts wl w ->
  w_balance (final self w evs) = w_balance w + incomes evs + to_refund (final self w evs).
Proof. intros ST. exact (i_balance _ _ _ _ _ _ (inv_history self wl w evs ST)). Qed.

Lemma names_unique self wl w evs : starts wl w ->
  NoDup (created_pools (log self w evs) ++ pending_pools (final self w evs)).
Proof.
  intros ST. pose proof (inv_history self wl w evs ST) as I.
  exact (Permutation_NoDup (i_ids _ _ _ _ _ _ I) (i_nodup _ _ _ _ _ _ I)).
Qed.

Lemma pools_listed self wl w evs : starts wl w ->
  get_number_of_staking_pools_created (w_factory (final self w evs)) =
  N.of_nat (List.length (created_pools (log self w evs)) + List.length (pending_pools (final self w evs))).
Proof.
  intros ST. pose proof (inv_history self wl w evs ST) as I.
  unfold get_number_of_staking_pools_created, slength.
  rewrite (Permutation_length (i_ids _ _ _ _ _ _ I)), app_length. reflexivity.
Qed.

Lemma append_inj_l : forall a b c, a ++ c = b ++ c -> a = b.
Proof.
  assert (L : forall a c, String.length (a ++ c) = (String.length a + String.length c)%nat).
  { induction a as [|x a IH]; intros c; cbn; auto. }
  induction a as [|x a IH]; intros [|y b] c E; auto.
  - apply (f_equal String.length) in E. rewrite !L in E. cbn in E. lia.
  - apply (f_equal String.length) in E. rewrite !L in E. cbn in E. lia.
  - cbn in E. injection E as -> E. f_equal. eauto.
Qed.

Lemma distinct_names self n1 n2 a1 a2 : direct_subaccount self n1 a1 -> direct_subaccount self n2 a2 ->
  n1 <> n2 -> a1 <> a2.
Proof. intros (-> & _) (-> & _) N E. apply N. now apply append_inj_l in E. Qed.

Lemma create_accepted_iff self wl w evs who attached name owner key fee : starts wl w ->
  let a := name ++ "." ++ self in
  accepts self (final self w evs) who attached (CreateStakingPool name owner key fee) = true <->
  MIN_ATTACHED_BALANCE <= attached /\ direct_subaccount self name a /\ is_valid_account_id owner = true /\
  valid_fee fee /\ ~ In a (created_pools (log self w evs)) /\ ~ In a (pending_pools (final self w evs)).
Proof.
  intros ST a. pose proof (i_ids _ _ _ _ _ _ (inv_history self wl w evs ST)) as P.
  unfold accepts, run. split.
  - destruct (exec _ _ _) as [[s ps]|e] eqn:E; [|discriminate].
    intros _. apply exec_create_ok in E. destruct E as (E & _ & _). apply may_create_sub in E.
    destruct E as (SUB & MIN & OW & FEE & FRESH). do 4 (split; [assumption|]). split.
    + intros I. apply FRESH. eapply Permutation_in; [symmetry; exact P|]. apply in_or_app. auto.
    + intros I. apply FRESH. eapply Permutation_in; [symmetry; exact P|]. apply in_or_app. auto.
  - intros (MIN & (_ & _ & ND & V) & OW & FEE & N1 & N2). rewrite exec_create.
    assert (M : may_create self (w_factory (final self w evs)) attached name owner fee = true).
    { unfold may_create. apply fee_ok_spec in FEE. apply N.leb_le in MIN. fold a. rewrite MIN, ND, V, OW, FEE.
      cbn [negb andb]. destruct (smem a _) eqn:X; auto. apply smem_in in X.
      apply (Permutation_in _ P) in X. apply in_app_or in X. tauto. }
    rewrite M. cbn [total_tokens fold_right tokens_of]. now replace (attached + 0 <=? _) with true by lia.
Qed.

Lemma whitelist_only_created self wl w evs : starts wl w ->
  Permutation (map (pair wl) (created_pools (log self w evs)))
    (whitelisted (log self w evs) ++ map (pair wl) (to_whitelist (final self w evs))).
Proof. intros ST. exact (i_white _ _ _ _ _ _ (inv_history self wl w evs ST)). Qed.

(** Every pool was asked for by an accepted call and carries what the call asked for. *)
Definition asked (self : account_id) (evs : list event) (who : account_id) (a : account_id) (x : N) (args : pool_args) : Prop :=
  exists name, In (ECall who x (CreateStakingPool name (a_owner_id args) (a_stake_public_key args)
                                  (a_reward_fee_fraction args))) evs /\ direct_subaccount self name a /\
  MIN_ATTACHED_BALANCE <= x /\ is_valid_account_id (a_owner_id args) = true /\ valid_fee (a_reward_fee_fraction args).

Definition flying (self : account_id) (evs : list event) (m : msg) : Prop :=
  match m with
  | MCreate a x args (OnStakingPoolCreate _ _ u) => asked self evs u a x args
  | _ => True
  end.
Definition made (self : account_id) (evs : list event) (o : obs) : Prop :=
  match o with
  | BCreated who a x p => exists args, asked self evs who a x args /\
      exists epoch, p = SM.mkPool (a_owner_id args) (a_stake_public_key args) epoch x
          (x - SM.STAKE_SHARE_PRICE_GUARANTEE_FUND) (x - SM.STAKE_SHARE_PRICE_GUARANTEE_FUND)
          (a_reward_fee_fraction args) [] false
  | _ => True
  end.
Lemma asked_mono self evs ev who a x args : asked self evs who a x args -> asked self (evs ++ [ev]) who a x args.
Proof. intros (name & I & R). exists name. split; auto. apply in_or_app. auto. Qed.
Lemma flying_mono self evs ev m : flying self evs m -> flying self (evs ++ [ev]) m.
Proof. destruct m as [? ? ? []|]; cbn; auto using asked_mono. Qed.
Lemma made_mono self evs ev o : made self evs o -> made self (evs ++ [ev]) o.
Proof. destruct o; cbn; auto. intros (args & A & R). eauto using asked_mono. Qed.

Lemma create_pool_some self w a x args gas epoch p : create_pool self w a x args gas epoch = Some p ->
  p = SM.mkPool (a_owner_id args) (a_stake_public_key args) epoch x
          (x - SM.STAKE_SHARE_PRICE_GUARANTEE_FUND) (x - SM.STAKE_SHARE_PRICE_GUARANTEE_FUND)
          (a_reward_fee_fraction args) [] false.
Proof.
  unfold create_pool. destruct (_ || _); [discriminate|].
  destruct (SM.new _ _ _ _ _) as [[q ps]|e] eqn:E; [|discriminate]. intros H. injection H as <-.
  unfold SM.new in E. cbn [SM.ctx_balance SM.ctx_locked SM.ctx_epoch] in E. inv_res. reflexivity.
Qed.

(** An account that does not exist is always created when there is gas: none of the pool's own checks fails. *)
Lemma create_pool_ok self w a x args epoch :
  smem a (w_accounts w) = false -> MIN_ATTACHED_BALANCE <= x -> is_valid_account_id (a_owner_id args) = true ->
  valid_fee (a_reward_fee_fraction args) -> exists p, create_pool self w a x args true epoch = Some p.
Proof.
  intros F MIN OW [F1 F2]. unfold create_pool. rewrite F. cbn [orb negb].
  unfold SM.new. cbn [SM.ctx_balance SM.ctx_locked SM.ctx_epoch negb require bind].
  unfold SM.fraction_assert_valid. rewrite OW.
  rewrite sub_chk_intro by (unfold SM.STAKE_SHARE_PRICE_GUARANTEE_FUND, MIN_ATTACHED_BALANCE in *; lia).
  replace (SM.denominator (a_reward_fee_fraction args) =? 0) with false by lia.
  replace (SM.numerator (a_reward_fee_fraction args) <=? SM.denominator (a_reward_fee_fraction args)) with true by lia.
  cbn. eauto.
Qed.

Lemma made_history self wl w evs : starts wl w ->
  Forall (flying self evs) (w_msgs (final self w evs)) /\ Forall (made self evs) (log self w evs).
Proof.
  intros ST. induction evs as [|ev evs IH] using rev_ind.
  { destruct ST as [_ E]. cbn [final log]. rewrite E. auto. }
  pose proof (inv_history self wl w evs ST) as I.
  rewrite final_app, log_app. cbn [final log]. rewrite app_nil_r.
  set (v := final self w evs) in *. destruct IH as [F M].
  assert (F' : Forall (flying self (evs ++ [ev])) (w_msgs v)) by (eapply Forall_impl; [|exact F]; intros; now apply flying_mono).
  assert (M' : Forall (made self (evs ++ [ev])) (log self w evs)) by (eapply Forall_impl; [|exact M]; intros; now apply made_mono).
  clear M. rewrite Forall_app. unfold step.
  destruct ev as [who attached m|n gas epoch|n|x|a]; cbn [step_obs]; auto.
  - unfold run. destruct m as [name owner key fee|a x u].
    + destruct (exec _ _ _) as [[s ps]|e] eqn:E; [|cbn [fst snd]; repeat split; auto; repeat constructor].
      apply exec_create_ok in E. destruct E as (E & -> & ->). apply may_create_sub in E.
      destruct E as (SUB & MIN & OW & FEE & FRESH).
      destruct (_ <=? _); cbn [fst snd w_msgs msgs_of flat_map app obs_of map];
        [|repeat split; auto; repeat constructor].
      repeat split; auto; [|repeat constructor]. apply Forall_app. split; auto. constructor; auto. cbn [flying].
      exists name. split; [apply in_or_app; right; left; reflexivity|]. auto.
    + destruct (exec _ _ _) as [r|e] eqn:E; [exfalso; eapply exec_callback_stranger; eauto|].
      cbn [fst snd]. repeat split; auto. repeat constructor.
  - destruct (nth_error (w_msgs v) n) as [[a x args cb|cb ok]|] eqn:E; cbn [fst snd]; auto.
    destruct (nth_msg_ok _ _ _ _ (i_msgs _ _ _ _ _ _ I) E) as [OK _].
    cbn [msg_ok] in OK. destruct OK as ((u & ->) & _).
    assert (FL : flying self (evs ++ [ECreate n gas epoch]) (MCreate a x args (OnStakingPoolCreate a x u))).
    { eapply Forall_forall; [exact F'|]. eapply nth_error_In; eauto. }
    assert (D : Forall (flying self (evs ++ [ECreate n gas epoch])) (drop_nth n (w_msgs v))).
    { apply drop_nth_perm in E. rewrite E in F'. now inversion F'. }
    destruct (create_pool _ _ _ _ _ _ _) as [p|] eqn:CP; cbn [fst snd w_msgs payer]; rewrite Forall_app; repeat split; auto;
      try (constructor; auto; exact Logic.I).
    constructor; auto. cbn [made]. exists args. split; auto. exists epoch. eapply create_pool_some; eauto.
  - destruct (nth_error (w_msgs v) n) as [[a x args cb|cb ok]|] eqn:E; cbn [fst snd]; auto.
    destruct (nth_msg_ok _ _ _ _ (i_msgs _ _ _ _ _ _ I) E) as [OK _].
    cbn [msg_ok] in OK. destruct OK as (a & x & u & ->).
    assert (D : Forall (flying self (evs ++ [ERun n])) (drop_nth n (w_msgs v))).
    { apply drop_nth_perm in E. rewrite E in F'. now inversion F'. }
    unfold run. cbn [w_factory w_balance w_msgs]. rewrite exec_callback.
    destruct ok; destruct (_ <=? _); cbn [fst snd w_msgs msgs_of flat_map obs_of map app]; rewrite ?app_nil_r;
      repeat split; auto; repeat constructor.
  - cbn [fst snd w_msgs]. auto.
  - cbn [fst snd w_msgs]. auto.
Qed.

Lemma created_as_asked self wl w evs who a x p : starts wl w -> In (BCreated who a x p) (log self w evs) ->
  exists name owner key fee epoch,
    In (ECall who x (CreateStakingPool name owner key fee)) evs /\ direct_subaccount self name a /\
    MIN_ATTACHED_BALANCE <= x /\ is_valid_account_id owner = true /\ valid_fee fee /\
    p = SM.mkPool owner key epoch x (x - SM.STAKE_SHARE_PRICE_GUARANTEE_FUND)
          (x - SM.STAKE_SHARE_PRICE_GUARANTEE_FUND) fee [] false.
Proof.
  intros ST IN. destruct (made_history self wl w evs ST) as [_ M].
  rewrite Forall_forall in M. specialize (M _ IN). cbn [made] in M.
  destruct M as (args & (name & A & B & C & D & E) & epoch & ->). 
  exists name, (a_owner_id args), (a_stake_public_key args), (a_reward_fee_fraction args), epoch. auto 10.
Qed.

(** A creation in flight succeeds whenever there is gas and nobody created the account by other means. *)
Lemma creation_succeeds self wl w evs n a x args cb epoch : starts wl w ->
  nth_error (w_msgs (final self w evs)) n = Some (MCreate a x args cb) ->
  smem a (w_accounts (final self w evs)) = false ->
  exists p, In (BCreated (payer cb) a x p) (log self w (evs ++ [ECreate n true epoch])).
Proof.
  intros ST E F. pose proof (inv_history self wl w evs ST) as I.
  destruct (nth_msg_ok _ _ _ _ (i_msgs _ _ _ _ _ _ I) E) as [OK _].
  cbn [msg_ok] in OK. destruct OK as (_ & MIN & _ & OW & FEE).
  destruct (create_pool_ok self (final self w evs) a x args epoch F MIN OW FEE) as [p CP].
  exists p. rewrite log_app. apply in_or_app. right. cbn [log step_obs]. rewrite E, CP. cbn. auto.
Qed.

(** * Together with the whitelist contract *)
Module WM := WhitelistModel.
Module WS := WhitelistSpec.
Module WP := WhitelistProofs.

Lemma listed_added fnd past p : WS.pool_listed fnd past p = true ->
  exists ev, In ev past /\ WS.e_call ev = WM.AddStakingPool p.
Proof.
  induction past as [|ev past IH]; cbn [WS.pool_listed]; [discriminate|]. cbv zeta.
  assert (K : WS.pool_listed fnd past p = true -> exists ev0, In ev0 (ev :: past) /\ WS.e_call ev0 = WM.AddStakingPool p).
  { intros L. destruct (IH L) as (e & I & C). exists e. split; auto. now right. }
  destruct (WS.in_order ev); auto. destruct (WS.e_call ev) as [q|q|q|q] eqn:C; auto.
  - destruct (_ && _) eqn:B; auto. intros _. apply andb_true_iff in B. destruct B as [B _].
    apply String.eqb_eq in B. subst. exists ev. split; auto. now left.
  - destruct (_ && _); auto. discriminate.
Qed.

Lemma listed_were_created self wl w evs fnd s0 calls p : starts wl w -> WM.new false fnd = Ok s0 ->
  (forall ev, In ev calls -> WS.e_who ev = self ->
     exists a, WS.e_call ev = WM.AddStakingPool a /\ In (wl, a) (whitelisted (log self w evs))) ->
  WM.is_whitelisted (WS.final s0 calls) p = Ok true ->
  In p (created_pools (log self w evs)) \/
  exists ev, In ev calls /\ WS.e_who ev <> self /\ WS.e_call ev = WM.AddStakingPool p.
Proof.
  intros ST N0 FC L.
  assert (V : is_valid_account_id p = true) by (unfold WM.is_whitelisted in L; inv_res; auto).
  destruct (WP.answers_follow_history fnd s0 calls N0) as [A _].
  rewrite (A p V) in L. injection L as L. apply listed_added in L. destruct L as (ev & I & C).
  apply in_rev in I. destruct (string_dec (WS.e_who ev) self) as [W|W]; [|eauto].
  left. destruct (FC _ I W) as (a & C' & X). rewrite C in C'. injection C' as <-.
  assert (Y : In (wl, p) (map (pair wl) (created_pools (log self w evs)))).
  { eapply Permutation_in; [symmetry; eapply whitelist_only_created; eauto|]. apply in_or_app. auto. }
  apply in_map_iff in Y. destruct Y as (q & E & Y). congruence.
Qed.

Lemma created_gets_listed self wl w evs fnd s0 calls p : starts wl w -> WM.new false fnd = Ok s0 ->
  is_valid_account_id self = true -> In p (created_pools (log self w evs)) ->
  WM.is_factory_whitelisted (WS.final s0 calls) self = Ok true ->
  WS.accepted (WS.final s0 calls) (WS.mkEvent self 0 (WM.AddStakingPool p)) = true /\
  WM.is_whitelisted (WS.final s0 (calls ++ [WS.mkEvent self 0 (WM.AddStakingPool p)])) p = Ok true.
Proof.
  intros ST N0 VS I F.
  assert (V : is_valid_account_id p = true).
  { unfold created_pools in I. apply in_flat_map in I. destruct I as (o & I & J).
    destruct o as [| |who a x q| | |]; cbn in J; try contradiction. destruct J as [->|[]].
    destruct (created_as_asked _ _ _ _ _ _ _ _ ST I) as (n & o & k & f & e & _ & (_ & _ & _ & X) & _). exact X. }
  destruct (WP.answers_follow_history fnd s0 calls N0) as [_ B].
  rewrite (B self VS) in F. injection F as F.
  split.
  - rewrite (WP.accepted_iff_authorised fnd s0 calls _ N0). unfold WS.authorised, WS.in_order.
    cbn [WS.e_attached WS.e_call WS.e_who]. rewrite V, F. cbn [N.eqb andb]. apply orb_true_r.
  - destruct (WP.answers_follow_history fnd s0 (calls ++ [WS.mkEvent self 0 (WM.AddStakingPool p)]) N0) as [A _].
    rewrite (A p V), rev_app_distr. cbn [rev app WS.pool_listed]. unfold WS.in_order.
    cbn [WS.e_attached WS.e_call WS.e_who]. rewrite V, String.eqb_refl, F, orb_true_r. reflexivity.
Qed.

(** * C74, C86 *)
Lemma factory_created ex wl :
  (is_ok (new ex wl) = true <-> ex = false /\ is_valid_account_id wl = true) /\
  forall s0, new ex wl = Ok s0 ->
    staking_pool_whitelist_account_id s0 = wl /\ get_number_of_staking_pools_created s0 = 0 /\
    get_min_attached_balance = 30 * 10 ^ 24 /\
    forall b accounts, starts wl (mkWorld s0 b accounts []).
Proof.
  unfold new, require. destruct ex, (is_valid_account_id wl) eqn:V; cbn [negb bind is_ok];
    (split; [split; [intros H|intros [? ?]]; auto; discriminate|]); intros s0 E; inversion E.
  split; [reflexivity|]. split; [reflexivity|]. split; [reflexivity|]. intros b acc.
  split; [|reflexivity]. unfold new, require. now rewrite V.
Qed.
Lemma callback_private self who attached results s a deposit caller :
  is_ok (exec (mkCtx self who attached results) s (OnStakingPoolCreate a deposit caller)) = true <->
  who = self /\ attached = 0 /\ exists created, results = [created].
Proof.
  cbn [exec ctx_attached]. unfold on_staking_pool_create, is_promise_success, require.
  cbn [ctx_predecessor ctx_current ctx_results].
  destruct (N.eqb_spec attached 0); cbn [bind]; [|split; [discriminate|tauto]].
  destruct (String.eqb_spec who self); cbn [bind]; [|split; [discriminate|tauto]].
  destruct results as [|b [|]]; cbn [bind]; try (split; [discriminate|intros (_ & _ & ? & ?); discriminate]).
  split; [|now destruct b]. intros _. eauto.
Qed.
