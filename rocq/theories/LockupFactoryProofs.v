(** Proofs about the lockup factory. *)
From Coq Require Import NArith List Bool String Ascii Permutation.
From Verif Require Import Prelude PreludeFacts MapFacts Messages LockupFactoryModel LockupFactorySpec.
From Verif Require LockupModel LockupWorld.
Import ListNotations.
Open Scope string_scope.
Open Scope N_scope.

Definition pair_dec : forall x y : string * N, {x = y} + {x <> y}.
Proof. decide equality; [apply N.eq_dec | apply string_dec]. Defined.
Ltac pc dec := unfold account_id in *; perm_count dec.

(** * Names *)
Lemma hex_kind c : char_kind (hex_digit (N_of_ascii c / 16)) = Some false /\
  char_kind (hex_digit (N_of_ascii c mod 16)) = Some false.
Proof. destruct c as [[] [] [] [] [] [] [] []]; vm_compute; auto. Qed.
Lemma hex_no_dot c : Ascii.eqb (hex_digit (N_of_ascii c / 16)) "." = false /\
  Ascii.eqb (hex_digit (N_of_ascii c mod 16)) "." = false.
Proof. destruct c as [[] [] [] [] [] [] [] []]; vm_compute; auto. Qed.
Definition unhex (c : ascii) : N := let n := N_of_ascii c in if n <? 58 then n - 48 else n - 87.
Lemma unhex_hex c : unhex (hex_digit (N_of_ascii c / 16)) = N_of_ascii c / 16 /\
  unhex (hex_digit (N_of_ascii c mod 16)) = N_of_ascii c mod 16.
Proof. destruct c as [[] [] [] [] [] [] [] []]; vm_compute; auto. Qed.

Lemma hex_valid : forall s t, valid_chars false (hex_encode s ++ t) = valid_chars false t.
Proof.
  induction s as [|c s IH]; intros t; cbn [hex_encode append valid_chars]; auto.
  destruct (hex_kind c) as [-> ->]. cbn [andb]. apply IH.
Qed.
Lemma hex_valid_first s t : s <> "" -> valid_chars true (hex_encode s ++ t) = valid_chars false t.
Proof.
  destruct s as [|c s]; [congruence|]. intros _. cbn [hex_encode append valid_chars].
  destruct (hex_kind c) as [-> ->]. cbn [andb]. apply hex_valid.
Qed.
Lemma hex_has_no_dot s : has_dot (hex_encode s) = false.
Proof.
  induction s as [|c s IH]; cbn [hex_encode has_dot]; auto.
  destruct (hex_no_dot c) as [-> ->]. exact IH.
Qed.
Lemma hex_inj : forall s t, hex_encode s = hex_encode t -> s = t.
Proof.
  induction s as [|c s IH]; intros [|d t] E; cbn [hex_encode] in E; auto; try discriminate.
  injection E as A B C. f_equal; [|auto].
  rewrite <- (ascii_N_embedding c), <- (ascii_N_embedding d). f_equal.
  apply (f_equal unhex) in A. apply (f_equal unhex) in B.
  destruct (unhex_hex c) as [C1 C2], (unhex_hex d) as [D1 D2]. rewrite C1, D1 in A. rewrite C2, D2 in B.
  rewrite (N.div_mod (N_of_ascii c) 16), (N.div_mod (N_of_ascii d) 16) by lia. congruence.
Qed.
Lemma append_length a c : String.length (a ++ c) = (String.length a + String.length c)%nat.
Proof. induction a as [|x a IH]; cbn; auto. Qed.
Lemma slen_append a c : slen (a ++ c) = slen a + slen c.
Proof. unfold slen. rewrite append_length. lia. Qed.
Lemma hex_length s : String.length (hex_encode s) = (2 * String.length s)%nat.
Proof. induction s as [|c s IH]; cbn [hex_encode String.length]; auto. lia. Qed.
Lemma substring_length : forall n s, (n <= String.length s)%nat -> String.length (substring 0 n s) = n.
Proof.
  induction n as [|n IH]; intros [|c s] LE; cbn [substring String.length] in *; auto; try lia.
  f_equal. apply IH. lia.
Qed.
Lemma append_inj_l : forall a b c, a ++ c = b ++ c -> a = b.
Proof.
  induction a as [|x a IH]; intros [|y b] c E; auto.
  - apply (f_equal String.length) in E. cbn in E. rewrite append_length in E. lia.
  - apply (f_equal String.length) in E. cbn in E. rewrite append_length in E. lia.
  - cbn in E. injection E as -> E. f_equal. eauto.
Qed.

Lemma fingerprint_length g owner : slen (g_sha256 g owner) = 32 -> String.length (fingerprint g owner) = 20%nat.
Proof. intros L. apply substring_length. unfold slen in L. lia. Qed.

Lemma lockup_name_ok g wl fnd w owner : starts g wl fnd w ->
  slen (lockup_name g owner) <= 64 /\
  direct_subaccount (g_self g) (hex_encode (fingerprint g owner)) (lockup_name g owner).
Proof.
  intros [N0 _ V L]. unfold new in N0. inv_res.
  pose proof (fingerprint_length g owner (L owner)) as FL.
  assert (LEN : slen (lockup_name g owner) <= 64).
  { unfold lockup_name. rewrite !slen_append. unfold slen at 1. rewrite hex_length, FL.
    change (slen ".") with 1. lia. }
  split; auto. unfold direct_subaccount. split; [reflexivity|]. split; [|split; [apply hex_has_no_dot|]].
  - intros Q. apply (f_equal String.length) in Q. rewrite hex_length, FL in Q. discriminate.
  - unfold is_valid_account_id. replace (slen (lockup_name g owner) <=? 64) with true by lia.
    replace (2 <=? slen (lockup_name g owner)) with true.
    2:{ unfold lockup_name. rewrite slen_append. unfold slen at 1. rewrite hex_length, FL. lia. }
    cbn [andb]. unfold lockup_name. rewrite hex_valid_first.
    + cbn [append valid_chars]. change (char_kind ".") with (Some true). cbn [andb].
      unfold is_valid_account_id in V. rewrite !andb_true_iff in V. tauto.
    + intros Q. rewrite Q in FL. discriminate.
Qed.

Lemma same_name_iff g o1 o2 : lockup_name g o1 = lockup_name g o2 <-> fingerprint g o1 = fingerprint g o2.
Proof.
  unfold lockup_name. split; [|now intros ->]. intros E. apply append_inj_l in E. now apply hex_inj.
Qed.

(** * What a call does *)
Definition the_args (s : factory) (owner : account_id) (duration : N) (timestamp : option N)
    (vesting : option LM.schedule_or_hash) (release : option N) (whitelist : option account_id) : lockup_args :=
  mkArgs owner duration timestamp (LM.TransfersEnabled TRANSFERS_STARTED) vesting release
    match whitelist with Some a => a | None => whitelist_account_id s end
    match vesting with Some _ => Some (foundation_account_id s) | None => None end.

Definition may_create (attached : N) (owner : account_id) (whitelist : option account_id) : Prop :=
  MIN_ATTACHED_BALANCE <= attached /\ is_valid_account_id owner = true /\
  match whitelist with Some a => is_valid_account_id a = true | None => True end.

Lemma exec_create_ok g s who attached results owner duration timestamp vesting release whitelist s' ps :
  exec (mkCtx (g_self g) who attached results (g_sha256 g)) s
       (Create owner duration timestamp vesting release whitelist) = Ok (s', ps) ->
  may_create attached owner whitelist /\ s' = s /\
  ps = [PCreate (lockup_name g owner) attached (the_args s owner duration timestamp vesting release whitelist)
          (OnLockupCreate (lockup_name g owner) attached who)].
Proof.
  unfold exec, create, lockup_account_id. cbn [ctx_attached ctx_current ctx_predecessor ctx_sha256]. cbv zeta.
  intros H. inv_res. unfold may_create.
  repeat match goal with E : _ && _ = true |- _ => apply andb_true_iff in E; destruct E end.
  repeat split; auto; try lia. destruct whitelist; auto.
Qed.
Lemma exec_create_accepts g s who attached results owner duration timestamp vesting release whitelist :
  (forall x, slen (g_sha256 g x) = 32) -> may_create attached owner whitelist ->
  exec (mkCtx (g_self g) who attached results (g_sha256 g)) s
       (Create owner duration timestamp vesting release whitelist) =
  Ok (s, [PCreate (lockup_name g owner) attached (the_args s owner duration timestamp vesting release whitelist)
          (OnLockupCreate (lockup_name g owner) attached who)]).
Proof.
  intros L (A & B & C). unfold exec, create, lockup_account_id.
  cbn [ctx_attached ctx_current ctx_predecessor ctx_sha256]. cbv zeta. rewrite B, L.
  replace (MIN_ATTACHED_BALANCE <=? attached) with true by lia.
  destruct whitelist; [rewrite C|]; reflexivity.
Qed.
Lemma exec_callback_stranger g s who attached a x u :
  forall r, exec (mkCtx (g_self g) who attached [] (g_sha256 g)) s (OnLockupCreate a x u) <> Ok r.
Proof.
  intros r. unfold exec, on_lockup_create, is_promise_success. cbn [ctx_results]. intros H. inv_res.
Qed.
Lemma exec_callback g s a x u ok :
  exec (mkCtx (g_self g) (g_self g) 0 [ok] (g_sha256 g)) s (OnLockupCreate a x u) =
  Ok (s, if ok : bool then [] else [PTransfer u x]).
Proof.
  unfold exec, on_lockup_create. cbn [ctx_attached ctx_predecessor ctx_current].
  rewrite String.eqb_refl. reflexivity.
Qed.

Lemma NoDup_snoc {A} (l : list A) x : NoDup l -> ~ In x l -> NoDup (l ++ [x])%list.
Proof.
  intros ND F. eapply Permutation_NoDup; [apply Permutation_cons_append|]. now constructor.
Qed.

(** * The invariant *)
Definition asked (g : genesis) (s : factory) (evs : list event) (who : account_id) (a : account_id) (x : N)
    (args : lockup_args) : Prop :=
  exists owner duration timestamp vesting release whitelist,
    In (ECall who x (Create owner duration timestamp vesting release whitelist)) evs /\
    may_create x owner whitelist /\ a = lockup_name g owner /\
    args = the_args s owner duration timestamp vesting release whitelist.
Lemma asked_mono g s evs ev who a x args : asked g s evs who a x args -> asked g s (evs ++ [ev]) who a x args.
Proof.
  intros (o & d & t & v & r & wl & I & R). exists o, d, t, v, r, wl. split; auto. apply in_or_app. auto.
Qed.

Definition msg_ok (g : genesis) (s : factory) (evs : list event) (m : msg) : Prop :=
  match m with
  | MCreate a x args cb => exists u, cb = OnLockupCreate a x u /\ asked g s evs u a x args
  | MBack cb _ => exists a x u, cb = OnLockupCreate a x u
  end.
Definition made (g : genesis) (s : factory) (evs : list event) (o : obs) : Prop :=
  match o with
  | BCreated who a x time p => exists args, asked g s evs who a x args /\ new_lockup g a x args time = Ok p
  | _ => True
  end.
Lemma msg_ok_mono g s evs ev m : msg_ok g s evs m -> msg_ok g s (evs ++ [ev]) m.
Proof. destruct m as [? ? ? ?|]; cbn; auto. intros (u & E & A). eauto using asked_mono. Qed.
Lemma made_mono g s evs ev o : made g s evs o -> made g s (evs ++ [ev]) o.
Proof. destruct o; cbn; auto. intros (args & A & R). eauto using asked_mono. Qed.

Record inv (g : genesis) (s : factory) (b0 : N) (evs : list event) (l : list obs) (w : world) : Prop := mkInv {
  i_factory : w_factory w = s;
  i_msgs : Forall (msg_ok g s evs) (w_msgs w);
  i_made : Forall (made g s evs) l;
  i_balance : w_balance w = b0 + incomes evs + to_refund w;
  i_money : Permutation (accepted l) (created l ++ refunded l ++ pending w);
  i_exist : forall a, In a (created_lockups l) -> In a (w_accounts w);
  i_nodup : NoDup (created_lockups l);
  i_stuck : stuck l = []
}.

Lemma incomes_snoc evs ev :
  incomes (evs ++ [ev]) = incomes evs + match ev with EIncome x => x | _ => 0 end.
Proof.
  induction evs as [|e evs IH]; cbn [app incomes fold_right]; [destruct ev; lia|].
  fold (incomes (evs ++ [ev])). fold (incomes evs). rewrite IH. destruct e; lia.
Qed.

Definition pend1 (m : msg) : list (account_id * N) :=
  match m with
  | MCreate _ x _ (OnLockupCreate _ _ who) => [(who, x)]
  | MBack (OnLockupCreate _ x who) false => [(who, x)]
  | _ => []
  end.
Definition ref1 (m : msg) : N := match m with MBack (OnLockupCreate _ y _) false => y | _ => 0 end.
Definition refs (l : list msg) : N := fold_right (fun m x => ref1 m + x) 0 l.
Lemma to_refund_eq w : to_refund w = refs (w_msgs w).
Proof.
  unfold to_refund, refs. induction (w_msgs w) as [|m l IH]; cbn [fold_right]; auto.
  rewrite IH. destruct m as [|[] []]; reflexivity.
Qed.
Lemma refs_app l l' : refs (l ++ l') = refs l + refs l'.
Proof. unfold refs. induction l as [|m l IH]; cbn [app fold_right]; auto. rewrite IH. lia. Qed.
Lemma refs_perm l l' : Permutation l l' -> refs l = refs l'.
Proof. unfold refs. induction 1; cbn [fold_right]; lia. Qed.
Lemma pending_eq w : pending w = flat_map pend1 (w_msgs w).
Proof. reflexivity. Qed.
#[local] Opaque pending to_refund.

Ltac logs :=
  unfold accepted, created, refunded, created_lockups, stuck in *;
  rewrite ?flat_map_app in *; cbn [flat_map app] in *; rewrite ?app_nil_r in *.
Ltac flight := rewrite ?pending_eq, ?to_refund_eq in *; cbn [w_msgs] in *;
  rewrite ?flat_map_app, ?refs_app in *;
  cbn [flat_map pend1 refs fold_right ref1 app] in *; rewrite ?app_nil_r in *.

Lemma take w n m : nth_error (w_msgs w) n = Some m ->
  Permutation (pending w) (pend1 m ++ flat_map pend1 (drop_nth n (w_msgs w))) /\
  to_refund w = ref1 m + refs (drop_nth n (w_msgs w)).
Proof.
  intros E. apply drop_nth_perm in E. flight. split.
  - change (pend1 m ++ flat_map pend1 (drop_nth n (w_msgs w)))%list
      with (flat_map pend1 (m :: drop_nth n (w_msgs w))). now apply Permutation_flat_map.
  - now rewrite (refs_perm _ _ E).
Qed.

Lemma nth_msg_ok g s evs w n m : Forall (msg_ok g s evs) (w_msgs w) -> nth_error (w_msgs w) n = Some m ->
  msg_ok g s evs m /\ Forall (msg_ok g s evs) (drop_nth n (w_msgs w)).
Proof. intros F E. apply drop_nth_perm in E. rewrite E in F. inversion F; subst. auto. Qed.

Ltac nothing := constructor; cbn [fst snd]; auto; try (rewrite incomes_snoc; lia); logs; auto;
  try (apply Forall_app; split; auto; repeat constructor).

Lemma inv_step g s b0 evs l w ev : inv g s b0 evs l w ->
  inv g s b0 (evs ++ [ev]) (l ++ snd (step_obs g w ev)) (step g w ev).
Proof.
  intros [FA M0 MA0 B C X ND S]. unfold step.
  assert (M : Forall (msg_ok g s (evs ++ [ev])) (w_msgs w)) by (eapply Forall_impl; [|exact M0]; intros; now apply msg_ok_mono).
  assert (MA : Forall (made g s (evs ++ [ev])) l) by (eapply Forall_impl; [|exact MA0]; intros; now apply made_mono).
  clear M0 MA0.
  destruct ev as [who attached m|n gas time|n|x|a]; cbn [step_obs].
  - (* a call *)
    unfold run. destruct m as [owner duration timestamp vesting release whitelist|a x u].
    + destruct (exec _ _ _) as [[s' ps]|e] eqn:E; [|nothing].
      apply exec_create_ok in E. destruct E as (E & -> & ->).
      cbn [total_tokens fold_right tokens_of]. rewrite N.add_0_r.
      replace (attached <=? w_balance w + attached) with true by lia.
      cbn [fst snd obs_of map msgs_of flat_map app].
      constructor; cbn [w_msgs w_factory w_balance w_accounts]; auto.
      * apply Forall_app. split; auto. constructor; auto. cbn [msg_ok]. exists who. split; auto.
        exists owner, duration, timestamp, vesting, release, whitelist.
        split; [apply in_or_app; right; left; reflexivity|]. rewrite FA. auto.
      * apply Forall_app. split; auto. repeat constructor.
      * rewrite incomes_snoc. flight. lia.
      * logs. flight. pc pair_dec.
      * logs. auto.
      * logs. auto.
      * logs. auto.
    + destruct (exec _ _ _) as [r|e] eqn:E; [exfalso; eapply exec_callback_stranger; eauto|]. nothing.
  - (* a creation is executed *)
    destruct (nth_error (w_msgs w) n) as [[a x args cb|cb ok]|] eqn:E; [|nothing|nothing].
    destruct (nth_msg_ok _ _ _ _ _ _ M E) as [OK F]. destruct (take _ _ _ E) as (T1 & T2).
    cbn [msg_ok] in OK. destruct OK as (u & -> & ASK).
    destruct (create_lockup g w a x args gas time) as [p|] eqn:CL; cbn [fst snd payer].
    + unfold create_lockup in CL. destruct (smem a (w_accounts w)) eqn:FR; [discriminate|].
      destruct gas; [|discriminate]. cbn [orb negb] in CL.
      destruct (new_lockup _ _ _ _ _) as [q|] eqn:NL; [|discriminate]. injection CL as ->.
      constructor; cbn [w_msgs w_factory w_balance w_accounts]; auto.
      * apply Forall_app. split; auto. constructor; auto. cbn. eauto.
      * apply Forall_app. split; auto. constructor; auto. cbn [made]. eauto.
      * rewrite incomes_snoc. flight. lia.
      * logs. flight. pc pair_dec.
      * intros b IB. apply sinsert_in. logs. apply in_app_or in IB. destruct IB as [IB|[->|[]]]; auto.
      * logs. apply NoDup_snoc; auto. intros IB. apply X in IB. apply smem_in in IB. congruence.
      * logs. auto.
    + constructor; cbn [w_msgs w_factory w_balance w_accounts]; auto.
      * apply Forall_app. split; auto. constructor; auto. cbn. eauto.
      * rewrite app_nil_r. auto.
      * rewrite incomes_snoc. flight. lia.
      * logs. flight. pc pair_dec.
      * logs. auto.
      * logs. auto.
      * logs. auto.
  - (* a callback *)
    destruct (nth_error (w_msgs w) n) as [[a x args cb|cb ok]|] eqn:E; [nothing| |nothing].
    destruct (nth_msg_ok _ _ _ _ _ _ M E) as [OK F]. destruct (take _ _ _ E) as (T1 & T2).
    cbn [msg_ok] in OK. destruct OK as (a & x & u & ->).
    unfold run. cbn [w_factory w_balance w_accounts w_msgs]. rewrite exec_callback.
    destruct ok; cbn [total_tokens fold_right tokens_of fst snd msgs_of flat_map obs_of map app ref1] in *.
    + replace (0 <=? w_balance w + 0) with true by lia. cbn [fst snd].
      constructor; cbn [w_msgs w_factory w_balance w_accounts]; rewrite ?app_nil_r; auto.
      * rewrite incomes_snoc. flight. lia.
      * logs. flight. pc pair_dec.
    + replace (x + 0 <=? w_balance w + 0) with true by lia. cbn [fst snd].
      constructor; cbn [w_msgs w_factory w_balance w_accounts]; rewrite ?app_nil_r; auto.
      * apply Forall_app. split; auto. repeat constructor.
      * rewrite incomes_snoc. flight. lia.
      * logs. flight. pc pair_dec.
      * logs. auto.
      * logs. auto.
      * logs. auto.
  - constructor; cbn [fst snd w_msgs w_factory w_balance w_accounts]; rewrite ?app_nil_r; auto.
    rewrite incomes_snoc. flight. lia.
  - constructor; cbn [fst snd w_msgs w_factory w_balance w_accounts]; rewrite ?app_nil_r; auto.
    + rewrite incomes_snoc. flight. lia.
    + intros b IB. apply sinsert_in. auto.
Qed.

Lemma final_app g w evs evs' : final g w (evs ++ evs') = final g (final g w evs) evs'.
Proof. revert w. induction evs as [|e evs IH]; intros w; cbn; auto. Qed.
Lemma log_app g w evs evs' : log g w (evs ++ evs') = (log g w evs ++ log g (final g w evs) evs')%list.
Proof. revert w. induction evs as [|e evs IH]; intros w; cbn; auto. now rewrite IH, app_assoc. Qed.

Lemma inv_starts g wl fnd w : starts g wl fnd w -> inv g (mkFactory wl fnd) (w_balance w) [] [] w.
Proof.
  intros [N0 E _ _]. unfold new in N0. destruct w as [f b ac ms]. cbn [w_factory w_msgs w_balance] in *. inv_res.
  constructor; cbn; flight; auto; try reflexivity; try constructor; try lia; try contradiction.
Qed.

Lemma inv_history g wl fnd w evs : starts g wl fnd w ->
  inv g (mkFactory wl fnd) (w_balance w) evs (log g w evs) (final g w evs).
Proof.
  intros ST. induction evs as [|ev evs IH] using rev_ind; [now apply inv_starts|].
  rewrite final_app, log_app. cbn [final log]. rewrite app_nil_r. now apply inv_step.
Qed.

(** * Liveness: what is in flight can always be brought to its end *)
Definition work (l : list msg) : nat :=
  fold_right (fun m n => (match m with MCreate _ _ _ _ => 2 | MBack _ _ => 1 end + n)%nat) 0%nat l.
Lemma work_app l l' : work (l ++ l') = (work l + work l')%nat.
Proof. unfold work. induction l as [|m l IH]; cbn [app fold_right]; auto. rewrite IH. lia. Qed.

Lemma drain g s b0 : forall k evs l w, inv g s b0 evs l w -> (work (w_msgs w) <= k)%nat ->
  exists more, w_msgs (final g w more) = [].
Proof.
  induction k as [|k IH]; intros evs l w I LE.
  - exists []. cbn [final]. destruct (w_msgs w) as [|[] ?]; auto; cbn in LE; lia.
  - destruct (w_msgs w) as [|m ms] eqn:E; [exists []; auto|].
    assert (exists ev, (work (w_msgs (step g w ev)) <= k)%nat) as [ev W].
    { destruct m as [a x args cb|cb ok].
      - exists (ECreate 0 false 0). unfold step. cbn [step_obs]. rewrite E. cbn [nth_error].
        unfold create_lockup. rewrite orb_true_r. cbn [fst w_msgs drop_nth]. rewrite work_app.
        cbn [work fold_right] in *. fold (work ms) in *. lia.
      - exists (ERun 0). unfold step. cbn [step_obs]. rewrite E. cbn [nth_error drop_nth].
        pose proof (i_msgs _ _ _ _ _ _ I) as M0.
        rewrite E in M0. inversion M0 as [|? ? OK _]; subst. cbn [msg_ok] in OK.
        destruct OK as (a & x & u & ->). unfold run. cbn [w_factory w_balance w_msgs w_accounts].
        rewrite exec_callback.
        destruct ok; destruct (_ <=? _); cbn [fst w_msgs msgs_of flat_map app]; rewrite ?app_nil_r;
          cbn [work fold_right] in *; fold (work ms) in *; lia. }
    destruct (IH _ _ _ (inv_step _ _ _ _ _ _ ev I) W) as [more D].
    exists (ev :: more). exact D.
Qed.

(** * The properties *)
Lemma deposits_accounted g wl fnd w evs : starts g wl fnd w ->
  Permutation (accepted (log g w evs))
    (created (log g w evs) ++ refunded (log g w evs) ++ pending (final g w evs)).
Proof. intros ST. exact (i_money _ _ _ _ _ _ (inv_history g wl fnd w evs ST)). Qed.

Lemma callbacks_never_fail g wl fnd w evs : starts g wl fnd w -> stuck (log g w evs) = [].
Proof. intros ST. exact (i_stuck _ _ _ _ _ _ (inv_history g wl fnd w evs ST)). Qed.

Lemma can_always_finish g wl fnd w evs : starts g wl fnd w ->
  exists more, w_msgs (final g w (evs ++ more)) = [] /\
    Permutation (accepted (log g w (evs ++ more)))
      (created (log g w (evs ++ more)) ++ refunded (log g w (evs ++ more))).
Proof.
  intros ST. destruct (drain g _ _ _ _ _ _ (inv_history g wl fnd w evs ST) (le_n _)) as [more D].
  exists more. rewrite <- final_app in D. split; auto.
  pose proof (deposits_accounted g wl fnd w (evs ++ more) ST) as P.
  rewrite pending_eq, D in P. cbn [flat_map] in P. now rewrite app_nil_r in P.
Qed.

Lemma factory_keeps_nothing g wl fnd w evs : starts g wl fnd w ->
  w_balance (final g w evs) = w_balance w + incomes evs + to_refund (final g w evs).
Proof. intros ST. exact (i_balance _ _ _ _ _ _ (inv_history g wl fnd w evs ST)). Qed.

Lemma one_lockup_per_account g wl fnd w evs : starts g wl fnd w -> NoDup (created_lockups (log g w evs)).
Proof. intros ST. exact (i_nodup _ _ _ _ _ _ (inv_history g wl fnd w evs ST)). Qed.

Lemma create_accepted_iff g wl fnd w evs who attached owner duration timestamp vesting release whitelist :
  starts g wl fnd w ->
  accepts g (final g w evs) who attached (Create owner duration timestamp vesting release whitelist) = true <->
  MIN_ATTACHED_BALANCE <= attached /\ is_valid_account_id owner = true /\
  match whitelist with Some a => is_valid_account_id a = true | None => True end.
Proof.
  intros ST. unfold accepts, run. split.
  - destruct (exec _ _ _) as [[s ps]|e] eqn:E; [|discriminate]. intros _. now apply exec_create_ok in E.
  - intros M. rewrite exec_create_accepts; auto; [|exact (st_sha256 _ _ _ _ ST)].
    cbn [total_tokens fold_right tokens_of]. now replace (attached + 0 <=? _) with true by lia.
Qed.

Lemma created_as_asked g wl fnd w evs who a x time p : starts g wl fnd w ->
  In (BCreated who a x time p) (log g w evs) ->
  exists owner duration timestamp vesting release whitelist,
    In (ECall who x (Create owner duration timestamp vesting release whitelist)) evs /\
    a = lockup_name g owner /\ MIN_ATTACHED_BALANCE <= x /\
    p = LM.mkContract owner
          (LM.mkLockup x 0 duration release timestamp (LM.TransfersEnabled TRANSFERS_STARTED))
          match vesting with
          | None => LM.VNone | Some (LM.ArgHash h) => LM.VHash h | Some (LM.ArgSchedule vs) => LM.VSchedule vs
          end
          match whitelist with Some b => b | None => wl end None
          match vesting with Some _ => Some fnd | None => None end.
Proof.
  intros ST IN. pose proof (i_made _ _ _ _ _ _ (inv_history g wl fnd w evs ST)) as M.
  rewrite Forall_forall in M. specialize (M _ IN). cbn [made] in M.
  destruct M as (args & (o & d & t & v & r & wh & I & (M1 & M2 & M3) & -> & ->) & NL).
  exists o, d, t, v, r, wh. repeat (split; auto).
  unfold new_lockup, LM.new, the_args in NL.
  cbn [a_owner_account_id a_lockup_duration a_lockup_timestamp a_transfers_information a_vesting_schedule
       a_release_duration a_staking_pool_whitelist_account_id a_foundation_account_id LM.ctx_attached
       LM.ctx_balance whitelist_account_id foundation_account_id] in NL.
  destruct v as [[h|vs]|]; inv_res; reflexivity.
Qed.

(** The arguments pass every check of the lockup's [new]. *)
Lemma new_lockup_ok g wl fnd w a x args time owner duration timestamp vesting release whitelist :
  starts g wl fnd w -> may_create x owner whitelist ->
  args = the_args (mkFactory wl fnd) owner duration timestamp vesting release whitelist ->
  exists p, new_lockup g a x args time = Ok p.
Proof.
  intros [N0 _ _ _] (M1 & M2 & M3) ->. unfold new in N0. inv_res.
  repeat match goal with E : _ && _ = true |- _ => apply andb_true_iff in E; destruct E end.
  unfold new_lockup, LM.new, the_args.
  cbn [a_owner_account_id a_lockup_duration a_lockup_timestamp a_transfers_information a_vesting_schedule
       a_release_duration a_staking_pool_whitelist_account_id a_foundation_account_id LM.ctx_attached
       LM.ctx_balance whitelist_account_id foundation_account_id].
  assert (W : is_valid_account_id match whitelist with Some b => b | None => wl end = true)
    by (destruct whitelist; auto).
  assert (F : is_valid_account_id fnd = true) by auto.
  rewrite M2, W.
  destruct vesting as [[h|vs]|]; cbn [N.eqb negb require bind expect]; rewrite ?F; cbn [require bind]; eauto.
Qed.

Lemma creation_succeeds g wl fnd w evs n a x args cb time : starts g wl fnd w ->
  nth_error (w_msgs (final g w evs)) n = Some (MCreate a x args cb) ->
  smem a (w_accounts (final g w evs)) = false ->
  exists p, In (BCreated (payer cb) a x time p) (log g w (evs ++ [ECreate n true time])).
Proof.
  intros ST E F. pose proof (inv_history g wl fnd w evs ST) as I.
  destruct (nth_msg_ok _ _ _ _ _ _ (i_msgs _ _ _ _ _ _ I) E) as [OK _].
  cbn [msg_ok] in OK. destruct OK as (u & -> & (o & d & t & v & r & wh & _ & M & _ & A)).
  destruct (new_lockup_ok g wl fnd w a x args time _ _ _ _ _ _ ST M A) as [p NL].
  exists p. rewrite log_app. apply in_or_app. right. cbn [log step_obs]. rewrite E.
  unfold create_lockup. rewrite F, NL. cbn. auto.
Qed.

(** A created lockup is in one of the initial states the lockup properties start from. *)
Lemma created_starts g wl fnd w evs who a x time p pools : starts g wl fnd w ->
  (forall ev, In ev evs -> match ev with ECall _ y m => y < U128_BOUND /\ call_in_range m | _ => True end) ->
  In (BCreated who a x time p) (log g w evs) -> time < U64_BOUND ->
  (forall q, fst (pools q) + snd (pools q) < U128_BOUND) ->
  LockupWorld.starts (LockupWorld.mkGenesis a (g_hash g)) (LockupWorld.mkWorld p x time pools []).
Proof.
  intros ST R IN T P. pose proof (i_made _ _ _ _ _ _ (inv_history g wl fnd w evs ST)) as M.
  rewrite Forall_forall in M. specialize (M _ IN). cbn [made] in M.
  destruct M as (args & (o & d & t & v & r & wh & I & M & _ & ->) & NL).
  specialize (R _ I). cbn [call_in_range] in R. destruct R as (RX & R1 & R2 & R3 & R4).
  constructor; cbn [LockupWorld.w_lockup LockupWorld.w_balance LockupWorld.w_time LockupWorld.w_pools
                    LockupWorld.w_msgs LockupWorld.g_self LockupWorld.g_hash]; auto.
  unfold new_lockup in NL. do 9 eexists. split; [exact NL|].
  unfold the_args. cbn [a_lockup_duration a_lockup_timestamp a_transfers_information a_vesting_schedule a_release_duration].
  repeat (split; auto).
Qed.

Lemma accepted_name g wl fnd w evs who a x : starts g wl fnd w ->
  In (BAccepted who a x) (log g w evs) ->
  exists owner duration timestamp vesting release whitelist,
    In (ECall who x (Create owner duration timestamp vesting release whitelist)) evs /\ a = lockup_name g owner.
Proof.
  intros ST. induction evs as [|ev evs IH] using rev_ind; [contradiction|].
  pose proof (inv_history g wl fnd w evs ST) as I.
  rewrite log_app. cbn [log]. rewrite app_nil_r. intros H. apply in_app_or in H. destruct H as [H|H].
  - destruct (IH H) as (o & d & t & v & r & wh & J & E). exists o, d, t, v, r, wh. split; auto. apply in_or_app. auto.
  - destruct ev as [u y m|n gas time|n|y|b]; cbn [step_obs] in H.
    + unfold run in H. destruct (exec _ _ _) as [[s ps]|e] eqn:E; [|cbn in H; intuition discriminate].
      destruct m as [o d t v r wh|b z z']; [|exfalso; eapply exec_callback_stranger; eauto].
      apply exec_create_ok in E. destruct E as (_ & -> & ->).
      destruct (_ <=? _); cbn [snd obs_of map] in H; destruct H as [H|[]]; [|discriminate]. injection H as -> <- ->.
      exists o, d, t, v, r, wh. split; auto. apply in_or_app. right. now left.
    + destruct (nth_error _ _) as [[b z args cb|cb ok]|]; try contradiction.
      destruct (create_lockup _ _ _ _ _ _ _); cbn in H; intuition discriminate.
    + destruct (nth_error _ _) as [[b z args cb|cb ok]|] eqn:E; try contradiction.
      destruct (nth_msg_ok _ _ _ _ _ _ (i_msgs _ _ _ _ _ _ I) E) as [OK _]. cbn [msg_ok] in OK.
      destruct OK as (b & z & z' & ->). unfold run in H. cbn [w_factory] in H. rewrite exec_callback in H.
      destruct ok; destruct (_ <=? _); cbn in H; intuition discriminate.
    + contradiction.
    + contradiction.
Qed.

(** * C74, C86 *)
Lemma factory_created self ex wl fnd :
  (is_ok (new self ex wl fnd) = true <->
     ex = false /\ is_valid_account_id wl = true /\ is_valid_account_id fnd = true /\ slen self <= 23) /\
  forall s0, new self ex wl fnd = Ok s0 ->
    get_foundation_account_id s0 = fnd /\ whitelist_account_id s0 = wl /\
    get_min_attached_balance = 35 * 10 ^ 23 /\
    (forall c, ctx_current c = self -> get_lockup_master_account_id c = self).
Proof.
  unfold new, require. destruct ex, (is_valid_account_id wl) eqn:V1, (is_valid_account_id fnd) eqn:V2, (N.leb_spec (slen self) 23);
    cbn [negb bind andb is_ok];
    (split; [split; [intros K|intros (? & ? & ? & ?)]; auto; try discriminate; lia|]); intros s0 E; inversion E; auto.
Qed.
Lemma callback_private self who attached results sha s a deposit caller :
  is_ok (exec (mkCtx self who attached results sha) s (OnLockupCreate a deposit caller)) = true <->
  who = self /\ attached = 0 /\ exists created, results = [created].
Proof.
  cbn [exec ctx_attached]. unfold on_lockup_create, is_promise_success, require.
  cbn [ctx_predecessor ctx_current ctx_results].
  destruct (N.eqb_spec attached 0); cbn [bind]; [|split; [discriminate|tauto]].
  destruct (String.eqb_spec who self); cbn [bind]; [|split; [discriminate|tauto]].
  destruct results as [|b [|]]; cbn [bind]; try (split; [discriminate|intros (_ & _ & ? & ?); discriminate]).
  split; [|auto]. intros _. eauto.
Qed.
