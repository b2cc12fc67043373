(** The views show what they are documented to show. *)
From Coq Require Import NArith List Bool String Lia Permutation.
From Verif Require Import Prelude PreludeFacts MapFacts JsonModel JsonSpec JsonProofs JsonGrammar WireModel WireSpec WireApi
  WireProofs WireApiProofs ViewModel ViewSpec.
From Verif Require StakingPoolFacts LockupFacts LockupBookProofs MultisigBookProofs Multisig2BookProofs VotingProofs VotingFacts
  WhitelistProofs WNearProofs WNearCalls PoolFactoryProofs LockupFactoryProofs.
Import ListNotations.
Open Scope string_scope.
Open Scope N_scope.

(** * Asking *)
Lemma print_document v : document (print v) v.
Proof. apply parse_document, parse_print. Qed.
Lemma answers_const t name (like : json -> Prop) v : (forall text, dispatch t name text = Some (Ok v)) -> like v ->
  answers (asked t) name [] like.
Proof.
  intros E L text _. exists (print v), v. unfold asked. rewrite E. split; [reflexivity|]. split; [apply print_document|exact L].
Qed.
Lemma of_field_given {A} (r : rd A) f k j x text : gives text [(k, j)] -> j <> JNull -> r j = Some x ->
  of_field k r f text = Some (f x).
Proof.
  intros G N R. destruct (gives_args (fun o => option_map f (field k r o)) text [(k, j)] ltac:(discriminate) G) as (o & E & H).
  unfold of_field. rewrite E, (field_given r [(k, j)] o k j H (or_introl eq_refl) N), R. reflexivity.
Qed.
Lemma answers_field {A} t name k (r : rd A) f j x (like : json -> Prop) v :
  (forall text, dispatch t name text = of_field k r f text) -> j <> JNull -> r j = Some x -> f x = Ok v -> like v ->
  answers (asked t) name [(k, j)] like.
Proof.
  intros E N R F L text G. exists (print v), v. unfold asked. rewrite E, (of_field_given r f k j x text G N R), F.
  split; [reflexivity|]. split; [apply print_document|exact L].
Qed.
Lemma fails_field {A} t name k (r : rd A) f j x e :
  (forall text, dispatch t name text = of_field k r f text) -> j <> JNull -> r j = Some x -> f x = Panic e ->
  fails (asked t) name [(k, j)].
Proof. intros E N R F text G. unfold asked. now rewrite E, (of_field_given r f k j x text G N R), F. Qed.
Lemma fails_unread {A} t name k (r : rd A) (f : A -> res json) j :
  (forall text, dispatch t name text = of_field k r f text) -> j <> JNull -> r j = None ->
  fails (asked t) name [(k, j)].
Proof.
  intros E N R text G.
  destruct (gives_args (fun o => option_map f (field k r o)) text [(k, j)] ltac:(discriminate) G) as (o & E' & H).
  unfold asked. rewrite E. unfold of_field. now rewrite E', (field_given r [(k, j)] o k j H (or_introl eq_refl) N), R.
Qed.
Lemma only_listed t names : map fst t = names -> only (asked t) names.
Proof.
  intros <- name text answer H. unfold asked in H. destruct (dispatch t name text) as [x|] eqn:D; [|discriminate].
  apply dispatch_inv in D. destruct D as (f & I & _). now apply (in_map fst) in I.
Qed.
Lemma shows_const t name v : (forall text, dispatch t name text = Some (Ok v)) -> shows (asked t) name [] v.
Proof. intros E. eapply answers_const; [exact E|reflexivity]. Qed.
Lemma shows_field {A} t name k (r : rd A) f j x v :
  (forall text, dispatch t name text = of_field k r f text) -> j <> JNull -> r j = Some x -> f x = Ok v ->
  shows (asked t) name [(k, j)] v.
Proof. intros E N R F. eapply answers_field; eauto. Qed.
(** A view without arguments; a view of one; given what it finds out. *)
Ltac const := apply shows_const; intros ?; cbn [dispatch pool_views whitelist_views voting_views pool_factory_views
  lockup_factory_views lockup_views multisig_views multisig2_views wnear_views String.eqb Ascii.eqb Bool.eqb];
  unfold constant, no_args, shown.
Ltac one R := eapply shows_field; [intros ?; reflexivity|discriminate|R|cbv beta; unfold shown].

(** * The staking pool *)
Lemma account_shape epoch p u h : SM.get_account epoch p u = Ok h ->
  h = SM.mkHuman u (SB.b_unstaked (SB.read p) u) (SB.worth u (SB.read p)) (SB.b_available (SB.read p) u <=? epoch).
Proof.
  unfold SM.get_account, SB.worth, SB.read. cbn [SB.b_unstaked SB.b_staked SB.b_shares SB.b_issued SB.b_available].
  change (StakingPoolSpec.record_of p u) with (SM.internal_get_account p u).
  destruct (SM.staked_amount_from_num_shares_rounded_down _ _) as [s|] eqn:E; cbn [bind]; [|discriminate].
  intros [= <-]. f_equal. revert E. unfold SM.staked_amount_from_num_shares_rounded_down.
  intros H. inv_res. reflexivity.
Qed.
Lemma pages_fail epoch p i n : U64_BOUND <= i + n -> exists e, SM.get_accounts epoch p i n = Panic e.
Proof.
  intros H. unfold SM.get_accounts, add64, add_chk, fits. destruct (N.ltb_spec (i + n) U64_BOUND) as [L|L]; [|now eexists].
  exfalso. apply N.lt_nge in L. contradiction.
Qed.
Lemma pages_read epoch p i n text : i < U64_BOUND -> n < U64_BOUND -> gives text [("from_index", JNum i); ("limit", JNum n)] ->
  dispatch (pool_views epoch p) "get_accounts" text =
  Some (shown (fun l => JArr (map wr_account l)) (SM.get_accounts epoch p i n)).
Proof.
  intros Hi Hn G. cbn [dispatch pool_views String.eqb Ascii.eqb Bool.eqb].
  match goal with |- with_args ?f text = _ =>
    destruct (gives_args f text [("from_index", JNum i); ("limit", JNum n)] ltac:(discriminate) G) as (o & -> & H)
  end.
  cbv beta. rewrite (field_given u64 _ o "from_index" (JNum i) H (or_introl eq_refl) ltac:(discriminate)).
  rewrite (field_given u64 _ o "limit" (JNum n) H (or_intror (or_introl eq_refl)) ltac:(discriminate)).
  now rewrite (u64_ok i Hi), (u64_ok n Hn).
Qed.

Section Pool.
Import StakingPoolSpec.
Lemma pool_shows self w0 evs :
  initial self w0 -> within_limits self w0 evs -> 1000000000000 < w_total w0 ->
  let w := final self w0 evs in let b := SB.read (w_pool w) in let view := asked (pool_views (w_epoch w) (w_pool w)) in
  (forall u, let who := [("account_id", JStr u)] in
     shows view "get_account" who (account_of (w_epoch w) b u) /\
     shows view "get_account_unstaked_balance" who (amount (SB.b_unstaked b u)) /\
     shows view "get_account_staked_balance" who (amount (SB.worth u b)) /\
     shows view "get_account_total_balance" who (amount (SB.b_unstaked b u + SB.worth u b)) /\
     shows view "is_account_unstaked_balance_available" who (JBool (SB.b_available b u <=? w_epoch w))) /\
  shows view "get_total_staked_balance" [] (amount (SB.b_staked b)) /\
  shows view "get_owner_id" [] (JStr (SB.b_owner b)) /\
  shows view "get_reward_fee_fraction" [] (fraction_of (SB.b_fee b)) /\
  shows view "get_staking_key" [] (JStr (SB.b_key b)) /\
  shows view "is_staking_paused" [] (JBool (SB.b_paused b)) /\
  (exists l : list account_id,
     NoDup l /\ (forall u, In u l <-> 0 < SB.b_unstaked b u + SB.b_shares b u) /\
     shows view "get_number_of_accounts" [] (JNum (N.of_nat (List.length l))) /\
     forall i n, i < U64_BOUND -> n < U64_BOUND ->
       let page := [("from_index", JNum i); ("limit", JNum n)] in
       if i + n <? U64_BOUND
       then shows view "get_accounts" page
              (JArr (map (account_of (w_epoch w) b) (firstn (N.to_nat n) (skipn (N.to_nat i) l))))
       else fails view "get_accounts" page) /\
  only view pool_view_names.
Proof.
  intros I L T w b view.
  pose proof (fun u e => StakingPoolFacts.views_never_fail_above self w0 evs u e I L T) as V. fold w in V.
  assert (A : forall u e, SM.get_account e (w_pool w) u =
                Ok (SM.mkHuman u (SB.b_unstaked b u) (SB.worth u b) (SB.b_available b u <=? e))).
  { intros u e. destruct (V u e) as ((h & H & _) & _). rewrite H. f_equal. now apply account_shape. }
  split; [|split; [const; reflexivity|split; [const; reflexivity|split; [const; reflexivity|
    split; [const; reflexivity|split; [const; reflexivity|split]]]]]].
  - intros u who. unfold who. split; [|split; [|split; [|split]]].
    + one reflexivity. rewrite A. reflexivity.
    + one reflexivity. unfold SM.get_account_unstaked_balance. rewrite A. reflexivity.
    + one reflexivity. unfold SM.get_account_staked_balance. rewrite A. reflexivity.
    + one reflexivity. destruct (V u 0) as (_ & (x & H) & _). rewrite H. cbn [bind].
      unfold SM.get_account_total_balance in H. rewrite A in H. cbn in H. inv_res. reflexivity.
    + one reflexivity. unfold SM.is_account_unstaked_balance_available. rewrite A. reflexivity.
  - destruct (StakingPoolFacts.pagination_above self w0 evs (w_epoch w) I L T) as (l & ND & LEN & IN & OK & PG).
    fold w in LEN, IN, OK, PG. exists (map SM.h_account_id l). split; [exact ND|].
    split; [exact IN|]. split.
    + const. rewrite <- LEN, map_length. reflexivity.
    + intros i n Hi Hn. cbv zeta. destruct (N.ltb_spec (i + n) U64_BOUND) as [S|S].
      * intros text G. eexists. exists (JArr (map (account_of (w_epoch w) b)
          (firstn (N.to_nat n) (skipn (N.to_nat i) (map SM.h_account_id l))))).
        unfold view, asked. rewrite (pages_read _ _ i n text Hi Hn G), (PG i n S). cbn [shown bind].
        split; [reflexivity|]. split; [|reflexivity].
        replace (map wr_account (firstn (N.to_nat n) (skipn (N.to_nat i) l)))
          with (map (account_of (w_epoch w) b) (firstn (N.to_nat n) (skipn (N.to_nat i) (map SM.h_account_id l)))).
        2:{ rewrite skipn_map, firstn_map, map_map. apply map_ext_in. intros h H.
            apply StakingPoolFacts.in_firstn, StakingPoolFacts.in_skipn in H. pose proof (OK h H) as E. rewrite A in E. injection E as <-. reflexivity. }
        apply print_document.
      * intros text G. destruct (pages_fail (w_epoch w) (w_pool w) i n S) as (e & E).
        unfold view, asked. now rewrite (pages_read _ _ i n text Hi Hn G), E.
  - apply only_listed. reflexivity.
Qed.
Lemma minimal_pool_fails self w0 evs u : initial self w0 -> w_total w0 = 1000000000000 ->
  let w := final self w0 evs in let view := asked (pool_views (w_epoch w) (w_pool w)) in
  Forall (fun name => fails view name [("account_id", JStr u)])
    ["get_account"; "get_account_unstaked_balance"; "get_account_staked_balance"; "get_account_total_balance";
     "is_account_unstaked_balance_available"].
Proof.
  intros I T w view. destruct (StakingPoolFacts.minimal_views_fail self w0 evs u (w_epoch w) I T) as (A & B & C & D & E).
  fold w in A, B, C, D, E.
  repeat constructor.
  - destruct (SM.get_account (w_epoch w) (w_pool w) u) as [?|e] eqn:X; [discriminate|].
    eapply fails_field; [intros; reflexivity|discriminate|reflexivity|cbv beta; unfold shown; rewrite X; reflexivity].
  - destruct (SM.get_account_unstaked_balance (w_pool w) u) as [?|e] eqn:X; [discriminate|].
    eapply fails_field; [intros; reflexivity|discriminate|reflexivity|cbv beta; unfold shown; rewrite X; reflexivity].
  - destruct (SM.get_account_staked_balance (w_pool w) u) as [?|e] eqn:X; [discriminate|].
    eapply fails_field; [intros; reflexivity|discriminate|reflexivity|cbv beta; unfold shown; rewrite X; reflexivity].
  - destruct (SM.get_account_total_balance (w_pool w) u) as [?|e] eqn:X; [discriminate|].
    eapply fails_field; [intros; reflexivity|discriminate|reflexivity|cbv beta; unfold shown; rewrite X; reflexivity].
  - destruct (SM.is_account_unstaked_balance_available (w_epoch w) (w_pool w) u) as [?|e] eqn:X; [discriminate|].
    eapply fails_field; [intros; reflexivity|discriminate|reflexivity|cbv beta; unfold shown; rewrite X; reflexivity].
Qed.
End Pool.

(** * The lockup *)
Section Lockup.
Import LockupWorld LockupSpec.
Lemma vesting_written v : wr_vesting v = vesting_of v.
Proof. destruct v as [| | |[a []]]; reflexivity. Qed.
Lemma stage_written o : wr_option wr_status o = nullable stage_of o.
Proof. destruct o as [[]|]; reflexivity. Qed.
Lemma lockup_shows g w0 evs : starts g w0 -> public_schedule_sane (w_lockup w0) -> all_reveals_covered g w0 evs ->
  let s := w_lockup (final g w0 evs) in
  forall now balance, balance + LB.recorded s < U128_BOUND ->
  let view := asked (lockup_views now balance s) in
  shows view "get_owner_account_id" [] (JStr (LM.owner_account_id s)) /\
  shows view "get_staking_pool_account_id" []
    (nullable (fun i => JStr (LM.staking_pool_account_id i)) (LM.staking_information s)) /\
  shows view "get_known_deposited_balance" [] (amount (LB.recorded s)) /\
  shows view "get_termination_status" [] (nullable stage_of (LB.stage s)) /\
  shows view "get_terminated_unvested_balance" [] (amount (LB.owed s)) /\
  shows view "get_terminated_unvested_balance_deficit" [] (amount (LB.owed s - LB.spare balance)) /\
  shows view "get_locked_amount" [] (amount (locked s now)) /\
  shows view "get_vesting_information" [] (vesting_of (LM.vesting_information s)) /\
  shows view "get_balance" [] (amount (balance + LB.recorded s)) /\
  shows view "get_owners_balance" [] (amount (balance + LB.recorded s - locked s now)) /\
  shows view "get_liquid_owners_balance" []
    (amount (N.min (balance + LB.recorded s - locked s now) (LB.spare balance))) /\
  shows view "are_transfers_enabled" [] (JBool (LB.enabled s)) /\
  (forall vs, schedule_fits vs -> sane vs ->
     let given := [("vesting_schedule", WireApi.schedule_of vs)] in
     shows view "get_unvested_amount" given (amount (LB.unvested_shown s vs now)) /\
     if LB.unvested_shown s vs now <=? locked s now
     then shows view "get_locked_vested_amount" given (amount (locked s now - LB.unvested_shown s vs now))
     else fails view "get_locked_vested_amount" given) /\
  only view lockup_view_names.
Proof.
  intros ST PS RC s now balance B view.
  pose proof (LockupFacts.reachable_well_formed g w0 evs ST PS RC) as W. fold s in W.
  destruct (LockupBookProofs.views_by_the_book s now balance W B) as
    (V1 & V2 & V3 & V4 & V5 & V6 & V7 & V8 & V9 & V10 & V11 & V12).
  split; [const; now rewrite V1|]. split; [const; rewrite V2; now destruct (LM.staking_information s)|].
  split; [const; now rewrite V3|]. split; [const; now rewrite V4, stage_written|]. split; [const; now rewrite V5|].
  split; [const; now rewrite V6|]. split; [const; now rewrite V7|]. split; [const; now rewrite V8, vesting_written|].
  split; [const; now rewrite V9|]. split; [const; now rewrite V10|]. split; [const; now rewrite V11|].
  split; [const; now rewrite V12|]. split; [|apply only_listed; reflexivity].
  intros vs F SN given. split.
  - one ltac:(exact (schedule_ok vs F)). rewrite (LockupBookProofs.unvested_shown_ok s now vs W SN). reflexivity.
  - destruct (LockupBookProofs.locked_vested_shown s now vs W SN) as [(E & L)|((e & E) & L)].
    + rewrite (proj2 (N.leb_le _ _) L). one ltac:(exact (schedule_ok vs F)). rewrite E. reflexivity.
    + rewrite (proj2 (N.leb_gt _ _) L).
      eapply fails_field; [intros; reflexivity|discriminate|exact (schedule_ok vs F)|cbv beta; unfold shown; rewrite E; reflexivity].
Qed.
End Lockup.

(** * The multisigs *)
Ltac many := eapply answers_const; [intros ?; reflexivity|].
Section Multisig.
Import MultisigSpec MultisigBook.
Lemma action1_written a : wr_action1 a = action1_of a.
Proof. destruct a as [| | |? [[]|]| | | |]; reflexivity. Qed.
Lemma request1_written r : wr_request1 r = request1_of r.
Proof. unfold wr_request1, request1_of. rewrite (map_ext _ _ action1_written). reflexivity. Qed.
Lemma multisig_shows self k evs s0 : M1.new false k = Ok s0 ->
  let b := fst (play_all self (blank k) evs) in let view := ViewModel.asked (multisig_views (final self s0 evs)) in
  ViewSpec.shows view "get_num_confirmations" [] (JNum (b_quorum b)) /\
  ViewSpec.shows view "get_request_nonce" [] (JNum (b_next b)) /\
  (forall key, ViewSpec.shows view "get_num_requests_pk" [("public_key", JStr key)] (JNum (count_of key (b_items b)))) /\
  (exists ids, NoDup ids /\ (forall id, In id ids <-> In id (map i_id (b_items b))) /\
     ViewSpec.shows view "list_request_ids" [] (JArr (map JNum ids))) /\
  (forall id, id < U32_BOUND -> let given := [("request_id", JNum id)] in
     match lookup id (b_items b) with
     | Some i => ViewSpec.shows view "get_request" given (request1_of (i_request i)) /\
                 answers view "get_confirmations" given (array_of (map JStr (i_confirmed i)))
     | None => fails view "get_request" given /\ fails view "get_confirmations" given
     end) /\
  only view multisig_view_names.
Proof.
  intros N0 b view. destruct (MultisigBookProofs.multisig_by_the_book self k evs s0 N0) as (_ & S).
  fold b in S. destruct S as (V1 & V2 & _ & V4 & V5 & V6 & V7 & V8).
  split; [const; now rewrite V1|]. split; [const; now rewrite V2|].
  split; [intros key; one reflexivity; now rewrite V4|].
  split; [eexists; split; [exact V6|]; split; [exact V5|]; const; reflexivity|].
  split; [|apply only_listed; reflexivity].
  intros id F given. specialize (V7 id). specialize (V8 id).
  destruct (lookup id (b_items b)) as [i|]; cbn [option_map] in V7.
  - split.
    + one ltac:(exact (u32_ok id F)). destruct (M1.get_request _ id); [|discriminate]. injection V7 as ->.
      cbn [bind]. now rewrite request1_written.
    + destruct (M1.get_confirmations (final self s0 evs) id) as [l|] eqn:E; [|contradiction].
      eapply answers_field; [intros; reflexivity|discriminate|exact (u32_ok id F)|
        cbv beta; unfold shown; rewrite E; reflexivity|].
      eexists. split; [reflexivity|]. now apply Permutation_map.
  - destruct (M1.get_request (final self s0 evs) id) eqn:E1; [discriminate|].
    destruct (M1.get_confirmations (final self s0 evs) id) as [l|] eqn:E; [contradiction|].
    split; (eapply fails_field; [intros; reflexivity|discriminate|exact (u32_ok id F)|]);
      cbv beta; unfold shown; [rewrite E1|rewrite E]; reflexivity.
Qed.
End Multisig.

Section Multisig2.
Import Multisig2Spec Multisig2Book.
Lemma member_written m : wr_member m = member_of m.
Proof. destruct m; reflexivity. Qed.
Lemma action2_written a : wr_action2 a = action2_of a.
Proof. destruct a as [| | |m|m|? [[]|]| | |]; try reflexivity; destruct m; reflexivity. Qed.
Lemma request2_written r : wr_request2 r = request2_of r.
Proof. unfold wr_request2, request2_of. rewrite (map_ext _ _ action2_written). reflexivity. Qed.
Lemma text_names m : names_member (JStr (M2.text m)) m.
Proof.
  exists (M2.text m). split; [reflexivity|]. replace (M2.text m) with (print (member_of m)); [apply print_document|].
  destruct m as [x|x]; cbn [member_of print map String.concat fst snd]; unfold quoted, M2.text, M2.quote;
    generalize (Json.escape x) as e; intros e; cbn; repeat rewrite app_assoc_s; reflexivity.
Qed.
Lemma multisig2_shows self ms k evs s0 p b0 : M2.new self false ms k = Ok (s0, p) -> opened ms k = Some b0 ->
  let b := fst (play_all self b0 evs) in let view := ViewModel.asked (multisig2_views (final self s0 evs)) in
  (exists l, NoDup l /\ (forall m, In m l <-> In m (b_members b)) /\
     ViewSpec.shows view "get_members" [] (JArr (map member_of l))) /\
  ViewSpec.shows view "get_num_confirmations" [] (JNum (b_quorum b)) /\
  ViewSpec.shows view "get_request_nonce" [] (JNum (b_next b)) /\
  (forall m, member_fits m ->
     ViewSpec.shows view "get_num_requests_per_member" [("member", member_of m)] (JNum (count_of m (b_items b)))) /\
  (exists ids, NoDup ids /\ (forall id, In id ids <-> In id (map i_id (b_items b))) /\
     ViewSpec.shows view "list_request_ids" [] (JArr (map JNum ids))) /\
  (forall id, id < U32_BOUND -> let given := [("request_id", JNum id)] in
     match lookup id (b_items b) with
     | Some i => ViewSpec.shows view "get_request" given (request2_of (i_request i)) /\
                 answers view "get_confirmations" given (fun v => exists l l',
                   v = JArr l /\ Permutation l' (i_confirmed i) /\ Forall2 names_member l l')
     | None => fails view "get_request" given /\ fails view "get_confirmations" given
     end) /\
  only view multisig2_view_names.
Proof.
  intros N0 O b view. pose proof (Multisig2BookProofs.multisig2_by_the_book self ms k) as H. rewrite N0, O in H.
  destruct H as (_ & H). destruct (H evs) as (_ & S). fold b in S. clear H.
  destruct S as (V0 & V0' & V1 & V2 & _ & V4 & V5 & V6 & V7 & V8).
  split; [eexists; split; [exact V0'|]; split; [exact V0|]; const|].
  { now rewrite (map_ext _ _ member_written). }
  split; [const; now rewrite V1|]. split; [const; now rewrite V2|].
  split; [intros m F; rewrite <- member_written; eapply shows_field;
            [intros ?; reflexivity|destruct m; discriminate|exact (member2_ok m F)|cbv beta; now rewrite V4]|].
  split; [eexists; split; [exact V6|]; split; [exact V5|]; const; reflexivity|].
  split; [|apply only_listed; reflexivity].
  intros id F given. specialize (V7 id). specialize (V8 id).
  destruct (lookup id (b_items b)) as [i|]; cbn [option_map] in V7.
  - split.
    + one ltac:(exact (u32_ok id F)). destruct (M2.get_request _ id); [|discriminate]. injection V7 as ->.
      cbn [bind]. now rewrite request2_written.
    + destruct (M2.get_confirmations (final self s0 evs) id) as [l|] eqn:E; [|contradiction].
      eapply answers_field; [intros; reflexivity|discriminate|exact (u32_ok id F)|
        cbv beta; unfold shown; rewrite E; reflexivity|].
      apply Permutation_map_inv in V8. destruct V8 as (l' & -> & P).
      eexists _, l'. split; [reflexivity|]. split; [now apply Permutation_sym|].
      clear. induction l' as [|m l IH]; constructor; [apply text_names|exact IH].
  - destruct (M2.get_request (final self s0 evs) id) eqn:E1; [discriminate|].
    destruct (M2.get_confirmations (final self s0 evs) id) as [l|] eqn:E; [contradiction|].
    split; (eapply fails_field; [intros; reflexivity|discriminate|exact (u32_ok id F)|]);
      cbv beta; unfold shown; [rewrite E1|rewrite E]; reflexivity.
Qed.
End Multisig2.

(** * Voting *)
Section Voting.
Import VotingModel VotingSpec.
Lemma voting_shows w0 evs : initial w0 -> Forall event_ok evs ->
  let w := final w0 evs in let view := asked (voting_views (call_ctx w "" 0 0) (w_contract w)) in
  exists l : list (account_id * N),
    NoDup (map fst l) /\
    (forall a, In a (map fst l) <-> poll w0 evs nobody a = true) /\
    (forall evs' who attached ts m, evs = (evs' ++ [EvCall who attached ts m])%list ->
       accepted (final w0 evs') (EvCall who attached ts m) = true -> forall a n, In (a, n) l -> n = stake_of w a) /\
    shows view "get_votes" [] (JObj (map (fun v => (fst v, amount (snd v))) l)) /\
    shows view "get_total_voted_stake" []
      (JArr [amount (fold_right N.add 0 (map snd l)); amount (total_stake w)]) /\
    shows view "get_result" [] (nullable amount (result (w_contract w))) /\
    only view voting_view_names.
Proof.
  intros I OK w view. pose proof (VotingProofs.reach_inv w0 evs I OK) as V. fold w in V.
  exists (votes (w_contract w)). split; [exact (VotingProofs.i_nodup _ _ V)|].
  split; [intros a; rewrite (VotingProofs.i_dom _ _ V); apply in_mkeys_mmem|].
  split; [|split; [|split; [|split; [const; unfold get_result; now destruct (result (w_contract w))|apply only_listed; reflexivity]]]].
  - intros evs' who attached ts m E A a n H. subst evs.
    apply Forall_app in OK. destruct OK as [OK _].
    destruct (VotingFacts.votes_are_current_stakes w0 evs' who attached ts m I OK A) as (X & _).
    assert (W : w = step (final w0 evs') (EvCall who attached ts m)) by (unfold w; now rewrite VotingProofs.final_app).
    rewrite W in H |- *. apply X in H. apply H.
  - const. unfold get_votes. erewrite map_ext; [reflexivity|]. now intros [].
  - const. unfold get_total_voted_stake. cbn iota beta. rewrite (VotingProofs.i_sum _ _ V).
    replace (VotingProofs.sum_of (votes (w_contract w))) with (fold_right N.add 0 (map snd (votes (w_contract w)))); [reflexivity|].
    induction (votes (w_contract w)) as [|[a n] l IH]; [reflexivity|]. cbn. now rewrite IH.
Qed.
End Voting.

(** * The whitelist *)
Section Whitelist.
Import WhitelistModel WhitelistSpec.
Lemma whitelist_shows fnd s0 evs : new false fnd = Ok s0 ->
  let view := asked (whitelist_views (final s0 evs)) in
  (forall a, let pool := [("staking_pool_account_id", JStr a)] in let factory := [("factory_account_id", JStr a)] in
     if is_valid_account_id a
     then shows view "is_whitelisted" pool (JBool (pool_listed fnd (rev evs) a)) /\
          shows view "is_factory_whitelisted" factory (JBool (factory_listed fnd (rev evs) a))
     else fails view "is_whitelisted" pool /\ fails view "is_factory_whitelisted" factory) /\
  only view whitelist_view_names.
Proof.
  intros N0 view. split; [|apply only_listed; reflexivity].
  destruct (WhitelistProofs.answers_follow_history fnd s0 evs N0) as (P & F).
  intros a pool factory. unfold pool, factory. destruct (is_valid_account_id a) eqn:V.
  - split; [one reflexivity; now rewrite (P a V)|one reflexivity; now rewrite (F a V)].
  - split; (eapply fails_field; [intros; reflexivity|discriminate|reflexivity|]);
      cbv beta; unfold shown, is_whitelisted, is_factory_whitelisted; rewrite V; reflexivity.
Qed.
End Whitelist.

(** * Wrapped NEAR *)
Section WNear.
Import WNearModel WNearSpec.
Lemma unread_account a : is_valid_account_id a = false -> valid_account (JStr a) = None.
Proof. intros V. unfold valid_account. now rewrite V. Qed.
Lemma wnear_shows self b evs : let w := final self (start b) evs in let view := asked (wnear_views (w_token w)) in
  shows view "ft_total_supply" [] (amount (supply w)) /\
  (forall a, let who := [("account_id", JStr a)] in
     if is_valid_account_id a
     then shows view "ft_balance_of" who (amount (bal w a)) /\
          (registered w a ->
             shows view "storage_balance_of" who (JObj [("total", amount DEPOSIT); ("available", amount 0)])) /\
          (~ registered w a -> shows view "storage_balance_of" who JNull)
     else fails view "ft_balance_of" who /\ fails view "storage_balance_of" who) /\
  shows view "storage_balance_bounds" [] (JObj [("min", amount DEPOSIT); ("max", amount DEPOSIT)]) /\
  shows view "storage_minimum_balance" [] (amount DEPOSIT) /\
  shows view "ft_metadata" []
    (JObj [("spec", JStr "ft-1.0.0"); ("name", JStr "Wrapped NEAR fungible token"); ("symbol", JStr "wNEAR");
           ("icon", JNull); ("reference", JNull); ("reference_hash", JNull); ("decimals", JNum 24)]) /\
  only view wnear_view_names.
Proof.
  intros w view. pose proof (WNearCalls.good_reach self b evs) as G. fold w in G.
  pose proof (WNearProofs.storage_min_ok (w_token w) (proj1 G)) as M.
  split; [const; reflexivity|]. split.
  - intros a who. unfold who. destruct (is_valid_account_id a) eqn:V.
    + destruct (WNearCalls.storage_view w a G) as (R & NR).
      split; [one ltac:(exact (valid_account_ok a V)); reflexivity|].
      split; intros H; one ltac:(exact (valid_account_ok a V)); [rewrite (R H)|rewrite (NR H)]; reflexivity.
    + split; (eapply fails_unread; [intros; reflexivity|discriminate|exact (unread_account a V)]).
  - split; [const; now rewrite M|]. split; [const; now rewrite M|]. split; [const; reflexivity|].
    apply only_listed; reflexivity.
Qed.
End WNear.

(** * The factories *)
Section PoolFactory.
Import PoolFactorySpec.
Lemma pool_factory_shows self wl w0 evs : starts wl w0 ->
  let w := final self w0 evs in let view := asked (pool_factory_views (w_factory w)) in
  shows view "get_number_of_staking_pools_created" []
    (JNum (N.of_nat (List.length (created_pools (log self w0 evs)) + List.length (pending_pools w)))) /\
  shows view "get_min_attached_balance" [] (amount (30 * 10 ^ 24)) /\
  only view pool_factory_view_names.
Proof.
  intros ST w view. pose proof (PoolFactoryProofs.i_ids _ _ _ _ _ _ (PoolFactoryProofs.inv_history self wl w0 evs ST)) as P.
  fold w in P. apply Permutation_length in P. rewrite app_length in P.
  split; [const|split; [const; reflexivity|apply only_listed; reflexivity]].
  rewrite <- P. reflexivity.
Qed.
End PoolFactory.
Section LockupFactory.
Import LockupFactorySpec.
Lemma lockup_factory_shows g wl fnd w0 evs c : starts g wl fnd w0 -> LF.ctx_current c = g_self g ->
  let view := asked (lockup_factory_views c (w_factory (final g w0 evs))) in
  shows view "get_foundation_account_id" [] (JStr fnd) /\
  shows view "get_lockup_master_account_id" [] (JStr (g_self g)) /\
  shows view "get_min_attached_balance" [] (amount (35 * 10 ^ 23)) /\
  only view lockup_factory_view_names.
Proof.
  intros ST C view. pose proof (LockupFactoryProofs.i_factory _ _ _ _ _ _ (LockupFactoryProofs.inv_history g wl fnd w0 evs ST)) as F.
  split; [const; now rewrite F|]. split; [const; unfold LF.get_lockup_master_account_id; now rewrite C|].
  split; [const; reflexivity|apply only_listed; reflexivity].
Qed.
End LockupFactory.
