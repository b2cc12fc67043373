(** Proofs of the staking pool's storage (C105). *)
From Coq Require Import NArith List Bool String Lia.
From Verif Require Import Prelude PreludeFacts MapFacts StorageModel StorageProofs Borsh BorshProofs PersistModel PersistProofs.
From Verif Require Import StakingPoolModel StakingPoolSpec StakingPoolProofs StakingPoolHistory StakingPoolFacts PoolStore.
Import ListNotations.
Open Scope string_scope.
Open Scope N_scope.

(** * The records PoolStore.v counts are those the collection holds *)
Lemma c_bytes_inj a b : to_bytes c_bytes a = to_bytes c_bytes b -> a = b.
Proof. apply (borsh_bytes_inj a b); exact I. Qed.
Definition h0 : handle := mkHandle UnorderedMap "u" 0 0.
Lemma records_handle p i : forall l, map_records (accounts_handle p) i l = map_records h0 i l.
Proof. intros l. revert i. induction l as [|e l IH]; intros i; [reflexivity|]. cbn [map_records]. now rewrite IH. Qed.
Lemma records_app a b : forall i, map_records h0 i (a ++ b) = (map_records h0 i a ++ map_records h0 (i + N.of_nat (List.length a)) b)%list.
Proof.
  induction a as [|e a IH]; intros i; cbn [app map_records List.length].
  - now rewrite N.add_0_r.
  - rewrite IH, <- app_assoc. do 3 f_equal. lia.
Qed.
(** A record with a smaller index than [n], of an account of [l]. *)
Lemma record_shape l : forall i k v, In (k, v) (map_records h0 i l) ->
  (exists a, In a (map fst l) /\ k = "ui" ++ to_bytes c_bytes a) \/
  (exists j, j < i + N.of_nat (List.length l) /\ (k = "uk" ++ u64_le j \/ k = "uv" ++ u64_le j)).
Proof.
  induction l as [|e l IH]; intros i k v I; [destruct I|]. cbn [map_records] in I. apply in_app_or in I. destruct I as [I|I].
  - destruct I as [E|[E|[E|[]]]]; injection E as <- _.
    + left. exists (fst e). split; [left; reflexivity|reflexivity].
    + right. exists i. split; [cbn [List.length]; lia|]. left. reflexivity.
    + right. exists i. split; [cbn [List.length]; lia|]. right. reflexivity.
  - apply IH in I. destruct I as [(a & I & ->)|(j & L & O)].
    + left. exists a. split; [right; exact I|reflexivity].
    + right. exists j. split; [cbn [List.length]; lia|exact O].
Qed.
Definition kept (st : storage) (rs : list (string * string)) : Prop :=
  (forall k v, st k = Some v <-> In (k, v) rs) /\ NoDup (map fst rs).
Lemma kept_free st rs k : kept st rs -> ~ In k (map fst rs) -> st k = None.
Proof.
  intros [E _] n. destruct (st k) as [v|] eqn:S; [|reflexivity]. exfalso. apply n. apply E in S.
  change k with (fst (k, v)). now apply in_map.
Qed.
Lemma NoDup_snoc {A} (l : list A) x : NoDup l -> ~ In x l -> NoDup (l ++ [x]).
Proof.
  intros D n. induction D as [|y l m D IH]; cbn; [constructor; [exact n|constructor]|].
  constructor; [|apply IH; intros I; apply n; right; exact I].
  intros I. apply in_app_or in I. destruct I as [I|[->|[]]]; [contradiction|]. apply n. left. reflexivity.
Qed.
Lemma kept_write st rs k v : kept st rs -> ~ In k (map fst rs) -> kept (write k v st) (rs ++ [(k, v)])%list.
Proof.
  intros K n. pose proof (kept_free _ _ _ K n) as F. destruct K as [E D]. split.
  - intros x y. unfold write. destruct (String.eqb_spec x k) as [->|ne].
    + split.
      * intros [= <-]. apply in_or_app. right. left. reflexivity.
      * intros I. apply in_app_or in I. destruct I as [I|[I|[]]]; [|now injection I as <-].
        apply E in I. congruence.
    + rewrite E. split; intros I; [apply in_or_app; now left|]. apply in_app_or in I.
      destruct I as [I|[I|[]]]; [exact I|]. injection I as -> _. contradiction.
  - rewrite map_app. now apply NoDup_snoc.
Qed.
Lemma put_all_app a b : forall h st, put_all h st (a ++ b) = let! '(st, h) := put_all h st a in put_all h st b.
Proof.
  induction a as [|e a IH]; intros h st; [reflexivity|]. cbn [app put_all].
  destruct (um_insert _ _ _ _) as [[[st' h'] o]|m]; [|reflexivity]. cbn [bind]. apply IH.
Qed.
Lemma put_all_kept l : NoDup (map fst l) -> N.of_nat (List.length l) < U64_BOUND ->
  exists st, put_all h0 (fun _ => None) l = Ok (st, mkHandle UnorderedMap "u" (N.of_nat (List.length l)) (N.of_nat (List.length l))) /\
    kept st (map_records h0 0 l).
Proof.
  induction l as [|e l IH] using rev_ind; intros D L.
  - exists (fun _ => None). split; [reflexivity|]. split; [|constructor]. intros k v. split; [discriminate|intros []].
  - rewrite map_app in D. cbn [map] in D. rewrite app_length in L. cbn [List.length] in L.
    pose proof (NoDup_remove_1 _ _ _ D) as D'. rewrite app_nil_r in D'.
    pose proof (NoDup_remove_2 _ _ _ D) as N'. rewrite app_nil_r in N'.
    destruct (IH D' ltac:(lia)) as (st & E & K). rewrite put_all_app, E. cbn [bind put_all].
    rewrite records_app. cbn [map_records]. rewrite app_nil_r. set (n := N.of_nat (List.length l)) in *.
    replace (0 + n) with n by lia. unfold entry_records.
    set (ky := to_bytes c_bytes (fst e)). set (vl := to_bytes c_account (snd e)).
    change (index_key h0 ky) with ("ui" ++ ky). change (v_key (keys_prefix h0) n) with ("uk" ++ u64_le n).
    change (v_key (values_prefix h0) n) with ("uv" ++ u64_le n).
    set (hn := mkHandle UnorderedMap "u" n n).
    assert (F : forall k v, In (k, v) (map_records h0 0 l) -> k <> "ui" ++ ky /\ k <> "uk" ++ u64_le n /\ k <> "uv" ++ u64_le n).
    { intros k v I. apply record_shape in I. destruct I as [(a & I & ->)|(j & Lj & [->| ->])].
      - split; [|split; discriminate]. intros X. apply (app_inj_l "ui") in X. apply c_bytes_inj in X. subst a. contradiction.
      - split; [discriminate|]. split; [|discriminate]. intros X. apply (app_inj_l "uk") in X.
        apply u64_le_inj in X; [|lia|lia]. fold n in Lj. lia.
      - split; [discriminate|]. split; [discriminate|]. intros X. apply (app_inj_l "uv") in X.
        apply u64_le_inj in X; [|lia|lia]. fold n in Lj. lia. }
    assert (G : forall x, (x = "ui" ++ ky \/ x = "uk" ++ u64_le n \/ x = "uv" ++ u64_le n) -> ~ In x (map fst (map_records h0 0 l))).
    { intros x X I. apply in_map_iff in I. destruct I as ([k v] & Ek & I). cbn in Ek. subst k. apply F in I. tauto. }
    assert (K1 : kept (write ("ui" ++ ky) (u64_le n) st) (map_records h0 0 l ++ [(("ui" ++ ky)%string, u64_le n)])%list).
    { apply kept_write; [exact K|]. apply G. auto. }
    assert (K2 : kept (write ("uk" ++ u64_le n) ky (write ("ui" ++ ky) (u64_le n) st))
                   ((map_records h0 0 l ++ [(("ui" ++ ky)%string, u64_le n)]) ++ [(("uk" ++ u64_le n)%string, ky)])%list).
    { apply kept_write; [exact K1|]. rewrite map_app. intros I. apply in_app_or in I. destruct I as [I|[I|[]]]; [|discriminate].
      revert I. apply G. auto. }
    assert (K3 : kept (write ("uv" ++ u64_le n) vl (write ("uk" ++ u64_le n) ky (write ("ui" ++ ky) (u64_le n) st)))
                   (((map_records h0 0 l ++ [(("ui" ++ ky)%string, u64_le n)]) ++ [(("uk" ++ u64_le n)%string, ky)]) ++ [(("uv" ++ u64_le n)%string, vl)])%list).
    { apply kept_write; [exact K2|]. rewrite !map_app. intros I. apply in_app_or in I. destruct I as [I|[I|[]]]; [|discriminate].
      apply in_app_or in I. destruct I as [I|[I|[]]]; [|discriminate]. revert I. apply G. auto. }
    rewrite <- !app_assoc in K3. cbn [app] in K3.
    eexists. split; [|exact K3].
    unfold um_insert. change (index_key hn ky) with ("ui" ++ ky). rewrite (kept_free _ _ _ K) by (apply G; auto).
    unfold v_push, add64, add_chk, fits. cbn [h_keys h_values hn].
    replace (n + 1 <? U64_BOUND) with true by (symmetry; apply N.ltb_lt; lia).
    cbn [bind]. rewrite app_length. cbn [List.length].
    replace (N.of_nat (List.length l + 1)) with (n + 1) by (unfold n; lia). reflexivity.
Qed.
Lemma pool_records p : NoDup (mkeys (accounts p)) -> N.of_nat (List.length (accounts p)) < 2 ^ 64 ->
  exists st, put_all (mkHandle UnorderedMap "u" 0 0) (fun _ => None) (accounts p) = Ok (st, accounts_handle p) /\
    (forall k v, st k = Some v <-> In (k, v) (map_records (accounts_handle p) 0 (accounts p))) /\
    NoDup (map fst (map_records (accounts_handle p) 0 (accounts p))).
Proof.
  intros D L. destruct (put_all_kept (accounts p) D L) as (st & E & K). exists st. split; [exact E|].
  rewrite records_handle. exact K.
Qed.

(** * Sizes *)
Lemma slen_u64_le i : slen (u64_le i) = 8.
Proof. exact (slen_uint 8 i). Qed.

Lemma entry_size h i e : h_kind h = UnorderedMap -> h_prefix h = "u" ->
  sumN record_bytes (entry_records h i e) = 198 + 2 * slen (fst e).
Proof.
  intros K P. destruct e as [a [x y z]]. unfold entry_records, sumN, record_bytes, to_bytes, index_key, v_key,
    keys_prefix, values_prefix. rewrite K, P. cbn [fold_right fst snd].
  rewrite !slen_app, !slen_u64_le, slen_bytes. unfold c_account, c_struct. cbn [enc unstaked stake_shares unstaked_available_epoch_height].
  rewrite !slen_pair. unfold c_u128, c_u64. rewrite !slen_uint.
  change (slen "u") with 1; change (slen "i") with 1; change (slen "k") with 1; change (slen "v") with 1.
  change RECORD_BYTES with 40. change (N.of_nat 16) with 16. change (N.of_nat 8) with 8. lia.
Qed.

Lemma sumN_app {A} (f : A -> N) a b : sumN f (a ++ b) = sumN f a + sumN f b.
Proof. unfold sumN. induction a; cbn [app fold_right]; lia. Qed.

Lemma records_size h l : h_kind h = UnorderedMap -> h_prefix h = "u" -> forall i,
  sumN record_bytes (map_records h i l) = sumN (fun e => 198 + 2 * slen (fst e)) l.
Proof.
  intros K P. induction l as [|e l IH]; intros i; [reflexivity|].
  cbn [map_records]. rewrite sumN_app, entry_size, IH by auto. reflexivity.
Qed.

Lemma pool_state_size p : slen (to_bytes c_pool_fields (pool_fields p (accounts_handle p)))
  = 107 + slen (owner_id p) + slen (stake_public_key p).
Proof.
  unfold to_bytes, c_pool_fields, pool_fields. rewrite !slen_pair, !slen_bytes.
  unfold c_fraction, c_unordered_map, c_struct, c_only, c_bool, accounts_handle, c_vector.
  cbn [enc h_prefix h_keys h_values keys_prefix values_prefix h_kind numerator denominator].
  rewrite ?slen_pair, ?slen_bytes. unfold c_u128, c_u64, c_u32. rewrite !slen_uint.
  unfold keys_prefix, values_prefix. cbn [h_kind h_prefix].
  change (slen ("u" ++ "i")) with 2; change (slen ("u" ++ "k")) with 2; change (slen ("u" ++ "v")) with 2.
  change (N.of_nat 16) with 16. change (N.of_nat 8) with 8. change (N.of_nat 4) with 4.
  change (N.of_nat 1) with 1. lia.
Qed.

Lemma pool_bytes_eq p :
  pool_bytes p = 255808 + slen (owner_id p) + slen (stake_public_key p)
                 + sumN (fun e => 198 + 2 * slen (fst e)) (accounts p).
Proof.
  unfold pool_bytes, account_bytes. rewrite pool_state_size, records_size by reflexivity.
  change ACCOUNT_BYTES with 100. change POOL_CODE_BYTES with 255556. change RECORD_BYTES with 40.
  change (slen STATE_KEY) with 5. lia.
Qed.

(** * Names *)
Definition short_pool (p : pool) : Prop :=
  slen (owner_id p) <= 64 /\ slen (stake_public_key p) <= 65 /\ forall a, In a (mkeys (accounts p)) -> slen a <= 64.

Lemma short_pool_bytes p : short_pool p -> pool_bytes p <= most_bytes (N.of_nat (List.length (accounts p))).
Proof.
  intros (O & K & A). rewrite pool_bytes_eq. unfold most_bytes.
  assert (sumN (fun e => 198 + 2 * slen (fst e)) (accounts p) <= N.of_nat (List.length (accounts p)) * 326); [|lia].
  revert A. clear. unfold sumN, mkeys. induction (accounts p) as [|e l IH]; cbn [fold_right List.length map]; intros A; [lia|].
  pose proof (A (fst e) (or_introl eq_refl)). pose proof (IH (fun a I => A a (or_intror I))). unfold account_id in *. lia.
Qed.

Lemma body_keeps_key c need p m p' ps :
  body_effect c need p m p' ps ->
  stake_public_key p' = match m with UpdateStakingKey k => k | _ => stake_public_key p end.
Proof.
  destruct m; cbn; intros H;
    repeat match goal with H : _ /\ _ |- _ => destruct H | H : exists _, _ |- _ => destruct H end;
    subst; try reflexivity; try contradiction;
    repeat match goal with
    | H : deposit_effect _ _ _ |- _ => destruct H as (_ & ->)
    | H : stake_effect _ _ _ _ _ |- _ => destruct H as (_ & _ & _ & _ & _ & _ & _ & _ & _ & ->)
    | H : unstake_effect _ _ _ _ _ |- _ => destruct H as (_ & _ & _ & _ & _ & _ & _ & _ & _ & ->)
    | H : withdraw_effect _ _ _ _ |- _ => destruct H as (_ & _ & _ & _ & ->)
    end; reflexivity.
Qed.

Lemma exec_key c p m p' ps :
  exec c p m = Ok (p', ps) ->
  stake_public_key p' = match m with UpdateStakingKey k => k | _ => stake_public_key p end.
Proof.
  intros H. apply exec_ok in H. destruct H as (_ & _ & [(P & -> & _)|(_ & p1 & need & HP & HB)]).
  - now destruct m.
  - rewrite (body_keeps_key _ _ _ _ _ _ HB). apply ping_keeps in HP. destruct m; tauto.
Qed.

Lemma short_step self S0 k w e w' o :
  winv S0 k w -> step self w e = (w', o) -> short_event e -> short_pool (w_pool w) -> short_pool (w_pool w').
Proof.
  intros W H SE (O & K & A). destruct (step_inv _ _ _ _ _ _ _ W H) as (W' & _ & _ & OTH & OW & _).
  split; [now rewrite OW|]. split.
  - destruct e as [who attached locked results m|a|n]; [|injection H as <- <-; exact K..].
    destruct o as [ps|]; [|apply step_call_none in H; now subst].
    apply step_call_some in H. destruct H as (_ & _ & p' & E & _ & ->). cbn [w_pool].
    rewrite (exec_key _ _ _ _ _ E). destruct SE as (_ & SK). destruct m; auto.
  - intros a I. destruct W as [[ND NZ _ _ _ _ _ _ _ _] _ _ _], W' as [[ND' NZ' _ _ _ _ _ _ _ _] _ _ _].
    destruct (String.eqb_spec a (owner_id (w_pool w))) as [->|NO]; [exact O|].
    destruct (event_caller e) as [u|] eqn:EC.
    + destruct (String.eqb_spec a u) as [->|NU].
      { destruct e; [|discriminate..]. injection EC as ->. apply SE. }
      apply A. revert I. rewrite !in_mkeys. intros (x & G).
      assert (acct (w_pool w') a = acct (w_pool w) a) as EA by (apply OTH; [congruence|exact NO]).
      unfold acct_of in EA. rewrite G in EA. destruct (mget a (accounts (w_pool w))) as [y|]; [eauto|].
      apply NZ' in G. subst x. discriminate G.
    + apply A. revert I. rewrite !in_mkeys. intros (x & G).
      assert (acct (w_pool w') a = acct (w_pool w) a) as EA by (apply OTH; [congruence|exact NO]).
      unfold acct_of in EA. rewrite G in EA. destruct (mget a (accounts (w_pool w))) as [y|]; [eauto|].
      apply NZ' in G. subst x. discriminate G.
Qed.

Lemma short_reach self w0 evs :
  initial self w0 -> short_names w0 -> Forall short_event evs -> short_pool (w_pool (final self w0 evs)).
Proof.
  intros H (O & K) SE. induction evs as [|e evs IH] using rev_ind.
  - destruct (initial_inv _ _ H) as (_ & A & _). cbn [final]. unfold short_pool. rewrite A.
    split; [exact O|]. split; [exact K|]. intros a [].
  - apply Forall_app in SE. destruct SE as (SE & E1). inversion E1; subst. rewrite final_app. cbn [final].
    destruct (reach self w0 evs H) as (W & _). destruct (step self (final self w0 evs) e) as [w' o] eqn:ST.
    eapply short_step; eauto.
Qed.

(** * Paying *)
Lemma charged_same self evs : forall w0,
  Forall (fun en => en_promises en <> None -> pays_storage (en_after en) = true) (history self w0 evs) ->
  charged_history self w0 evs = history self w0 evs /\ charged_final self w0 evs = final self w0 evs.
Proof.
  induction evs as [|e evs IH]; intros w0 H; [split; reflexivity|].
  cbn [history charged_history charged_final final] in *. unfold charged_step in *.
  destruct (step self w0 e) as [w' o]. inversion H as [|? ? P R]; subst. cbn [en_promises en_after] in P.
  destruct (IH _ R) as (A & B).
  destruct o as [ps|]; [rewrite P by discriminate|]; cbn [fst]; rewrite A, B; split; reflexivity.
Qed.

Lemma paid_when_covered self w0 evs :
  initial self w0 -> stake_calls (history self w0 evs) <= STAKE_SHARE_PRICE_GUARANTEE_FUND ->
  let w := final self w0 evs in
  pool_storage_cost (w_pool w) <= T_ (w_pool w) + all_unstaked (w_pool w) -> pays_storage w = true.
Proof.
  intros H K w C. pose proof (solvency self w0 evs H) as S. cbn zeta in S. fold w in S. unfold pays_storage. apply N.leb_le. lia.
Qed.

Lemma paid_when_few self w0 evs n :
  initial self w0 -> stake_calls (history self w0 evs) <= STAKE_SHARE_PRICE_GUARANTEE_FUND ->
  short_names w0 -> Forall short_event evs ->
  most_bytes n * BYTE_COST + STAKE_SHARE_PRICE_GUARANTEE_FUND <= w_total w0 ->
  delegators (final self w0 evs) <= n -> pays_storage (final self w0 evs) = true.
Proof.
  intros H K SN SE B D. apply paid_when_covered; auto.
  destruct (reach self w0 evs H) as (W & _). destruct (initial_inv _ _ H) as (_ & _ & _ & TS & _).
  pose proof (short_pool_bytes _ (short_reach _ _ _ H SN SE)) as SB. fold (delegators (final self w0 evs)) in SB.
  destruct W as [I _ _ _]. pose proof (pi_shares _ _ I). pose proof (pi_price _ _ I).
  unfold pool_storage_cost. transitivity (most_bytes n * BYTE_COST).
  - apply N.mul_le_mono_r. unfold most_bytes in *. lia.
  - lia.
Qed.

Lemma stake_calls_app a b : stake_calls (a ++ b) = stake_calls a + stake_calls b.
Proof. apply sumN_app. Qed.

Lemma history_prefixes self (P : world -> option (list promise) -> Prop) evs : forall w0,
  (forall e1 e e2, evs = (e1 ++ e :: e2)%list ->
     P (final self w0 (e1 ++ [e])) (snd (step self (final self w0 e1) e))) ->
  Forall (fun en => P (en_after en) (en_promises en)) (history self w0 evs).
Proof.
  intros w0 H. apply Forall_forall. intros en I. apply history_in in I.
  destruct I as (e1 & e & e2 & E & _ & _ & ST). specialize (H _ _ _ E). rewrite final_app in H. cbn [final] in H.
  rewrite ST in H. exact H.
Qed.

Lemma first_delegators self w0 evs n :
  initial self w0 -> stake_calls (history self w0 evs) <= STAKE_SHARE_PRICE_GUARANTEE_FUND ->
  short_names w0 -> Forall short_event evs ->
  most_bytes n * BYTE_COST + STAKE_SHARE_PRICE_GUARANTEE_FUND <= w_total w0 ->
  Forall (fun en => delegators (en_after en) <= n) (history self w0 evs) ->
  charged_history self w0 evs = history self w0 evs /\ charged_final self w0 evs = final self w0 evs.
Proof.
  intros H K SN SE B D. apply charged_same.
  apply Forall_forall. intros en I.
  pose proof (proj1 (Forall_forall _ _) D en I) as Dn. cbn beta in Dn. apply history_in in I. destruct I as (e1 & e & e2 & E & _ & _ & ST).
  subst evs. assert (en_after en = final self w0 (e1 ++ [e])) as EA.
  { rewrite final_app. cbn [final]. now rewrite ST. }
  rewrite EA in *. intros _. apply (paid_when_few self w0 (e1 ++ [e]) n); auto.
  - replace (e1 ++ e :: e2)%list with ((e1 ++ [e]) ++ e2)%list in K by now rewrite <- app_assoc.
    rewrite history_app, stake_calls_app in K. lia.
  - replace (e1 ++ e :: e2)%list with ((e1 ++ [e]) ++ e2)%list in SE by now rewrite <- app_assoc.
    now apply Forall_app in SE.
Qed.

(** * The pool that is charged is a pool that was not called *)

Lemma charged_is_free self evs : forall w0,
  exists evs', charged_final self w0 evs = final self w0 evs' /\ incl evs' evs /\
    filter accepted (charged_history self w0 evs) = filter accepted (history self w0 evs').
Proof.
  induction evs as [|e evs IH]; intros w0.
  - exists []. repeat split. intros x I; exact I.
  - cbn [charged_final charged_history]. unfold charged_step.
    destruct (step self w0 e) as [w' o] eqn:ST. destruct o as [ps|].
    + destruct (pays_storage w'); cbn [fst].
      * destruct (IH w') as (evs' & A & I & B). exists (e :: evs'). cbn [final history filter accepted en_promises].
        rewrite ST. cbn [fst]. split; [exact A|]. split; [intros x [->|X]; [now left|right; auto]|].
        cbn [filter accepted en_promises]. now rewrite B.
      * destruct (IH w0) as (evs' & A & I & B). exists evs'.
        split; [exact A|]. split; [intros x X; right; auto|]. cbn [filter accepted en_promises]. exact B.
    + cbn [fst]. destruct (IH w') as (evs' & A & I & B). exists (e :: evs'). cbn [final history filter accepted en_promises].
      rewrite ST. cbn [fst]. split; [exact A|]. split; [intros x [->|X]; [now left|right; auto]|].
      cbn [filter accepted en_promises]. exact B.
Qed.

Lemma stake_calls_accepted h : stake_calls h = stake_calls (filter accepted h).
Proof.
  unfold stake_calls, sumN. induction h as [|en h IH]; [reflexivity|]. cbn [fold_right filter]. unfold accepted at 1.
  destruct (en_promises en) eqn:E; [cbn [fold_right]; now rewrite E, IH|].
  rewrite IH. destruct (en_event en); reflexivity.
Qed.

Lemma covered_by_the_rest self w0 evs who attached locked results m w1 ps :
  initial self w0 ->
  stake_calls (charged_history self w0 evs) < STAKE_SHARE_PRICE_GUARANTEE_FUND ->
  let w := charged_final self w0 evs in let e := EvCall who attached locked results m in
  step self w e = (w1, Some ps) ->
  pool_storage_cost (w_pool w1) <= T_ (w_pool w1) + all_unstaked (w_pool w1) ->
  charged_step self w e = (w1, Some ps).
Proof.
  intros H K w e ST C. unfold charged_step. rewrite ST.
  destruct (charged_is_free self evs w0) as (evs' & F & _ & A). fold w in F. rewrite F in ST.
  pose proof (paid_when_covered self w0 (evs' ++ [e]) H) as P. rewrite final_app, history_app in P. cbn [final history] in P.
  rewrite ST in P. cbn [fst] in P. rewrite P; auto.
  rewrite stake_calls_accepted, A, <- stake_calls_accepted in K. rewrite stake_calls_app.
  assert (stake_calls [mkEntry (final self w0 evs') e (Some ps) w1] <= 1); [|lia].
  unfold stake_calls, sumN. cbn [fold_right en_event en_promises e]. destruct (is_stake_call m); lia.
Qed.
