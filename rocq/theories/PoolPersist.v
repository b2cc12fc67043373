(** Every state a staking pool can reach is one its Rust types can hold, so it survives storage (C102). *)
From Coq Require Import NArith List Bool String Lia.
From Verif Require Import Prelude PreludeFacts MapFacts StorageModel StorageProofs Borsh BorshProofs PersistModel PersistProofs.
From Verif Require Import StakingPoolModel StakingPoolSpec StakingPoolProofs StakingPoolHistory StakingPoolFacts PoolStore PoolStoreProofs.
Import ListNotations.
Open Scope string_scope.
Open Scope N_scope.

Definition acc_fits (a : account) : Prop :=
  unstaked a < U128_BOUND /\ stake_shares a < U128_BOUND /\ unstaked_available_epoch_height a < U64_BOUND.
Definition accs_fit (m : umap account_id account) : Prop := forall a x, mget a m = Some x -> acc_fits x.
Definition pool_fits (p : pool) : Prop :=
  last_epoch_height p < U64_BOUND /\ last_total_balance p < U128_BOUND /\ S_ p < U128_BOUND /\ T_ p < U128_BOUND /\
  numerator (reward_fee_fraction p) < U32_BOUND /\ denominator (reward_fee_fraction p) < U32_BOUND /\
  accs_fit (accounts p) /\ NoDup (mkeys (accounts p)).

Lemma fit_get m a : accs_fit m -> acc_fits (acct_of m a).
Proof.
  intros F. unfold acct_of. destruct (mget a m) as [x|] eqn:G; [exact (F a x G)|].
  repeat split; reflexivity.
Qed.
Lemma fit_save m a x : NoDup (mkeys m) -> accs_fit m -> acc_fits x -> accs_fit (save_accounts a x m).
Proof.
  intros D F X b y. unfold save_accounts. destruct (nonzero x).
  - rewrite mget_minsert. destruct (keqb b a); [intros [= <-]; exact X|apply F].
  - rewrite mget_mremove by exact D. destruct (keqb b a); [discriminate|apply F].
Qed.

Lemma deposit_fits c p p' a : pool_fits p -> internal_deposit c p = Ok (p', a) -> pool_fits p'.
Proof.
  intros (E & L & S & T & N & D & A & ND) H. pose proof (fit_get _ (ctx_predecessor c) A) as (U & SH & AV).
  unfold internal_deposit in H. inv_res. rewrite save_account_eq, get_account_eq in *.
  unfold pool_fits, set_last_total, set_accounts in *; pool_cbn.
  repeat (split; [assumption|]). split; [|now apply NoDup_save].
  apply fit_save; [assumption|assumption|]. repeat split; assumption.
Qed.
Lemma withdraw_fits c p n p' ps : pool_fits p -> internal_withdraw c p n = Ok (p', ps) -> pool_fits p'.
Proof.
  intros (E & L & S & T & N & D & A & ND) H. pose proof (fit_get _ (ctx_predecessor c) A) as (U & SH & AV).
  unfold internal_withdraw in H. inv_res. rewrite save_account_eq, get_account_eq in *.
  unfold pool_fits, set_last_total, set_accounts in *; pool_cbn.
  split; [assumption|]. split; [cbn [last_total_balance] in *; lia|]. repeat (split; [assumption|]). split; [|now apply NoDup_save].
  apply fit_save; [assumption|assumption|]. repeat split; cbn [unstaked stake_shares unstaked_available_epoch_height]; try assumption. lia.
Qed.
Lemma stake_fits c p n p' : pool_fits p -> internal_stake c p n = Ok p' -> pool_fits p'.
Proof.
  intros (E & L & S & T & N & D & A & ND) H. pose proof (fit_get _ (ctx_predecessor c) A) as (U & SH & AV).
  unfold internal_stake in H. inv_res. rewrite save_account_eq, get_account_eq in *.
  unfold pool_fits, set_total_staked, set_total_shares, set_last_total, set_accounts in *; pool_cbn.
  repeat (split; [assumption|]). split; [|now apply NoDup_save].
  apply fit_save; [assumption|assumption|]. repeat split; cbn [unstaked stake_shares unstaked_available_epoch_height]; try assumption. lia.
Qed.
Lemma unstake_fits c p n p' : pool_fits p -> inner_unstake c p n = Ok p' -> pool_fits p'.
Proof.
  intros (E & L & S & T & N & D & A & ND) H. pose proof (fit_get _ (ctx_predecessor c) A) as (U & SH & AV).
  unfold inner_unstake in H. inv_res. rewrite save_account_eq, get_account_eq in *.
  unfold pool_fits, set_total_staked, set_total_shares, set_last_total, set_accounts in *; pool_cbn.
  do 2 (split; [assumption|]). split; [lia|]. split; [lia|]. repeat (split; [assumption|]). split; [|now apply NoDup_save].
  apply fit_save; [assumption|assumption|]. repeat split; cbn [unstaked stake_shares unstaked_available_epoch_height]; try assumption. lia.
Qed.
Lemma ping_fits c p p' b : ctx_epoch c < U64_BOUND -> pool_fits p -> internal_ping c p = Ok (p', b) -> pool_fits p'.
Proof.
  intros EP (E & L & S & T & N & D & A & ND) H. pose proof (fit_get _ (owner_id p) A) as (U & SH & AV).
  unfold internal_ping in H. destruct (last_epoch_height p =? ctx_epoch c).
  { inv_res. repeat (split; [assumption|]). assumption. }
  inv_res. destruct (0 <? _).
  - inv_res. destruct (0 <? _).
    + inv_res. repeat rewrite save_account_eq in *. repeat rewrite get_account_eq in *.
      unfold pool_fits, set_total_staked, set_total_shares, set_last_total, set_last_epoch, set_accounts in *; pool_cbn.
      split; [assumption|]. split; [lia|]. repeat (split; [assumption|]). split; [|now apply NoDup_save].
      apply fit_save; [assumption|assumption|]. repeat split; cbn; assumption.
    + inv_res. unfold pool_fits, set_total_staked, set_total_shares, set_last_total, set_last_epoch, set_accounts in *; pool_cbn.
      split; [assumption|]. split; [lia|]. repeat (split; [assumption|]). assumption.
  - inv_res. unfold pool_fits, set_last_total, set_last_epoch in *; pool_cbn.
    split; [assumption|]. split; [lia|]. repeat (split; [assumption|]). assumption.
Qed.
Lemma exec_fits c p m p' ps : ctx_epoch c < U64_BOUND -> pool_fits p -> exec c p m = Ok (p', ps) -> pool_fits p'.
Proof.
  intros EP F H. unfold exec in H. inv_res.
  destruct m; unfold ping, deposit, deposit_and_stake, withdraw_all, withdraw, stake_all, stake, unstake_all, unstake,
    on_stake_action, update_staking_key, update_reward_fee_fraction, vote, pause_staking, resume_staking, assert_owner in H;
    inv_res; repeat match goal with x : (_ * _)%type |- _ => destruct x end; inv_res;
    repeat match goal with x : (_ * _)%type |- _ => destruct x end; inv_res;
    repeat match goal with
    | H : internal_ping _ _ = Ok _ |- _ => apply ping_fits in H; [|assumption|assumption]
    | H : internal_deposit _ _ = Ok _ |- _ => apply deposit_fits in H; [|assumption]
    | H : internal_withdraw _ _ _ = Ok _ |- _ => apply withdraw_fits in H; [|assumption]
    | H : internal_stake _ _ _ = Ok _ |- _ => apply stake_fits in H; [|assumption]
    | H : inner_unstake _ _ _ = Ok _ |- _ => apply unstake_fits in H; [|assumption]
    end; try assumption.
  - destruct (ctx_results c) as [|r [|]]; [discriminate| |discriminate]. inv_res. assumption.
  - cbn [args_fit] in *.
    match goal with H : _ && _ = true |- _ => apply andb_prop in H; destruct H as (X & Y) end.
    unfold fits in X, Y. rewrite N.ltb_lt in X, Y.
    match goal with H : pool_fits p0 |- _ => destruct H as (a1 & a2 & a3 & a4 & _ & _ & a7) end.
    repeat (split; [assumption|]). assumption.
Qed.

Lemma new_fits c b o k f p ps : ctx_epoch c < U64_BOUND -> ctx_balance c < U128_BOUND -> numerator f < U32_BOUND ->
  denominator f < U32_BOUND -> new c b o k f = Ok (p, ps) -> pool_fits p.
Proof.
  intros E B N D H. unfold new in H. inv_res. unfold pool_fits. pool_cbn.
  split; [assumption|]. split; [assumption|]. split; [lia|]. split; [lia|]. split; [assumption|]. split; [assumption|].
  split; [intros ? ? [=]|constructor].
Qed.
Lemma step_epoch self w e : w_epoch w <= w_epoch (fst (step self w e)).
Proof.
  destruct e as [who att lk rs m|a|n]; cbn [step fst w_epoch]; try lia.
  destruct (_ && _); [|apply N.le_refl]. destruct (exec _ _ _) as [[p' ps]|]; [|apply N.le_refl].
  destruct (_ <=? _); apply N.le_refl.
Qed.
Lemma final_epoch self evs : forall w, w_epoch w <= w_epoch (final self w evs).
Proof.
  induction evs as [|e evs IH]; intros w; [apply N.le_refl|]. cbn [final].
  eapply N.le_trans; [apply step_epoch|apply IH].
Qed.
Lemma step_fits self w e : w_epoch w < U64_BOUND -> pool_fits (w_pool w) -> pool_fits (w_pool (fst (step self w e))).
Proof.
  intros E F. destruct e as [who att lk rs m|a|n]; [|exact F..]. cbn [step].
  destruct (_ && _); [|exact F]. destruct (exec _ _ _) as [[p' ps]|] eqn:X; [|exact F].
  destruct (_ <=? _); [|exact F]. cbn [fst w_pool]. eapply exec_fits; [|exact F|exact X]. exact E.
Qed.
Lemma reach_fits self evs : forall w, w_epoch (final self w evs) < U64_BOUND -> pool_fits (w_pool w) ->
  pool_fits (w_pool (final self w evs)).
Proof.
  induction evs as [|e evs IH]; intros w E F; [exact F|]. cbn [final] in *. apply IH; [exact E|].
  apply step_fits; [|exact F]. pose proof (step_epoch self w e). pose proof (final_epoch self evs (fst (step self w e))). lia.
Qed.

Definition raw (l : list (account_id * account)) : umap string string :=
  map (fun e => (to_bytes c_bytes (fst e), to_bytes c_account (snd e))) l.
Lemma raw_len l : mlen (raw l) = N.of_nat (List.length l).
Proof. unfold mlen, raw. now rewrite map_length. Qed.
Lemma raw_keys l : mkeys (raw l) = map (to_bytes c_bytes) (map fst l).
Proof. unfold raw, mkeys. now rewrite !map_map. Qed.
Lemma insert_last (k v : string) : forall m : umap string string, ~ In k (mkeys m) -> minsert k v m = (m ++ [(k, v)])%list.
Proof.
  induction m as [|[a b] m IH]; intros n; [reflexivity|]. cbn [minsert app]. cbn [mkeys map fst] in n.
  rewrite keqb_neq by (intros ->; apply n; left; reflexivity). f_equal. apply IH. intros I. apply n. right. exact I.
Qed.
Lemma put_all_holds l : NoDup (map fst l) -> N.of_nat (List.length l) < U64_BOUND ->
  exists st h, put_all (mkHandle UnorderedMap "u" 0 0) (fun _ => None) l = Ok (st, h) /\
    holds (UnorderedMap, "u") (raw l) h st /\ st STATE_KEY = None.
Proof.
  induction l as [|e l IH] using rev_ind; intros D L.
  - eexists. eexists. split; [reflexivity|]. split; [|reflexivity].
    pose proof (fresh_inv [(UnorderedMap, "u")]) as F. exact (inv_holds _ _ _ F 0%nat _ _ eq_refl eq_refl).
  - rewrite map_app in D. cbn [map] in D. rewrite app_length in L. cbn [List.length] in L.
    pose proof (NoDup_remove_1 _ _ _ D) as D'. rewrite app_nil_r in D'.
    pose proof (NoDup_remove_2 _ _ _ D) as N'. rewrite app_nil_r in N'.
    destruct (IH D' ltac:(lia)) as (st & h & E & H & S). rewrite put_all_app, E. cbn [bind put_all].
    assert (LM : mlen (raw l) + 1 < U64_BOUND).
    { rewrite raw_len. lia. }
    destruct (um_insert_ok _ _ _ _ H LM (to_bytes c_bytes (fst e)) (to_bytes c_account (snd e))) as (st' & h' & -> & H' & O).
    cbn [bind]. exists st', h'. split; [reflexivity|]. split.
    + unfold raw. rewrite map_app. cbn [map]. fold (raw l). rewrite insert_last in H'; [exact H'|].
      rewrite raw_keys. intros I. apply in_map_iff in I. destruct I as (a & X & I). apply c_bytes_inj in X. subst a. contradiction.
    + rewrite O; [exact S|]. intros r s [<-|[<-|[<-|[]]]]; discriminate.
Qed.
Lemma read_raw l : (forall a x, In (a, x) l -> typed c_bytes a /\ typed c_account x) -> read_entries (raw l) = Some l.
Proof.
  induction l as [|[a x] l IH]; intros T; [reflexivity|]. cbn [raw map read_entries fst snd].
  destruct (T a x (or_introl eq_refl)) as (A & X). rewrite (reads_back _ good_bytes _ A), (reads_back _ good_account _ X).
  fold (raw l). rewrite IH; [reflexivity|]. intros b y I. apply T. right. exact I.
Qed.
Lemma pool_loads p : pool_fits p -> short_pool p -> N.of_nat (List.length (accounts p)) + 1 < U64_BOUND ->
  exists st, saved_pool p = Ok st /\ loaded_pool st = Some p.
Proof.
  intros (E & L & S & T & N & D & A & ND) (O & K & SN) LN. unfold saved_pool.
  destruct (put_all_holds (accounts p) ND ltac:(lia)) as (st & h & -> & H & SK). cbn [bind].
  eexists. split; [reflexivity|]. unfold loaded_pool. rewrite write_same.
  assert (HL : h = accounts_handle p).
  { destruct H as (X1 & X2 & _ & X3 & X4 & _). destruct h as [hk hp ha hb]. cbn in X1, X2, X3, X4. subst.
    unfold accounts_handle. f_equal; apply raw_len. }
  assert (TY : typed c_pool_fields (pool_fields p h)).
  { unfold pool_fields, c_pool_fields. subst h. cbn [typed c_pair fst snd].
    split; [cbn; unfold account_id in *; apply N.le_lt_trans with 64; [exact O|reflexivity]|].
    split; [cbn; unfold public_key in *; apply N.le_lt_trans with 65; [exact K|reflexivity]|].
    split; [exact E|]. split; [exact L|]. split; [exact S|]. split; [exact T|]. split; [split; [exact N|exact D]|].
    split; [|exact I]. split; [reflexivity|]. cbn [typed c_struct c_pair fst snd c_vector accounts_handle h_keys h_values].
    assert (G : typed c_u64 (N.of_nat (List.length (accounts p)))).
    { change (N.of_nat (List.length (accounts p)) < U64_BOUND). lia. }
    split; [reflexivity|]. split; (split; [exact G|reflexivity]). }
  rewrite (reads_back _ good_pool_fields _ TY). unfold pool_fields at 1. cbn [pool_of_fields snd].
  assert (HW : holds (UnorderedMap, "u") (raw (accounts p)) h (write STATE_KEY (to_bytes c_pool_fields (pool_fields p h)) st)).
  { eapply holds_ext; [|exact H]. intros r s I. apply write_other. destruct I as [<-|[<-|[<-|[]]]]; discriminate. }
  rewrite (um_entries_ok _ _ _ _ HW).
  - rewrite read_raw; [cbn [option_map pool_of_fields pool_fields fst]; now destruct p|].
    intros a x I. split.
    + cbn. pose proof (SN a (in_map fst _ _ I)). cbn in *. unfold account_id in *.
      eapply N.le_lt_trans; [eassumption|reflexivity].
    + apply (in_mget _ _ _ ND) in I. destruct (A _ _ I) as (X1 & X2 & X3). split; [exact X1|]. split; [exact X2|exact X3].
  - rewrite raw_len. exact LN.
Qed.
Lemma pool_survives self w0 evs :
  initial self w0 -> short_names w0 -> Forall short_event evs ->
  w_epoch (final self w0 evs) < 2 ^ 64 -> delegators (final self w0 evs) + 1 < 2 ^ 64 ->
  exists st, saved_pool (w_pool (final self w0 evs)) = Ok st /\ loaded_pool st = Some (w_pool (final self w0 evs)).
Proof.
  intros H SN SE E D. apply pool_loads; [|now apply short_reach|exact D].
  destruct H as (c & o & k & f & ps & H1 & H2 & H3 & H4 & H5 & H6 & H7 & H8).
  apply reach_fits; [exact E|]. eapply new_fits; [|exact H3|exact H4|exact H5|exact H6].
  rewrite <- H8. pose proof (final_epoch self evs w0). change (2 ^ 64) with U64_BOUND in E. lia.
Qed.
