(** Proofs about the voting contract. *)
From Coq Require Import NArith List Bool String Lia Permutation.
From Verif Require Import Prelude PreludeFacts VotingModel VotingSpec.
Import ListNotations.
Open Scope N_scope.

Notation sum_of m := (msum (fun s : N => s) m).

(** * Maps with the same entries *)
Lemma same_entries_perm {K V} `{EqKey K} (m m' : umap K V) :
  NoDup (mkeys m) -> NoDup (mkeys m') -> (forall k, mget k m = mget k m') -> Permutation m m'.
Proof.
  intros ND ND' E. apply NoDup_Permutation.
  - eapply NoDup_map_inv; exact ND.
  - eapply NoDup_map_inv; exact ND'.
  - intros [k v]. split; intros I; apply in_mget in I; auto; apply mget_in; congruence.
Qed.

Definition chosen (yes : account_id -> bool) (vs : validators) : validators :=
  filter (fun kv => yes (fst kv) && (0 <? snd kv)) vs.

Lemma mget_chosen yes vs a : NoDup (mkeys vs) ->
  mget a (chosen yes vs) =
  match mget a vs with
  | Some s => if yes a && (0 <? s) then Some s else None
  | None => None
  end.
Proof.
  unfold chosen. induction vs as [|[k s] vs IH]; cbn [mget filter fst snd mkeys map]; intros ND; auto.
  inversion ND; subst.
  destruct (keqb_spec a k) as [->|N].
  - destruct (yes k && (0 <? s)) eqn:E; cbn [mget]; [now rewrite keqb_refl|].
    rewrite IH by auto. apply mget_none_notin in H1. now rewrite H1.
  - destruct (yes k && (0 <? s)) eqn:E; cbn [mget]; [rewrite keqb_neq by auto|]; auto.
Qed.

Lemma mkeys_chosen_in yes vs a : In a (mkeys (chosen yes vs)) -> In a (mkeys vs).
Proof.
  unfold mkeys, chosen. intros I. apply in_map_iff in I. destruct I as (x & <- & I).
  apply filter_In in I. apply in_map. tauto.
Qed.

Lemma NoDup_chosen yes vs : NoDup (mkeys vs) -> NoDup (mkeys (chosen yes vs)).
Proof.
  unfold chosen. induction vs as [|[k s] vs IH]; cbn [filter fst snd mkeys map]; intros ND; auto.
  inversion ND; subst. destruct (yes k && (0 <? s)); cbn [map mkeys fst]; auto.
  constructor; auto. intros I. apply (mkeys_chosen_in yes) in I. auto.
Qed.

Lemma sum_chosen yes vs :
  sum_of (chosen yes vs) =
  fold_right (fun kv acc => (if yes (fst kv) then snd kv else 0) + acc) 0 vs.
Proof.
  unfold chosen, msum. induction vs as [|[k s] vs IH]; cbn [filter fold_right fst snd]; auto.
  destruct (yes k); cbn [andb]; [|rewrite IH; lia].
  destruct (N.ltb_spec 0 s); cbn [fold_right snd]; rewrite IH; lia.
Qed.

Lemma stake_for_le w yes : stake_for w yes <= total_stake w.
Proof.
  unfold stake_for, total_stake, msum. induction (w_validators w) as [|[k s] vs IH]; cbn [fold_right fst snd].
  - lia.
  - destruct (yes k); lia.
Qed.

Lemma stake_for_ext w yes yes' :
  (forall a, 0 < stake_of w a -> yes a = yes' a) -> NoDup (mkeys (w_validators w)) ->
  stake_for w yes = stake_for w yes'.
Proof.
  unfold stake_for, stake_of. induction (w_validators w) as [|[k s] vs IH];
    cbn [fold_right fst snd mget mkeys map]; intros E ND; auto.
  inversion ND; subst.
  rewrite IH; auto.
  - destruct (N.eq_dec s 0) as [->|P]; [destruct (yes k), (yes' k); reflexivity|].
    specialize (E k). rewrite keqb_refl in E. now rewrite E by lia.
  - intros a P. apply E. destruct (keqb_spec a k) as [->|]; auto.
    apply mget_none_notin in H1. rewrite H1 in P. lia.
Qed.

Lemma existsb_absent a (l : list account_id) : ~ In a l -> existsb (String.eqb a) l = false.
Proof. intros N. change (smem a l = false). now apply smem_false. Qed.

(** * Re-tallying *)
Definition stakes_of (c : ctx) (l : list account_id) : N :=
  fold_right (fun a acc => validator_stake c a + acc) 0 l.

Lemma retally_ok c old : forall acc total vs t,
  retally c old acc total = Ok (vs, t) ->
  t = total + stakes_of c (mkeys old) /\
  (NoDup (mkeys acc) -> NoDup (mkeys vs)) /\
  (NoDup (mkeys old) -> (forall a, In a (mkeys old) -> mget a acc = None) ->
   (forall a, mget a vs =
     if existsb (String.eqb a) (mkeys old)
     then (if 0 <? validator_stake c a then Some (validator_stake c a) else None)
     else mget a acc)).
Proof.
  induction old as [|[k v] old IH]; cbn [retally mkeys map fst stakes_of fold_right existsb].
  - intros acc total vs t E. inv_res. split; [lia|]. split; auto.
  - intros acc total vs t E. inv_res. apply IH in E. destruct E as (-> & ND & G).
    split; [unfold mkeys, stakes_of; lia|]. split.
    + intros D. apply ND. destruct (0 <? validator_stake c k); auto. now apply NoDup_minsert.
    + intros D F a. inversion D; subst. rewrite G; auto.
      * change (map fst old) with (mkeys old).
        destruct (String.eqb_spec a k) as [->|N]; cbn [orb].
        -- replace (existsb (String.eqb k) (mkeys old)) with false.
           2:{ symmetry. apply existsb_absent. auto. }
           destruct (0 <? validator_stake c k); [now rewrite mget_minsert_eq | apply F; cbn; auto].
        -- destruct (existsb (String.eqb a) (mkeys old)); auto.
           destruct (0 <? validator_stake c k); auto. now rewrite mget_minsert_neq.
      * intros x I. assert (x <> k) by (intros ->; auto).
        destruct (0 <? validator_stake c k); [rewrite mget_minsert_neq by auto|]; apply F; cbn; auto.
Qed.

Lemma retally_intro c old : forall acc total,
  total + stakes_of c (mkeys old) < U128_BOUND -> exists r, retally c old acc total = Ok r.
Proof.
  induction old as [|[k v] old IH]; cbn [retally mkeys map fst stakes_of fold_right]; intros acc total B; [eauto|].
  unfold add128. rewrite add_chk_intro; cbn [bind].
  - apply IH. unfold stakes_of, mkeys in *. lia.
  - unfold stakes_of, mkeys in *. lia.
Qed.

(** The stakes of distinct accounts add up to at most the total stake. *)
Lemma stakes_of_le c l : NoDup l -> NoDup (mkeys (ctx_validators c)) ->
  stakes_of c l <= validator_total_stake c.
Proof.
  unfold stakes_of, validator_total_stake, validator_stake.
  generalize (ctx_validators c) as vs. clear c.
  induction l as [|a l IH]; cbn [fold_right]; intros vs ND NV; [lia|].
  inversion ND; subst.
  specialize (IH (mremove a vs) H2 (NoDup_mremove a vs NV)).
  pose proof (msum_mremove (fun s => s) a vs) as S. cbn beta in S.
  assert (X : fold_right (fun x acc => match mget x (mremove a vs) with Some s => s | None => 0 end + acc) 0 l
            = fold_right (fun x acc => match mget x vs with Some s => s | None => 0 end + acc) 0 l).
  { clear -H1 NV. induction l as [|x l IH]; cbn [fold_right]; auto.
    rewrite IH by (cbn in H1; tauto). rewrite mget_mremove_neq; auto. intros ->. apply H1. cbn; auto. }
  rewrite X in IH. destruct (mget a vs); lia.
Qed.

(** * The invariant: the contract's data against the poll *)
Record inv (w : world) (yes : account_id -> bool) : Prop := {
  i_vals : validators_ok (w_validators w);
  i_nodup : NoDup (mkeys (votes (w_contract w)));
  i_sum : total_voted_stake (w_contract w) = sum_of (votes (w_contract w));
  i_pos : forall a v, mget a (votes (w_contract w)) = Some v -> 0 < v;
  i_dom : forall a, yes a = mmem a (votes (w_contract w));
  i_epoch : last_epoch_height (w_contract w) <= w_epoch w;
  i_now : result (w_contract w) = None -> last_epoch_height (w_contract w) = w_epoch w ->
          (forall a v, mget a (votes (w_contract w)) = Some v -> v = stake_of w a) /\
          decided w yes = false
}.

(** When the recorded votes are the current stakes, the tally is the stake of the yes voters. *)
Lemma tally w yes (m : umap account_id N) :
  NoDup (mkeys (w_validators w)) -> NoDup (mkeys m) ->
  (forall a, mget a m = if yes a && (0 <? stake_of w a) then Some (stake_of w a) else None) ->
  sum_of m = stake_for w yes.
Proof.
  intros NV NM E. unfold stake_for. rewrite <- sum_chosen.
  apply msum_perm. apply same_entries_perm; auto using NoDup_chosen.
  intros a. rewrite E, mget_chosen by auto. unfold stake_of.
  destruct (mget a (w_validators w)); auto. cbn. now rewrite andb_false_r.
Qed.

Lemma two_thirds v t : 2 * t < U128_BOUND -> (2 * t / 3 <? v) = (2 * t <? 3 * v).
Proof.
  intros _. pose proof (N.div_mod' (2 * t) 3) as A. pose proof (N.mod_lt (2 * t) 3 ltac:(discriminate)) as B.
  set (q := 2 * t / 3) in *. set (r := (2 * t) mod 3) in *. clearbody q r.
  destruct (N.ltb_spec q v), (N.ltb_spec (2 * t) (3 * v)); auto; exfalso; lia.
Qed.

Lemma check_result_eq w who att ts s :
  validators_ok (w_validators w) -> result s = None ->
  check_result (call_ctx w who att ts) s =
  Ok (if 2 * total_stake w <? 3 * total_voted_stake s
      then mkContract (votes s) (total_voted_stake s) (Some ts) (last_epoch_height s) else s).
Proof.
  intros [_ B] R. unfold check_result. rewrite R. cbn [require bind].
  unfold validator_total_stake, call_ctx; cbn [ctx_validators ctx_timestamp].
  unfold mul128. rewrite mul_chk_intro by auto. cbn [bind].
  rewrite div_chk_intro by lia. cbn [bind]. rewrite two_thirds by auto. unfold total_stake.
  destruct (_ <? _); auto.
Qed.

(** What a ping does to a contract that matches [yes]. *)
Definition survivors (w : world) (yes : account_id -> bool) : account_id -> bool :=
  fun a => yes a && (0 <? stake_of w a).

Lemma ping_spec w yes who att ts :
  inv w yes -> result (w_contract w) = None ->
  exists s, ping (call_ctx w who att ts) (w_contract w) = Ok s /\
    NoDup (mkeys (votes s)) /\
    (forall a, mget a (votes s) = if survivors w yes a then Some (stake_of w a) else None) /\
    total_voted_stake s = sum_of (votes s) /\
    total_voted_stake s = stake_for w (survivors w yes) /\
    last_epoch_height s = w_epoch w /\
    result s = if decided w (survivors w yes) then Some ts else None.
Proof.
  intros I R. destruct I as [[NV B] ND S P D LE NOW].
  assert (G0 : forall a, yes a = true -> exists v, mget a (votes (w_contract w)) = Some v /\ 0 < v).
  { intros a Y. rewrite D in Y. unfold mmem in Y. destruct (mget a (votes (w_contract w))) eqn:E; [|discriminate].
    eauto. }
  unfold ping. rewrite R. cbn [require bind]. cbn [call_ctx ctx_epoch].
  destruct (N.eqb_spec (w_epoch w) (last_epoch_height (w_contract w))) as [E|NE].
  - destruct (NOW R (eq_sym E)) as [V ND2]. eexists. split; [reflexivity|].
    assert (SV : forall a, survivors w yes a = yes a).
    { intros a. unfold survivors. destruct (yes a) eqn:Y; auto. cbn.
      destruct (G0 a Y) as (v & G & PV). apply V in G. subst. apply N.ltb_lt. auto. }
    assert (GG : forall a, mget a (votes (w_contract w)) = if survivors w yes a then Some (stake_of w a) else None).
    { intros a. rewrite SV, D. unfold mmem. destruct (mget a (votes (w_contract w))) eqn:G; auto.
      apply V in G. congruence. }
    assert (T : sum_of (votes (w_contract w)) = stake_for w (survivors w yes)).
    { apply tally; auto. intros a. rewrite GG. unfold survivors.
      destruct (yes a), (0 <? stake_of w a); reflexivity. }
    split; [auto|]. split; [auto|]. split; [auto|]. split; [lia|]. split; [auto|].
    rewrite R. unfold decided in *.
    rewrite (stake_for_ext w (survivors w yes) yes) by auto. now rewrite ND2.
  - pose proof (stakes_of_le (call_ctx w who att ts) (mkeys (votes (w_contract w))) ND NV) as LE2.
    destruct (retally_intro (call_ctx w who att ts) (votes (w_contract w)) [] 0) as [[vs t] RT].
    { unfold validator_total_stake in LE2. cbn [call_ctx ctx_validators] in LE2. lia. }
    rewrite RT. cbn [bind]. apply retally_ok in RT. destruct RT as (-> & NDv & G).
    specialize (NDv (NoDup_nil _)). specialize (G ND (fun _ _ => eq_refl)).
    assert (GG : forall a, mget a vs = if survivors w yes a then Some (stake_of w a) else None).
    { intros a. rewrite G. unfold survivors. rewrite D.
      change (existsb (String.eqb a)) with (smem a).
      change (validator_stake (call_ctx w who att ts) a) with (stake_of w a).
      unfold mmem. destruct (mget a (votes (w_contract w))) eqn:E.
      - assert (I : In a (mkeys (votes (w_contract w)))) by (apply in_mkeys; eauto).
        apply smem_in in I. rewrite I. reflexivity.
      - apply mget_none_notin, smem_false in E. rewrite E. reflexivity. }
    assert (SUM : 0 + stakes_of (call_ctx w who att ts) (mkeys (votes (w_contract w))) = sum_of vs).
    { rewrite (tally w (survivors w yes) vs); auto.
      2:{ intros a. rewrite GG. unfold survivors. destruct (yes a), (0 <? stake_of w a); reflexivity. }
      unfold stake_for. rewrite <- sum_chosen.
      (* the stakes of the old voters, those without stake included *)
      rewrite <- (msum_perm (fun s => s) vs (chosen (survivors w yes) (w_validators w))).
      2:{ apply same_entries_perm; auto using NoDup_chosen. intros a.
          rewrite GG, mget_chosen by auto. unfold survivors, stake_of.
          destruct (mget a (w_validators w)); [|cbn; now rewrite andb_false_r].
          destruct (yes a), (0 <? n); reflexivity. }
      clear -GG NDv D ND.
      assert (X : forall l (m : umap account_id N), NoDup l -> NoDup (mkeys m) ->
        (forall a, mget a m = if existsb (String.eqb a) l && (0 <? stake_of w a) then Some (stake_of w a) else None) ->
        stakes_of (call_ctx w who att ts) l = sum_of m).
      { induction l as [|a l IH]; intros m NL NM E; cbn [stakes_of fold_right].
        - destruct m as [|[k v] m]; auto. specialize (E k). cbn [mget existsb andb] in E. rewrite keqb_refl in E. discriminate.
        - inversion NL; subst.
          change (validator_stake (call_ctx w who att ts) a) with (stake_of w a).
          change (fold_right _ 0 l) with (stakes_of (call_ctx w who att ts) l).
          rewrite (IH (mremove a m)); [|auto|now apply NoDup_mremove|].
          + pose proof (msum_mremove (fun s => s) a m) as S. cbn beta in S.
            rewrite E in S. cbn [existsb] in S. rewrite String.eqb_refl in S. cbn [orb andb] in S.
            destruct (N.ltb_spec 0 (stake_of w a)); cbv iota in S; unfold umap, account_id in *; lia.
          + intros x. rewrite mget_mremove by auto. rewrite E. cbn [existsb].
            change (keqb x a) with (String.eqb x a).
            destruct (String.eqb_spec x a) as [->|N]; cbn [orb]; auto.
            replace (existsb (String.eqb a) l) with false; auto.
            symmetry. apply existsb_absent. auto. }
      cbn [N.add]. apply X; auto. intros a. rewrite GG. unfold survivors. rewrite D.
      change (existsb (String.eqb a)) with (smem a).
      assert (mmem a (votes (w_contract w)) = smem a (mkeys (votes (w_contract w)))) as ->; auto.
      unfold mmem. destruct (mget a (votes (w_contract w))) eqn:E.
      + symmetry. apply smem_in, in_mkeys. eauto.
      + symmetry. apply smem_false. now apply mget_none_notin. }
    rewrite SUM. rewrite check_result_eq; cbn [result total_voted_stake]; auto; [|now split].
    assert (T : sum_of vs = stake_for w (survivors w yes)).
    { apply tally; auto. intros a. rewrite GG. unfold survivors.
      destruct (yes a), (0 <? stake_of w a); reflexivity. }
    cbn [bind]. eexists. split; [reflexivity|].
    unfold decided. rewrite <- T. cbn [votes total_voted_stake result last_epoch_height].
    destruct (2 * total_stake w <? 3 * sum_of vs);
      cbn [votes total_voted_stake result last_epoch_height]; repeat split; auto.
Qed.

(** Acceptance of a call, told through the poll. *)
Definition acceptable (w : world) (yes : account_id -> bool) (who : account_id) (att : N) (m : call) : bool :=
  (att =? 0) &&
  match result (w_contract w) with
  | Some _ => false
  | None => match m with
            | Ping | Vote false => true
            | Vote true => decided w (survivors w yes) || (0 <? stake_of w who)
            end
  end.

Lemma decided_ext w yes yes' : (forall a, 0 < stake_of w a -> yes a = yes' a) ->
  NoDup (mkeys (w_validators w)) -> decided w yes = decided w yes'.
Proof. intros E ND. unfold decided. now rewrite (stake_for_ext w yes yes'). Qed.

(** The caller's new entry. *)
Definition after_vote (w : world) (yes : account_id -> bool) (who : account_id) (v : bool) :=
  fun a => if String.eqb a who then v else survivors w yes a.

(** The whole contract refines the poll, one call at a time. *)
Lemma exec_spec w yes who att ts m :
  inv w yes ->
  let ev := EvCall who att ts m in
  accepted w ev = acceptable w yes who att m /\
  inv (step w ev) (poll_step w ev yes) /\
  (acceptable w yes who att m = true ->
   result (w_contract (step w ev)) = (if decided w (poll_step w ev yes) then Some ts else None) /\
   last_epoch_height (w_contract (step w ev)) = w_epoch w /\
   (forall a, mget a (votes (w_contract (step w ev))) =
      if poll_step w ev yes a then Some (stake_of w a) else None) /\
   total_voted_stake (w_contract (step w ev)) = stake_for w (poll_step w ev yes)).
Proof.
  intros I ev. pose proof I as I0. destruct I as [[NV B] ND S P D LE NOW].
  assert (R : forall r, exec (call_ctx w who att ts) (w_contract w) m = r ->
    (acceptable w yes who att m = false -> is_ok r = false) /\
    (acceptable w yes who att m = true -> exists s Y, r = Ok s /\
       Y = (match m with Ping => survivors w yes
            | Vote v => if decided w (survivors w yes) then survivors w yes else after_vote w yes who v end) /\
       NoDup (mkeys (votes s)) /\
       (forall a, mget a (votes s) = if Y a then Some (stake_of w a) else None) /\
       (forall a, Y a = true -> 0 < stake_of w a) /\
       total_voted_stake s = sum_of (votes s) /\
       last_epoch_height s = w_epoch w /\
       result s = if decided w Y then Some ts else None)).
  { intros r E. subst r. unfold acceptable, exec. cbn [call_ctx ctx_attached].
    destruct (N.eqb_spec att 0) as [->|NA]; cbn [andb require bind]; [|split; [reflexivity|discriminate]].
    destruct (result (w_contract w)) eqn:RES.
    { split; [intros _|discriminate]. destruct m; cbn [exec vote ping]; unfold vote, ping; rewrite RES; reflexivity. }
    destruct (ping_spec w yes who 0 ts I0 RES) as (s & PS & NS & GS & SS & TS & LS & RS).
    assert (SP : forall a, survivors w yes a = true -> 0 < stake_of w a).
    { unfold survivors. intros a E. apply andb_true_iff in E. destruct E as [_ E]. now apply N.ltb_lt in E. }
    destruct m as [|v].
    - rewrite PS. cbn. split; [discriminate|]. intros _.
      exists s, (survivors w yes). repeat split; auto.
    - unfold vote. rewrite PS. cbn [bind]. rewrite RS.
      destruct (decided w (survivors w yes)) eqn:DE.
      { cbn. split; [destruct v; discriminate|]. intros _. exists s, (survivors w yes).
        rewrite DE. repeat split; auto. }
      change (ctx_predecessor (call_ctx w who 0 ts)) with who.
      change (validator_stake (call_ctx w who 0 ts) who) with (stake_of w who).
      set (old := match mget who (votes s) with Some x => x | None => 0 end).
      assert (OLD : old <= total_voted_stake s).
      { unfold old. destruct (mget who (votes s)) eqn:G; [|lia]. rewrite SS.
        apply (msum_ge (fun s => s) who n). auto. }
      assert (TB : total_voted_stake s <= total_stake w) by (rewrite TS; apply stake_for_le).
      assert (SB : stake_of w who <= total_stake w).
      { unfold stake_of, total_stake. destruct (mget who (w_validators w)) eqn:G; [|lia].
        apply (msum_ge (fun s => s) who n). auto. }
      unfold total_stake in *.
      pose proof (msum_mremove (fun s => s) who (votes s)) as SR. cbn beta in SR. fold old in SR.
      destruct v; cbn [orb].
      + destruct (N.ltb_spec 0 (stake_of w who)) as [PO|ZE]; cbn [require bind];
          [|split; [reflexivity|discriminate]].
        split; [discriminate|]. intros _.
        rewrite (proj2 (N.leb_le _ _) OLD). cbn [require bind].
        unfold add128. rewrite add_chk_intro by lia. cbn [bind].
        rewrite sub_chk_intro by lia. cbn [bind].
        apply N.ltb_lt in PO. rewrite PO. apply N.ltb_lt in PO.

        rewrite check_result_eq; cbn [result total_voted_stake]; auto; [|now split].
        assert (NM : NoDup (mkeys (minsert who (stake_of w who) (mremove who (votes s)))))
          by (apply NoDup_minsert, NoDup_mremove; auto).
        assert (GM : forall a, mget a (minsert who (stake_of w who) (mremove who (votes s))) =
                     if after_vote w yes who true a then Some (stake_of w a) else None).
        { intros a. unfold after_vote. rewrite mget_minsert, mget_mremove by auto.
          change (keqb a who) with (String.eqb a who).
          destruct (String.eqb_spec a who) as [->|N]; auto. }
        assert (YP : forall a, after_vote w yes who true a = true -> 0 < stake_of w a).
        { unfold after_vote. intros a. destruct (String.eqb_spec a who) as [->|]; auto. }
        assert (SM : sum_of (minsert who (stake_of w who) (mremove who (votes s)))
                     = total_voted_stake s + stake_of w who - old).
        { pose proof (msum_minsert (fun s => s) who (stake_of w who) (mremove who (votes s))) as X.
          cbn beta in X. rewrite mget_mremove_eq in X by auto. lia. }
        assert (TM : sum_of (minsert who (stake_of w who) (mremove who (votes s)))
                     = stake_for w (after_vote w yes who true)).
        { apply tally; auto. intros a. rewrite GM. specialize (YP a).
          destruct (after_vote w yes who true a); auto. cbn.
          specialize (YP eq_refl). apply N.ltb_lt in YP. now rewrite YP. }
        eexists _, _. split; [reflexivity|]. split; [reflexivity|].
        unfold decided. rewrite <- TM, <- SM. unfold total_stake.
        destruct (2 * sum_of (w_validators w) <? _);
          cbn [votes total_voted_stake result last_epoch_height]; repeat split; auto.
      + split; [discriminate|]. intros _. cbn [bind].
        rewrite (proj2 (N.leb_le _ _) OLD). cbn [require bind].
        unfold add128. rewrite add_chk_intro by lia. cbn [bind].
        rewrite sub_chk_intro by lia. cbn [bind N.ltb N.compare].
        assert (GM : forall a, mget a (mremove who (votes s)) =
                     if after_vote w yes who false a then Some (stake_of w a) else None).
        { intros a. unfold after_vote. rewrite mget_mremove by auto.
          change (keqb a who) with (String.eqb a who).
          destruct (String.eqb_spec a who) as [->|N]; auto. }
        assert (YP : forall a, after_vote w yes who false a = true -> 0 < stake_of w a).
        { unfold after_vote. intros a. destruct (String.eqb_spec a who) as [->|]; [discriminate|]; auto. }
        assert (TM : sum_of (mremove who (votes s)) = stake_for w (after_vote w yes who false)).
        { apply tally; [auto|now apply NoDup_mremove|]. intros a. rewrite GM. specialize (YP a).
          destruct (after_vote w yes who false a); auto. cbn.
          specialize (YP eq_refl). apply N.ltb_lt in YP. now rewrite YP. }
        assert (DF : decided w (after_vote w yes who false) = false).
        { unfold decided in *. rewrite <- TM. apply N.ltb_ge in DE. apply N.ltb_ge.
          rewrite <- TS in DE. lia. }
        eexists _, _. split; [reflexivity|]. split; [reflexivity|].
        rewrite DF. cbn [votes total_voted_stake result last_epoch_height].
        split; [now apply NoDup_mremove|]. repeat split; auto. lia. }
  specialize (R _ eq_refl). destruct R as [RF RT].
  cbn [accepted ev step poll_step]. subst ev. cbn [step poll_step accepted].
  destruct (acceptable w yes who att m) eqn:A.
  - destruct (RT eq_refl) as (s & Y & E & EY & NS & GS & YP & SS & LS & RS). clear RF RT.
    rewrite E. cbn [is_ok].
    assert (EY' : (match m with
         | Ping => fun a : account_id => yes a && (0 <? stake_of w a)
         | Vote v => if decided w (fun a : account_id => yes a && (0 <? stake_of w a))
             then fun a : account_id => yes a && (0 <? stake_of w a)
             else fun a : account_id => if (a =? who)%string then v else yes a && (0 <? stake_of w a)
         end) = Y) by (subst Y; reflexivity).
    rewrite EY'. clear EY'.
    assert (TM : sum_of (votes s) = stake_for w Y).
    { apply tally; auto. intros a. rewrite GS. specialize (YP a). destruct (Y a); auto. cbn.
      specialize (YP eq_refl). apply N.ltb_lt in YP. now rewrite YP. }
    split; [auto|]. split.
    + split; cbn [w_contract w_epoch w_validators]; auto.
      * now split.
      * intros a v G. rewrite GS in G. destruct (Y a) eqn:EYa; [|discriminate].
        injection G as <-. auto.
      * intros a. unfold mmem. rewrite GS. destruct (Y a); auto.
      * lia.
      * intros RN _. split.
        -- intros a v G. rewrite GS in G. destruct (Y a); [|discriminate]. injection G as <-. reflexivity.
        -- change (decided w Y = false). rewrite RS in RN. destruct (decided w Y); [discriminate|auto].
    + intros _. cbn [w_contract]. repeat split; auto. lia.
  - specialize (RF eq_refl). clear RT.
    destruct (exec _ _ _) eqn:E; [discriminate|]. cbn [is_ok]. split; [auto|].
    split; [auto|discriminate].
Qed.

Lemma epoch_inv w yes n vs : inv w yes -> validators_ok vs -> inv (step w (EvEpoch n vs)) yes.
Proof.
  intros [V ND S P D LE NOW] OK. split; cbn [step w_contract w_epoch w_validators]; auto; [lia|].
  intros _ E. lia.
Qed.

Lemma step_inv w yes ev : inv w yes -> event_ok ev -> inv (step w ev) (poll_step w ev yes).
Proof.
  destruct ev as [who att ts m|n vs]; intros I OK.
  - apply (exec_spec w yes who att ts m I).
  - now apply epoch_inv.
Qed.

Lemma initial_inv w : initial w -> inv w nobody.
Proof.
  intros [E OK]. unfold new in E. cbn in E. injection E as E.
  split; rewrite <- ?E; cbn [votes total_voted_stake result last_epoch_height mkeys map mget]; auto.
  - constructor.
  - discriminate.
  - apply N.le_0_l.
  - intros _ _. split; [discriminate|]. unfold decided.
    replace (stake_for w nobody) with 0; [apply N.ltb_ge; lia|].
    unfold stake_for, nobody. clear OK. induction (w_validators w) as [|x l IH]; [reflexivity|].
    cbn [fold_right]. rewrite <- IH. reflexivity.
Qed.

Lemma final_inv evs : forall w yes, inv w yes -> Forall event_ok evs ->
  inv (final w evs) (poll w evs yes).
Proof.
  induction evs as [|ev evs IH]; cbn [final poll]; intros w yes I OK; auto.
  inversion OK; subst. apply IH; auto. now apply step_inv.
Qed.

Lemma reach_inv w evs : initial w -> Forall event_ok evs -> inv (final w evs) (poll w evs nobody).
Proof. intros I OK. apply final_inv; auto. now apply initial_inv. Qed.

Lemma final_app w a b : final w (a ++ b) = final (final w a) b.
Proof. revert w. induction a; cbn [final app]; auto. Qed.
Lemma poll_app w a b yes : poll w (a ++ b) yes = poll (final w a) b (poll w a yes).
Proof. revert w yes. induction a; cbn [final poll app]; auto. Qed.

(** * Finality *)
Lemma ended_rejects w who att ts m t :
  result (w_contract w) = Some t -> accepted w (EvCall who att ts m) = false.
Proof.
  intros R. cbn [accepted]. unfold exec. cbn [call_ctx ctx_attached].
  destruct (att =? 0); cbn; auto. destruct m; unfold vote, ping; rewrite R; reflexivity.
Qed.

Lemma rejected_step w who att ts m : accepted w (EvCall who att ts m) = false ->
  step w (EvCall who att ts m) = w.
Proof. cbn [accepted step]. destruct (exec _ _ _); cbn; [discriminate|auto]. Qed.

Lemma ended_stays w evs t : result (w_contract w) = Some t -> w_contract (final w evs) = w_contract w.
Proof.
  revert w. induction evs as [|ev evs IH]; cbn [final]; intros w R; auto.
  rewrite IH.
  - destruct ev; auto. now rewrite rejected_step by (eapply ended_rejects; eauto).
  - destruct ev; auto. now rewrite rejected_step by (eapply ended_rejects; eauto).
Qed.

(** * Iteration order *)
Lemma NoDup_perm (m m' : umap account_id N) : Permutation m m' -> NoDup (mkeys m) -> NoDup (mkeys m').
Proof. intros P. apply Permutation_NoDup. now apply Permutation_map. Qed.

Lemma stakes_of_perm c l l' : Permutation l l' -> stakes_of c l = stakes_of c l'.
Proof. unfold stakes_of. induction 1; cbn [fold_right]; lia. Qed.

Lemma retally_total c old : forall acc total,
  is_ok (retally c old acc total) = true ->
  old = [] \/ total + stakes_of c (mkeys old) < U128_BOUND.
Proof.
  induction old as [|[k v] old IH]; cbn [retally mkeys map fst stakes_of fold_right]; intros acc total E; auto.
  right. destruct (add128 total (validator_stake c k)) eqn:A; cbn [bind] in E; [|discriminate].
  inv_res. apply IH in E. change (map fst old) with (mkeys old).
  change (fold_right _ 0 (mkeys old)) with (stakes_of c (mkeys old)).
  destruct E as [->|E]; cbn [mkeys map stakes_of fold_right] in *; lia.
Qed.

Definition res_rel {A} (R : A -> A -> Prop) (x y : res A) : Prop :=
  match x, y with Ok a, Ok b => R a b | Panic _, Panic _ => True | _, _ => False end.

Lemma retally_order c old old' :
  Permutation old old' -> NoDup (mkeys old) ->
  res_rel (fun p q => Permutation (fst p) (fst q) /\ snd p = snd q)
    (retally c old [] 0) (retally c old' [] 0).
Proof.
  intros P ND. pose proof (NoDup_perm _ _ P ND) as ND'.
  assert (PK : Permutation (mkeys old) (mkeys old')) by now apply Permutation_map.
  assert (OK : is_ok (retally c old [] 0) = is_ok (retally c old' [] 0)).
  { apply eq_true_iff_eq. split; intros E; apply retally_total in E; destruct E as [E|E].
    - subst. apply Permutation_nil in P. subst. reflexivity.
    - rewrite (stakes_of_perm c _ _ PK) in E. destruct (retally_intro c old' [] 0 E) as [r ->]. reflexivity.
    - subst. apply Permutation_sym, Permutation_nil in P. subst. reflexivity.
    - rewrite <- (stakes_of_perm c _ _ PK) in E. destruct (retally_intro c old [] 0 E) as [r ->]. reflexivity. }
  destruct (retally c old [] 0) as [[vs t]|] eqn:E, (retally c old' [] 0) as [[vs' t']|] eqn:E';
    cbn in OK |- *; try discriminate; auto.
  apply retally_ok in E, E'. destruct E as (-> & N & G), E' as (-> & N' & G').
  split.
  - apply same_entries_perm; [apply N; constructor|apply N'; constructor|].
    intros k. rewrite G, G' by auto.
    replace (existsb (String.eqb k) (mkeys old')) with (existsb (String.eqb k) (mkeys old)); auto.
    apply eq_true_iff_eq. change (existsb (String.eqb k)) with (smem k). rewrite !smem_in.
    split; intros I; [exact (Permutation_in k PK I) | exact (Permutation_in k (Permutation_sym PK) I)].
  - now rewrite (stakes_of_perm c _ _ PK).
Qed.

Lemma check_result_order c s s' : same_up_to_order s s' ->
  res_rel same_up_to_order (check_result c s) (check_result c s').
Proof.
  intros (P & T & R & L). unfold check_result. rewrite R, T.
  destruct (require _ _); cbn [bind]; [|exact Logic.I].
  destruct (mul128 _ _); cbn [bind]; [|exact Logic.I].
  destruct (div_chk _ _); cbn [bind]; [|exact Logic.I].
  destruct (_ <? _); cbn; repeat split; cbn; auto.
Qed.

Lemma ping_order c s s' : NoDup (mkeys (votes s)) -> same_up_to_order s s' ->
  res_rel same_up_to_order (ping c s) (ping c s').
Proof.
  intros ND SM. pose proof SM as (P & T & R & L). unfold ping. rewrite R, L.
  destruct (require _ _); cbn [bind]; [|exact Logic.I].
  destruct (_ =? _); cbn; auto.
  pose proof (retally_order c _ _ P ND) as X.
  destruct (retally c (votes s) [] 0) as [[vs t]|], (retally c (votes s') [] 0) as [[vs' t']|];
    cbn in X |- *; try contradiction; auto.
  destruct X as [PV ->].
  pose proof (check_result_order c (mkContract vs t' (result s') (last_epoch_height s'))
                                   (mkContract vs' t' (result s') (last_epoch_height s'))) as Y.
  specialize (Y ltac:(repeat split; cbn; auto)).
  destruct (check_result c (mkContract vs _ _ _)), (check_result c (mkContract vs' _ _ _));
    cbn in Y |- *; try contradiction; auto.
  destruct Y as (A & B & C & D). repeat split; cbn; auto.
Qed.

Lemma ping_nodup c s s' : NoDup (mkeys (votes s)) -> ping c s = Ok s' -> NoDup (mkeys (votes s')).
Proof.
  intros ND. unfold ping. destruct (require _ _); cbn [bind]; [|discriminate].
  destruct (_ =? _); [intros E; injection E as <-; auto|].
  destruct (retally _ _ _ _) as [[vs t]|] eqn:RT; cbn [bind]; [|discriminate].
  apply retally_ok in RT. destruct RT as (_ & N & _). specialize (N (NoDup_nil _)).
  destruct (check_result _ _) as [r|] eqn:CR; cbn [bind]; [|discriminate].
  intros E. injection E as <-. cbn [votes].
  unfold check_result in CR. inv_res. destruct (_ <? _); inv_res; auto.
Qed.

Lemma exec_order c s s' m : NoDup (mkeys (votes s)) -> same_up_to_order s s' ->
  res_rel same_up_to_order (exec c s m) (exec c s' m).
Proof.
  intros ND SM. unfold exec. destruct (require _ _); cbn [bind]; [|exact Logic.I].
  pose proof (ping_order c s s' ND SM) as X.
  destruct m as [|v]; auto. unfold vote.
  destruct (ping c s) as [t|] eqn:PT, (ping c s') as [t'|]; cbn in X |- *; try contradiction; auto.
  pose proof (ping_nodup _ _ _ ND PT) as NT. clear PT ND SM.
  pose proof X as (P & T & R & L). rewrite R.
  destruct (result t'); [exact X|].
  destruct (if v then _ else _) as [st|]; cbn [bind]; [|exact Logic.I].
  rewrite <- (mget_perm _ _ (ctx_predecessor c) NT P), T.
  destruct (require _ _); cbn [bind]; [|exact Logic.I].
  destruct (add128 _ _); cbn [bind]; [|exact Logic.I].
  destruct (sub_chk _ _); cbn [bind]; [|exact Logic.I].
  assert (NT' := NoDup_perm _ _ P NT).
  assert (PR : Permutation (mremove (ctx_predecessor c) (votes t)) (mremove (ctx_predecessor c) (votes t'))).
  { apply same_entries_perm; [now apply NoDup_mremove|now apply NoDup_mremove|].
    intros k. rewrite !mget_mremove by auto. now rewrite (mget_perm _ _ k NT P). }
  assert (PI : Permutation (minsert (ctx_predecessor c) st (mremove (ctx_predecessor c) (votes t)))
                           (minsert (ctx_predecessor c) st (mremove (ctx_predecessor c) (votes t')))).
  { apply same_entries_perm; [now apply NoDup_minsert, NoDup_mremove|now apply NoDup_minsert, NoDup_mremove|].
    intros k. rewrite !mget_minsert. rewrite (mget_perm _ _ k (NoDup_mremove _ _ NT) PR). auto. }
  destruct (0 <? st); [apply check_result_order|]; repeat split; cbn; auto.
Qed.
