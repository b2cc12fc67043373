(** Proofs about the multisig factory. *)
From Coq Require Import NArith List Bool String Ascii Permutation.
From Verif Require Import Prelude PreludeFacts MapFacts Messages MultisigFactoryModel MultisigFactorySpec.
From Verif Require Multisig2Model.
Import ListNotations.
Open Scope string_scope.
Open Scope N_scope.

Lemma final_app self w evs evs' : final self w (evs ++ evs') = final self (final self w evs) evs'.
Proof. revert w. induction evs as [|e evs IH]; intros w; cbn; auto. Qed.
Lemma log_app self w evs evs' : log self w (evs ++ evs') = (log self w evs ++ log self (final self w evs) evs')%list.
Proof. revert w. induction evs as [|e evs IH]; intros w; cbn; auto. now rewrite IH, app_assoc. Qed.
Lemma incomes_snoc evs ev :
  incomes (evs ++ [ev]) = incomes evs + match ev with EIncome x => x | _ => 0 end.
Proof.
  induction evs as [|e evs IH]; cbn [app incomes fold_right]; [destruct ev; lia|].
  fold (incomes (evs ++ [ev])). fold (incomes evs). rewrite IH. destruct e; lia.
Qed.
Lemma sum_app l l' : sum (l ++ l') = sum l + sum l'.
Proof. unfold sum. induction l as [|x l IH]; cbn [app fold_right]; auto. rewrite IH. lia. Qed.
Lemma sum_perm l l' : Permutation l l' -> sum l = sum l'.
Proof. unfold sum. induction 1; cbn [fold_right]; lia. Qed.

(** What was asked for. *)
Definition asked (self : account_id) (evs : list event) (m : account_id * promise) : Prop :=
  exists gas name, In (ECreateCall (fst m) (p_amount (snd m)) gas name (p_members (snd m)) (p_num_confirmations (snd m))) evs /\
    p_account (snd m) = name ++ "." ++ self /\ is_valid_account_id (p_account (snd m)) = true.
Definition made (self : account_id) (evs : list event) (o : obs) : Prop :=
  match o with
  | BCreated who a x m => exists p, asked self evs (who, p) /\ p_account p = a /\ p_amount p = x /\
      exists pr, MM.new a false (p_members p) (p_num_confirmations p) = Ok (m, pr)
  | BSent to _ => to = self
  | _ => True
  end.
Lemma asked_mono self evs ev m : asked self evs m -> asked self (evs ++ [ev]) m.
Proof. intros (g & n & I & R). exists g, n. split; auto. apply in_or_app. auto. Qed.
Lemma made_mono self evs ev o : made self evs o -> made self (evs ++ [ev]) o.
Proof. destruct o; cbn; auto. intros (p & A & R). eauto using asked_mono. Qed.

Record inv (self : account_id) (b0 : N) (evs : list event) (l : list obs) (w : world) : Prop := mkInv {
  i_msgs : Forall (asked self evs) (w_msgs w);
  i_made : Forall (made self evs) l;
  i_amounts : amounts (accepted l) = amounts (created l) + sum (sent_to self l) + amounts (pending w);
  i_balance : w_balance w = b0 + incomes evs + sum (sent_to self l)
}.

Lemma amounts_app l l' : amounts (l ++ l') = amounts l + amounts l'.
Proof. unfold amounts. now rewrite map_app, sum_app. Qed.
Lemma amounts_one a x : amounts [(a, x)] = x.
Proof. cbn. lia. Qed.
Lemma accepted_app l l' : accepted (l ++ l') = (accepted l ++ accepted l')%list.
Proof. apply flat_map_app. Qed.
Lemma created_app l l' : created (l ++ l') = (created l ++ created l')%list.
Proof. apply flat_map_app. Qed.
Lemma sent_app a l l' : sent_to a (l ++ l') = (sent_to a l ++ sent_to a l')%list.
Proof. apply flat_map_app. Qed.

Lemma inv_step self b0 evs l w ev : inv self b0 evs l w ->
  inv self b0 (evs ++ [ev]) (l ++ snd (step_obs self w ev)) (step self w ev).
Proof.
  intros [M0 MA0 A B]. unfold step.
  assert (M : Forall (asked self (evs ++ [ev])) (w_msgs w)) by (eapply Forall_impl; [|exact M0]; intros; now apply asked_mono).
  assert (MA : Forall (made self (evs ++ [ev])) l) by (eapply Forall_impl; [|exact MA0]; intros; now apply made_mono).
  clear M0 MA0. pose proof (incomes_snoc evs ev) as IS.
  assert (KEEP : forall o, Forall (made self (evs ++ [ev])) o -> accepted o = [] -> created o = [] ->
            sent_to self o = [] -> incomes (evs ++ [ev]) = incomes evs -> inv self b0 (evs ++ [ev]) (l ++ o) w).
  { intros o F E1 E2 E3 E4. constructor; auto.
    - apply Forall_app. auto.
    - rewrite accepted_app, created_app, sent_app, E1, E2, E3, !app_nil_r. auto.
    - rewrite sent_app, E3, app_nil_r, E4. auto. }
  destruct ev as [who attached gas name ms k|n gas|x|a]; cbn [step_obs]; rewrite ?N.add_0_r in IS.
  - destruct (create _ _ _ _) as [p|e] eqn:E; [|apply KEEP; auto; repeat constructor].
    unfold create in E. cbn [ctx_current ctx_prepaid_gas ctx_attached] in E. cbv zeta in E. inv_res.
    cbn [p_amount p_account].
    replace (attached <=? w_balance w + attached) with true by lia. cbn [fst snd].
    constructor; cbn [w_msgs w_balance].
    + apply Forall_app. split; auto. constructor; auto. exists gas, name. cbn [fst snd p_members p_num_confirmations p_account p_amount].
      split; [apply in_or_app; right; now left|]. auto.
    + apply Forall_app. split; auto. repeat constructor.
    + unfold pending. rewrite accepted_app, created_app, sent_app. cbn [w_msgs]. rewrite map_app, !amounts_app, sum_app.
      cbn [accepted created sent_to flat_map app map fst snd p_amount sum fold_right]. unfold pending in A.
      rewrite !amounts_one. change (amounts []) with 0. lia.
    + rewrite sent_app, sum_app. cbn [sent_to flat_map app sum fold_right]. lia.
  - destruct (nth_error (w_msgs w) n) as [[who p]|] eqn:E; [|apply KEEP; auto; constructor].
    apply drop_nth_perm in E. pose proof M as M1. rewrite E in M1. inversion M1 as [|? ? ASK F]; subst.
    assert (P : amounts (pending w) = p_amount p + amounts (map (fun m => (fst m, p_amount (snd m))) (drop_nth n (w_msgs w)))).
    { unfold pending, amounts. rewrite (sum_perm _ _ (Permutation_map snd (Permutation_map (fun m => (fst m, p_amount (snd m))) E))).
      reflexivity. }
    destruct (create_multisig self w p gas) as [m|] eqn:CM; cbn [fst snd]; constructor; cbn [w_msgs w_balance]; auto.
    + apply Forall_app. split; auto. constructor; auto. cbn [made]. exists p. repeat (split; auto).
      unfold create_multisig in CM. destruct (_ || _); [discriminate|].
      destruct (MM.new _ _ _ _) as [[s pr]|] eqn:N0; [|discriminate]. injection CM as ->. eauto.
    + rewrite accepted_app, created_app, sent_app, !amounts_app, sum_app.
      unfold pending. cbn [w_msgs accepted created sent_to flat_map app sum fold_right].
      change (amounts []) with 0. rewrite amounts_one. lia.
    + rewrite sent_app, sum_app. cbn [sent_to flat_map app sum fold_right]. lia.
    + apply Forall_app. split; auto. repeat constructor.
    + rewrite accepted_app, created_app, sent_app, !amounts_app, sum_app.
      unfold pending. cbn [w_msgs accepted created sent_to flat_map app]. rewrite String.eqb_refl.
      change (amounts []) with 0. cbn [app sum fold_right]. lia.
    + rewrite sent_app, sum_app. cbn [sent_to flat_map app]. rewrite String.eqb_refl. cbn [app sum fold_right]. lia.
  - cbn [fst snd]. rewrite app_nil_r. constructor; cbn [w_msgs w_balance]; auto. lia.
  - cbn [fst snd]. rewrite app_nil_r. constructor; cbn [w_msgs w_balance]; auto. lia.
Qed.

Lemma inv_history self w evs : w_msgs w = [] -> inv self (w_balance w) evs (log self w evs) (final self w evs).
Proof.
  intros ST. induction evs as [|ev evs IH] using rev_ind.
  - constructor; cbn; rewrite ?ST; auto; try constructor.
    + unfold pending. rewrite ST. reflexivity.
    + lia.
  - rewrite final_app, log_app. cbn [final log]. rewrite app_nil_r. now apply inv_step.
Qed.

Lemma created_or_kept self w evs : w_msgs w = [] ->
  amounts (accepted (log self w evs)) =
    amounts (created (log self w evs)) + sum (sent_to self (log self w evs)) + amounts (pending (final self w evs)) /\
  w_balance (final self w evs) = w_balance w + incomes evs + sum (sent_to self (log self w evs)).
Proof. intros ST. destruct (inv_history self w evs ST). auto. Qed.

Lemma never_refunds self w evs who : w_msgs w = [] -> who <> self -> sent_to who (log self w evs) = [].
Proof.
  intros ST N. pose proof (i_made _ _ _ _ _ (inv_history self w evs ST)) as M.
  induction (log self w evs) as [|o l IH]; auto. inversion M as [|? ? O M']; subst.
  unfold sent_to. cbn [flat_map]. fold (sent_to who l). rewrite (IH M'), app_nil_r.
  destruct o; auto. cbn [made] in O. subst. destruct (String.eqb_spec who self); [contradiction|auto].
Qed.

Lemma created_as_asked self w evs who a x m : w_msgs w = [] -> In (BCreated who a x m) (log self w evs) ->
  exists gas name ms k pr, In (ECreateCall who x gas name ms k) evs /\ a = name ++ "." ++ self /\
    is_valid_account_id a = true /\ MM.new a false ms k = Ok (m, pr).
Proof.
  intros ST I. pose proof (i_made _ _ _ _ _ (inv_history self w evs ST)) as M.
  rewrite Forall_forall in M. specialize (M _ I). cbn [made] in M.
  destruct M as (p & (gas & name & J & E & V) & <- & <- & pr & N0). cbn [fst snd] in *.
  exists gas, name, (p_members p), (p_num_confirmations p), pr. auto.
Qed.

Lemma parent_direct name self : has_dot name = false -> parent (name ++ "." ++ self) = self.
Proof.
  induction name as [|c name IH]; cbn [has_dot append parent]; auto.
  destruct (Ascii.eqb c "."); [discriminate|]. cbn [orb]. auto.
Qed.

Lemma mm_new_ok a ms k : k <= N.of_nat (List.length ms) -> exists m pr, MM.new a false ms k = Ok (m, pr).
Proof.
  intros LE. unfold MM.new. cbn [negb]. replace (k <=? N.of_nat (List.length ms)) with true by lia.
  cbn [require bind]. cbv zeta.
  destruct (fold_left _ _ _) as [s acts]. eauto.
Qed.

(** A creation with a plain name, no more confirmations than members, a free account and gas succeeds. *)
Lemma creation_succeeds self w evs who attached gas name ms k : w_msgs w = [] ->
  has_dot name = false -> is_valid_account_id (name ++ "." ++ self) = true -> CREATE_CALL_GAS <= gas ->
  k <= N.of_nat (List.length ms) -> smem (name ++ "." ++ self) (w_accounts (final self w evs)) = false ->
  exists m, In (BCreated who (name ++ "." ++ self) attached m)
    (log self w (evs ++ [ECreateCall who attached gas name ms k;
                         ECreate (List.length (w_msgs (final self w evs))) true])).
Proof.
  intros ST D V G K F. destruct (mm_new_ok (name ++ "." ++ self) ms k K) as (m & pr & N0).
  exists m. rewrite log_app. apply in_or_app. right. set (v := final self w evs) in *.
  pose proof (parent_direct _ self D) as PD.
  cbn [log]. unfold step. cbn [step_obs]. unfold create. cbn [ctx_current ctx_prepaid_gas ctx_attached]. cbv zeta.
  set (a := name ++ "." ++ self) in *. clearbody a v.
  rewrite V, (sub_chk_intro _ _ G). cbn [require bind p_amount p_account].
  replace (attached <=? w_balance v + attached) with true by lia. cbn [fst snd app w_msgs].
  right. rewrite app_nil_r. rewrite nth_error_app2 by apply le_n. rewrite PeanoNat.Nat.sub_diag. cbn [nth_error].
  unfold create_multisig. cbn [p_account p_members p_num_confirmations w_accounts].
  unfold account_id in *. rewrite F, PD, String.eqb_refl. cbn [orb negb]. rewrite N0. cbn [snd In p_amount p_account]. auto.
Qed.

(** Which calls are accepted, and what they send. *)
Lemma accepted_iff self w who attached gas name ms k :
  snd (step_obs self w (ECreateCall who attached gas name ms k)) = [BAccepted who (name ++ "." ++ self) attached] <->
  is_valid_account_id (name ++ "." ++ self) = true /\ 50 * 10 ^ 12 <= gas.
Proof.
  change (50 * 10 ^ 12) with CREATE_CALL_GAS.
  cbn [step_obs]. unfold create. cbn [ctx_current ctx_prepaid_gas ctx_attached]. cbv zeta.
  set (a := name ++ "." ++ self) in *. clearbody a.
  unfold require. destruct (is_valid_account_id a); cbn [bind snd].
  - unfold sub_chk. destruct (N.leb_spec CREATE_CALL_GAS gas) as [L|L]; cbn [bind p_amount p_account].
    + replace (attached <=? w_balance w + attached) with true by lia. cbn [snd]. tauto.
    + cbn [snd]. split; [discriminate|]. intros [_ H]. lia.
  - split; [discriminate|]. intros [H _]. discriminate.
Qed.
Lemma accepted_sends self w who attached gas name ms k :
  snd (step_obs self w (ECreateCall who attached gas name ms k)) = [BAccepted who (name ++ "." ++ self) attached] ->
  step self w (ECreateCall who attached gas name ms k) =
  mkWorld (w_balance w) (w_accounts w)
    (w_msgs w ++ [(who, mkPromise (name ++ "." ++ self) attached ms k (gas - 50 * 10 ^ 12))]).
Proof.
  intros A. apply accepted_iff in A. destruct A as [V G]. change (50 * 10 ^ 12) with CREATE_CALL_GAS in *.
  unfold step. cbn [step_obs]. unfold create. cbn [ctx_current ctx_prepaid_gas ctx_attached]. cbv zeta.
  set (a := name ++ "." ++ self) in *. clearbody a.
  rewrite V, (sub_chk_intro _ _ G). cbn [require bind p_amount p_account].
  replace (attached <=? w_balance w + attached) with true by lia. cbn [fst].
  replace (w_balance w + attached - attached) with (w_balance w) by lia. reflexivity.
Qed.
