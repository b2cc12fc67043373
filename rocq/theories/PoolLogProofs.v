(** Proofs about the log of a staking pool. *)
From Coq Require Import NArith List Bool String Ascii Decimal DecimalString.
From Coq Require Import Lia.
From Verif Require Import Prelude PreludeFacts MapFacts StakingPoolModel StakingPoolSpec StakingPoolProofs StakingPoolHistory PoolLogModel PoolLogSpec.
From Verif Require JsonModel JsonProofs.
Import ListNotations.
Open Scope string_scope.
Open Scope N_scope.

(** * Without the lines, the code is the same *)
Definition drop_l {A} (r : res (A * list string)) : res A :=
  match r with Ok (a, _) => Ok a | Panic e => Panic e end.
Ltac walk :=
  repeat match goal with
         | |- context [bind ?x _] => destruct x as [?|?] eqn:?; cbn [bind drop_l]; try reflexivity
         | |- context [let '(_, _) := ?x in _] => destruct x
         end.
Lemma deposit_same c p : drop_l (internal_deposit_l c p) = internal_deposit c p.
Proof. unfold internal_deposit_l, internal_deposit. walk; reflexivity. Qed.
Lemma withdraw_same c p x : drop_l (internal_withdraw_l c p x) = internal_withdraw c p x.
Proof. unfold internal_withdraw_l, internal_withdraw. walk; reflexivity. Qed.
Lemma stake_same c p x : drop_l (internal_stake_l c p x) = internal_stake c p x.
Proof. unfold internal_stake_l, internal_stake. cbv zeta. walk; reflexivity. Qed.
Lemma unstake_same c p x : drop_l (inner_unstake_l c p x) = inner_unstake c p x.
Proof. unfold inner_unstake_l, inner_unstake. cbv zeta. walk; reflexivity. Qed.
Lemma ping_same c p : drop_l (internal_ping_l c p) = internal_ping c p.
Proof.
  unfold internal_ping_l, internal_ping. cbv zeta. destruct (_ =? _); [reflexivity|].
  destruct (add128 _ _); cbn [bind drop_l]; [|reflexivity].
  destruct (sub_chk _ _) as [tb|]; cbn [bind drop_l]; [|reflexivity].
  destruct (require _ _); cbn [bind drop_l]; [|reflexivity].
  destruct (sub_chk _ _) as [tr|]; cbn [bind drop_l]; [|reflexivity].
  destruct (0 <? tr); [|reflexivity].
  destruct (fraction_multiply _ _); cbn [bind drop_l]; [|reflexivity].
  destruct (sub_chk _ _); cbn [bind drop_l]; [|reflexivity].
  destruct (add128 _ _); cbn [bind drop_l]; [|reflexivity].
  destruct (num_shares_from_staked_amount_rounded_down _ _) as [ns|]; cbn [bind drop_l]; [|reflexivity].
  destruct (0 <? ns).
  - destruct (add128 _ _); cbn [bind drop_l]; [|reflexivity].
    destruct (add128 _ _); cbn [bind drop_l]; [|reflexivity].
    destruct (add128 _ _); reflexivity.
  - cbn [bind]. destruct (add128 _ _); reflexivity.
Qed.

Ltac same L :=
  match goal with
  | |- context [bind (?f ?a) _] => rewrite <- L; destruct (f a)
  end.
Lemma exec_same c p m : drop_l (exec_l c p m) = exec c p m.
Proof.
  unfold exec_l, exec, ping, deposit, deposit_and_stake, withdraw_all, withdraw, stake_all, stake, unstake_all, unstake,
    update_staking_key, update_reward_fee_fraction, pause_staking, resume_staking.
  destruct (require (args_fit m) _); cbn [bind drop_l]; [|reflexivity].
  destruct (require (payable m || _) _); cbn [bind drop_l]; [|reflexivity].
  destruct m;
    repeat (match goal with
            | |- context [internal_ping c p] => rewrite <- (ping_same c p)
            | |- context [internal_ping_l c p] => destruct (internal_ping_l c p) as [[[? ?] ?]|]; cbn [bind drop_l]; [|reflexivity]
            | |- context [internal_deposit c ?q] => rewrite <- (deposit_same c q)
            | |- context [internal_deposit_l c ?q] => destruct (internal_deposit_l c q) as [[[? ?] ?]|]; cbn [bind drop_l]; [|reflexivity]
            | |- context [internal_withdraw c ?q ?x] => rewrite <- (withdraw_same c q x)
            | |- context [internal_withdraw_l c ?q ?x] => destruct (internal_withdraw_l c q x) as [[[? ?] ?]|]; cbn [bind drop_l]; [|reflexivity]
            | |- context [internal_stake c ?q ?x] => rewrite <- (stake_same c q x)
            | |- context [internal_stake_l c ?q ?x] => destruct (internal_stake_l c q x) as [[? ?]|]; cbn [bind drop_l]; [|reflexivity]
            | |- context [inner_unstake c ?q ?x] => rewrite <- (unstake_same c q x)
            | |- context [inner_unstake_l c ?q ?x] => destruct (inner_unstake_l c q x) as [[? ?]|]; cbn [bind drop_l]; [|reflexivity]
            | |- context [bind ?x _] => destruct x as [?|?]; cbn [bind drop_l]; [|reflexivity]
            | |- context [let '(_, _) := ?x in _] => destruct x
            end); try reflexivity.
Qed.

(** * The lines can be read in one way only *)
Fixpoint digits_only (s : string) : bool :=
  match s with "" => true | String c r => JsonModel.is_digit c && digits_only r end.
Lemma string_of_uint_digits u : digits_only (NilEmpty.string_of_uint u) = true.
Proof. induction u; cbn; auto. Qed.
Lemma dec_digits n : digits_only (dec n) = true.
Proof. apply string_of_uint_digits. Qed.
Lemma dec_inj n m : dec n = dec m -> n = m.
Proof.
  intros E. unfold dec in E. pose proof (JsonProofs.of_decimal_decimal n) as A.
  rewrite E, JsonProofs.of_decimal_decimal in A. congruence.
Qed.
Lemma word_split a b r r' : has_space a = false -> has_space b = false ->
  a ++ String " " r = b ++ String " " r' -> a = b /\ r = r'.
Proof.
  revert b. induction a as [|c a IH]; intros [|d b] A B E; cbn in *.
  - now injection E.
  - injection E as <- E. discriminate B.
  - injection E as -> E. discriminate A.
  - apply orb_false_iff in A, B. injection E as <- E. destruct (IH b) as [-> ->]; tauto.
Qed.
Lemma digits_split a b c d r r' : digits_only a = true -> digits_only b = true ->
  JsonModel.is_digit c = false -> JsonModel.is_digit d = false ->
  a ++ String c r = b ++ String d r' -> a = b /\ String c r = String d r'.
Proof.
  intros A B C D. revert b B. induction a as [|x a IH]; intros [|y b] B E; cbn in *.
  - auto.
  - injection E as -> E. rewrite C in B. discriminate.
  - injection E as <- E. rewrite D in A. discriminate.
  - injection E as <- E. apply andb_true_iff in A, B. destruct (IH (proj2 A) b) as [-> ->]; tauto.
Qed.
Lemma dec_split n m c d r r' : JsonModel.is_digit c = false -> JsonModel.is_digit d = false ->
  dec n ++ String c r = dec m ++ String d r' -> n = m /\ String c r = String d r'.
Proof.
  intros C D E. destruct (digits_split _ _ _ _ _ _ (dec_digits n) (dec_digits m) C D E) as [E1 E2].
  split; auto. now apply dec_inj.
Qed.

Ltac strip :=
  repeat match goal with
         | E : String _ _ = String _ _ |- _ => first [discriminate E | injection E as E]
         | E : (_ ++ _)%string = (_ ++ _)%string |- _ => cbn [append] in E
         end.
Ltac take_dec E :=
  apply dec_split in E; [|reflexivity|reflexivity]; destruct E as [? E]; subst.
Ltac at_words E :=
  cbn [append] in E;
  try discriminate E;
  injection E as E;
  try (apply word_split in E; [|assumption|assumption]; destruct E as [<- E]);
  try discriminate E;
  repeat first [apply dec_inj in E; subst; reflexivity | take_dec E | injection E as E].
Lemma says_inj s f f' : says s f -> says s f' -> f = f'.
Proof.
  intros S S'. destruct S; remember (_ ++ _)%string as l eqn:E in S'; destruct S'; try (at_words E; fail).
  all: at_words E; reflexivity.
Qed.

(** * The lines tell the books *)
Record books (owner : account_id) (n : notes) (p : pool) : Prop := {
  bk_owner : owner_id p = owner;
  bk_nodup : NoDup (mkeys (accounts p));
  bk_unstaked : forall a, n_unstaked n a = unstaked (internal_get_account p a);
  bk_shares_of : forall a, n_shares_of n a = stake_shares (internal_get_account p a);
  bk_staked : n_staked n = total_staked_balance p;
  bk_shares : n_shares n = total_stake_shares p;
  bk_fee : n_fee n = 0;
  bk_epoch : n_epoch n <= last_epoch_height p
}.

Definition told (owner : account_id) (p : pool) (l : list string) (p' : pool) (i o : account_id -> N) : Prop :=
  exists fs, Forall2 says l fs /\
    forall n, books owner n p ->
      exists n', note_facts owner n fs = Some n' /\ books owner n' p' /\
        (forall a, n_in n' a = n_in n a + i a) /\ (forall a, n_out n' a = n_out n a + o a).

Lemma note_facts_app owner n fs gs :
  note_facts owner n (fs ++ gs) = match note_facts owner n fs with Some n' => note_facts owner n' gs | None => None end.
Proof.
  revert n. induction fs as [|f fs IH]; intros n; cbn; auto. destruct (note_fact owner n f); auto.
Qed.
Lemma told_trans owner p l p1 i o l' p2 i' o' :
  told owner p l p1 i o -> told owner p1 l' p2 i' o' ->
  told owner p (l ++ l') p2 (fun a => i a + i' a) (fun a => o a + o' a).
Proof.
  intros (fs & S & T) (fs' & S' & T'). exists (fs ++ fs')%list. split; [now apply Forall2_app|].
  intros n B. destruct (T n B) as (n1 & E & B1 & I & O). destruct (T' n1 B1) as (n2 & E' & B2 & I' & O').
  exists n2. rewrite note_facts_app, E. split; [exact E'|]. split; [exact B2|].
  split; intros a; [rewrite I', I|rewrite O', O]; lia.
Qed.
Lemma told_more owner p l p' i o i' o' :
  told owner p l p' i o -> (forall a, i a = i' a) -> (forall a, o a = o' a) -> told owner p l p' i' o'.
Proof.
  intros (fs & S & T) EI EO. exists fs. split; auto. intros n B. destruct (T n B) as (n1 & E & B1 & I & O).
  exists n1. do 2 (split; auto). split; intros a; [rewrite <- EI|rewrite <- EO]; auto.
Qed.
Definition none : account_id -> N := fun _ => 0.
Definition only (u : account_id) (x : N) : account_id -> N := fun a => if String.eqb u a then x else 0.
Lemma told_nil owner p p' :
  accounts p' = accounts p -> owner_id p' = owner_id p -> total_staked_balance p' = total_staked_balance p ->
  total_stake_shares p' = total_stake_shares p -> last_epoch_height p <= last_epoch_height p' ->
  told owner p [] p' none none.
Proof.
  intros A O T S E. exists []. split; [constructor|]. intros n [B1 B2 B3 B4 B5 B6 B7 B8]. exists n.
  split; [reflexivity|]. unfold none. split; [|split; intros; lia].
  constructor; unfold internal_get_account in *; rewrite ?A; auto; try congruence. lia.
Qed.

Lemma get_save p a acc b : NoDup (mkeys (accounts p)) ->
  unstaked (acct_of (accounts (internal_save_account p a acc)) b) =
    (if String.eqb b a then unstaked acc else unstaked (acct_of (accounts p) b)) /\
  stake_shares (acct_of (accounts (internal_save_account p a acc)) b) =
    (if String.eqb b a then stake_shares acc else stake_shares (acct_of (accounts p) b)).
Proof.
  intros ND. rewrite save_account_eq. cbn [accounts set_accounts].
  now rewrite acct_of_save_unstaked, acct_of_save_shares.
Qed.
Lemma nodup_save p a acc : NoDup (mkeys (accounts p)) -> NoDup (mkeys (accounts (internal_save_account p a acc))).
Proof.
  intros ND. rewrite save_account_eq. cbn [accounts set_accounts]. unfold save_accounts.
  destruct (nonzero acc); [now apply NoDup_minsert|now apply NoDup_mremove].
Qed.
Lemma save_rest p a acc :
  let p' := internal_save_account p a acc in
  owner_id p' = owner_id p /\ total_staked_balance p' = total_staked_balance p /\
  total_stake_shares p' = total_stake_shares p /\ last_epoch_height p' = last_epoch_height p.
Proof. cbv zeta. rewrite save_account_eq. now destruct p. Qed.

Lemma books_save owner n p a acc n' p' :
  books owner n p -> accounts p' = accounts (internal_save_account p a acc) -> owner_id p' = owner_id p ->
  last_epoch_height p <= last_epoch_height p' ->
  (forall b, n_unstaked n' b = put (n_unstaked n) a (unstaked acc) b) ->
  (forall b, n_shares_of n' b = put (n_shares_of n) a (stake_shares acc) b) ->
  n_staked n' = total_staked_balance p' -> n_shares n' = total_stake_shares p' -> n_fee n' = 0 ->
  n_epoch n' <= last_epoch_height p' ->
  books owner n' p'.
Proof.
  intros [B1 B2 B3 B4 B5 B6 B7 B8] A O E U S T TS F EP. constructor; auto.
  - congruence.
  - rewrite A. now apply nodup_save.
  - intros b. rewrite get_account_eq, A, U, (proj1 (get_save p _ _ b B2)). unfold put. now rewrite B3.
  - intros b. rewrite get_account_eq, A, S, (proj2 (get_save p _ _ b B2)). unfold put. now rewrite B4.
Qed.
Lemma put_same f a b : put f a (f a) b = f b.
Proof. unfold put. destruct (String.eqb_spec b a); congruence. Qed.
Lemma put_only f a x b : put f a (f a + x) b = f b + only a x b.
Proof. unfold put, only. rewrite (String.eqb_sym b). destruct (String.eqb_spec a b); subst; lia. Qed.

Ltac saved :=
  match goal with
  | |- context [internal_save_account ?p ?a ?acc] =>
      let H := fresh in pose proof (save_rest p a acc) as H; cbv zeta in H;
      destruct H as (HSO & HST & HSS & HSE)
  end.
Lemma deposit_told c p p' x l : has_space (ctx_predecessor c) = false ->
  internal_deposit_l c p = Ok (p', x, l) ->
  x = ctx_attached c /\ last_epoch_height p' = last_epoch_height p /\ owner_id p' = owner_id p /\
  told (owner_id p) p l p' (only (ctx_predecessor c) (ctx_attached c)) none.
Proof.
  intros HV H. unfold internal_deposit_l in H. inv_res. saved.
  split; [reflexivity|]. split; [exact HSE|]. split; [exact HSO|].
  eexists. split; [constructor; [now apply say_deposit|constructor]|].
  intros n B. destruct (B) as [B1 B2 B3 B4 B5 B6 B7 B8]. cbn [note_facts note_fact].
  rewrite B3, N.eqb_refl. eexists. split; [reflexivity|]. unfold none.
  split; [|split; intros b; cbn; [apply put_only|lia]].
  eapply books_save; [exact B|reflexivity|..]; cbn; rewrite ?HSO, ?HST, ?HSS, ?HSE; auto using N.le_refl.
  intros b. now rewrite <- B4, put_same.
Qed.
Lemma withdraw_told c p p' x ps l : has_space (ctx_predecessor c) = false ->
  internal_withdraw_l c p x = Ok (p', ps, l) ->
  ps = [PTransfer (ctx_predecessor c) x] /\ last_epoch_height p' = last_epoch_height p /\ owner_id p' = owner_id p /\
  told (owner_id p) p l p' none (only (ctx_predecessor c) x).
Proof.
  intros HV H. unfold internal_withdraw_l in H. inv_res. saved.
  split; [reflexivity|]. split; [exact HSE|]. split; [exact HSO|].
  eexists. split; [constructor; [now apply say_withdraw|constructor]|].
  intros n B. destruct (B) as [B1 B2 B3 B4 B5 B6 B7 B8]. cbn [note_facts note_fact].
  rewrite B3. rewrite (proj2 (N.eqb_eq _ _)) by lia. eexists. split; [reflexivity|]. unfold none.
  split; [|split; intros b; cbn; [lia|apply put_only]].
  eapply books_save; [exact B|reflexivity|..]; cbn; rewrite ?HSO, ?HST, ?HSS, ?HSE; auto using N.le_refl.
  intros b. now rewrite <- B4, put_same.
Qed.
Lemma stake_told c p p' x l : has_space (ctx_predecessor c) = false ->
  internal_stake_l c p x = Ok (p', l) ->
  last_epoch_height p' = last_epoch_height p /\ owner_id p' = owner_id p /\ told (owner_id p) p l p' none none.
Proof.
  intros HV H. unfold internal_stake_l in H. inv_res. saved.
  split; [exact HSE|]. split; [exact HSO|].
  eexists. split; [constructor; [now apply say_stake|constructor; [now apply say_totals|constructor]]|].
  intros n B. destruct (B) as [B1 B2 B3 B4 B5 B6 B7 B8]. cbn [note_facts note_fact].
  rewrite B3, B4. rewrite (proj2 (N.eqb_eq _ _)) by lia. rewrite N.eqb_refl. cbn [andb note_facts note_fact].
  cbn [n_shares]. rewrite (proj2 (N.eqb_eq _ _)) by (cbn; rewrite HSS; lia).
  eexists. split; [reflexivity|]. unfold none.
  split; [|split; intros b; cbn; lia].
  eapply books_save; [exact B|reflexivity|..]; cbn; rewrite ?HSO, ?HST, ?HSS, ?HSE; auto using N.le_refl.
  now rewrite B6.
Qed.
Lemma unstake_told c p p' x l : has_space (ctx_predecessor c) = false ->
  inner_unstake_l c p x = Ok (p', l) ->
  last_epoch_height p' = last_epoch_height p /\ owner_id p' = owner_id p /\ told (owner_id p) p l p' none none.
Proof.
  intros HV H. unfold inner_unstake_l in H. inv_res. saved.
  split; [exact HSE|]. split; [exact HSO|].
  eexists. split; [constructor; [now apply say_unstake|constructor; [now apply say_totals|constructor]]|].
  cbn [total_staked_balance total_stake_shares set_total_shares set_total_staked] in *. rewrite HSS in *.
  intros n B. destruct (B) as [B1 B2 B3 B4 B5 B6 B7 B8]. cbn [note_facts note_fact].
  rewrite B3, B4, B6. rewrite N.eqb_refl, (proj2 (N.eqb_eq _ _)) by lia.
  rewrite (proj2 (N.leb_le _ _)) by assumption. cbn [andb note_facts note_fact].
  cbn [n_shares]. rewrite N.eqb_refl.
  eexists. split; [reflexivity|]. unfold none.
  split; [|split; intros b; cbn; lia].
  eapply books_save; [exact B|reflexivity|..]; cbn; rewrite ?HSO, ?HST, ?HSS, ?HSE; auto using N.le_refl.
Qed.
Lemma ping_told c p p' need l : last_epoch_height p <= ctx_epoch c ->
  internal_ping_l c p = Ok (p', need, l) ->
  last_epoch_height p' = ctx_epoch c /\ owner_id p' = owner_id p /\ told (owner_id p) p l p' none none.
Proof.
  intros HE H. unfold internal_ping_l in H. destruct (N.eqb_spec (last_epoch_height p) (ctx_epoch c)) as [E|NE].
  { inv_res. split; auto. split; auto. apply told_nil; auto. apply N.le_refl. }
  apply bind_ok in H. destruct H as (lb & E1 & H). apply bind_ok in H. destruct H as (tb & E2 & H).
  apply bind_ok in H. destruct H as (? & _ & H). apply bind_ok in H. destruct H as (tr & _ & H).
  apply bind_ok in H. destruct H as ([p1 l1] & E3 & H). inversion H; subst; clear H.
  destruct (0 <? tr) eqn:TR.
  2: { inv_res. split; [reflexivity|]. split; [reflexivity|]. apply told_nil; auto. }
  apply N.ltb_lt in TR.
  apply bind_ok in E3. destruct E3 as (fee & _ & H). apply bind_ok in H. destruct H as (rem & F & H).
  apply sub_chk_ok in F. destruct F as [F1 F2].
  apply bind_ok in H. destruct H as (t & T & H). cbv zeta in H.
  set (q := set_total_staked t (set_last_epoch (ctx_epoch c) p)) in *.
  assert (QA : accounts q = accounts p) by reflexivity.
  assert (QO : owner_id q = owner_id p) by reflexivity.
  assert (QT : total_staked_balance q = total_staked_balance p + rem) by (inv_res; reflexivity).
  assert (QS : total_stake_shares q = total_stake_shares p) by reflexivity.
  assert (QE : last_epoch_height q = ctx_epoch c) by reflexivity.
  clearbody q. clear T.
  apply bind_ok in H. destruct H as (k & _ & H).
  assert (BQ : forall n, books (owner_id p) n p ->
                 books (owner_id p) (mkNotes (n_unstaked n) (n_shares_of n) (n_in n) (n_out n)
                                       (total_staked_balance q) (n_shares n) (n_epoch n) 0) q).
  { intros n [B1 B2 B3 B4 B5 B6 B7 B8]. constructor; cbn; try congruence; try lia.
    - intros b. rewrite get_account_eq, QA. apply B3.
    - intros b. rewrite get_account_eq, QA. apply B4. }
  destruct (0 <? k) eqn:K; inv_res.
  - saved. apply N.ltb_lt in K.
    cbn [owner_id last_epoch_height set_last_total set_total_staked set_total_shares total_staked_balance total_stake_shares] in *.
    rewrite ?HSS, ?HST in *.
    split; [congruence|]. split; [congruence|].
    eexists. split; [constructor; [now apply say_reward|constructor; [now apply say_fee|constructor]]|].
    intros n B. apply BQ in B as B'. destruct (B) as [B1 B2 B3 B4 B5 B6 B7 B8]. cbn [note_facts note_fact].
    rewrite B5, B6.
    rewrite (proj2 (N.ltb_lt (n_epoch n) _)) by lia. rewrite (proj2 (N.ltb_lt 0 tr)) by lia.
    rewrite (proj2 (N.eqb_eq _ _)) by lia. rewrite (proj2 (N.leb_le _ _)) by lia. cbn [andb note_facts note_fact].
    cbn [n_fee]. rewrite (proj2 (N.ltb_lt 0 k)) by lia. rewrite (proj2 (N.eqb_eq _ _)) by lia. cbn [andb note_facts].
    eexists. split; [reflexivity|]. unfold none. cbn [n_shares_of n_unstaked n_in n_out n_staked n_shares].
    split; [|split; intros b; cbn; lia].
    eapply books_save; [exact B'|reflexivity|..];
      cbn [n_unstaked n_shares_of n_staked n_shares n_fee n_epoch unstaked stake_shares owner_id last_epoch_height
           set_last_total set_total_staked set_total_shares total_staked_balance total_stake_shares]; try congruence; try lia.
    + intros b. rewrite get_account_eq, QA. change (acct_of (accounts p)) with (internal_get_account p).
      rewrite <- B3. symmetry. apply put_same.
    + intros b. rewrite get_account_eq, QA, QO. change (acct_of (accounts p)) with (internal_get_account p).
      now rewrite <- B4.
  - cbn [owner_id last_epoch_height set_last_total set_total_staked set_total_shares total_staked_balance total_stake_shares] in *.
    split; [congruence|]. split; [congruence|].
    eexists. split; [constructor; [now apply say_reward|constructor]|].
    intros n B. apply BQ in B as B'. destruct (B) as [B1 B2 B3 B4 B5 B6 B7 B8]. cbn [note_facts note_fact].
    rewrite B5, B6.
    rewrite (proj2 (N.ltb_lt (n_epoch n) _)) by lia. rewrite (proj2 (N.ltb_lt 0 tr)) by lia.
    rewrite (proj2 (N.eqb_eq _ _)) by lia. rewrite (proj2 (N.leb_le _ _)) by lia. cbn [andb note_facts note_fact].
    eexists. split; [reflexivity|]. unfold none. cbn [n_shares_of n_unstaked n_in n_out n_staked n_shares].
    split; [|split; intros b; cbn; lia].
    destruct B' as [C1 C2 C3 C4 C5 C6 C7 C8]. constructor; auto; cbn; try lia.
Qed.

Lemma told_set owner p l p1 p2 i o : told owner p l p1 i o ->
  accounts p2 = accounts p1 -> owner_id p2 = owner_id p1 -> total_staked_balance p2 = total_staked_balance p1 ->
  total_stake_shares p2 = total_stake_shares p1 -> last_epoch_height p2 = last_epoch_height p1 ->
  told owner p l p2 i o.
Proof.
  intros (fs & S & T) A O TS SS E. exists fs. split; auto. intros n B.
  destruct (T n B) as (n1 & N1 & [B1 B2 B3 B4 B5 B6 B7 B8] & I). exists n1. split; auto. split; auto.
  constructor; try congruence.
  - intros b. rewrite get_account_eq, A. apply B3.
  - intros b. rewrite get_account_eq, A. apply B4.
Qed.
Ltac pinged HE H :=
  let p1 := fresh "q" in let need := fresh "need" in let l1 := fresh "l1" in let E := fresh "E" in
  apply bind_ok in H; destruct H as ([[p1 need] l1] & E & H); apply ping_told in E; [|exact HE];
  destruct E as (PE & PO & PT).
Lemma sent_transfer a u x r :
  sent_to a (PTransfer u x :: r) = if String.eqb u a then x + sent_to a r else sent_to a r.
Proof. reflexivity. Qed.
Lemma exec_told c p m p' ps l :
  has_space (ctx_predecessor c) = false -> last_epoch_height p <= ctx_epoch c ->
  exec_l c p m = Ok (p', ps, l) ->
  last_epoch_height p' <= ctx_epoch c /\
  told (owner_id p) p l p' (only (ctx_predecessor c) (ctx_attached c)) (fun a => sent_to a ps).
Proof.
  intros HV HE H. unfold exec_l in H.
  apply bind_ok in H. destruct H as (? & _ & H). apply bind_ok in H. destruct H as (? & HP & H).
  apply require_ok in HP.
  assert (NP : payable m = false -> forall a, none a = only (ctx_predecessor c) (ctx_attached c) a).
  { intros NP. rewrite NP in HP. cbn in HP. apply N.eqb_eq in HP. intros a. unfold none, only. rewrite HP.
    now destruct (String.eqb _ _). }
  destruct m; cbn [payable] in NP;
    repeat match type of NP with true = false -> _ => clear NP | false = false -> _ => specialize (NP eq_refl) end.
  - pinged HE H. inv_res. split; [lia|]. eapply told_more; [exact PT|exact NP|].
    intros a. now rewrite sent_restake_if.
  - pinged HE H. apply bind_ok in H. destruct H as ([[q1 x1] l'] & E & H). apply deposit_told in E; [|exact HV].
    destruct E as (_ & DE & DO & DT). rewrite PO in DT. inv_res. split; [lia|].
    eapply told_more; [exact (told_trans _ _ _ _ _ _ _ _ _ _ PT DT)|..]; intros a; unfold none; [lia|].
    now rewrite sent_restake_if.
  - pinged HE H. apply bind_ok in H. destruct H as ([[q1 x1] l'] & E & H). apply deposit_told in E; [|exact HV].
    destruct E as (_ & DE & DO & DT). rewrite PO in DT.
    apply bind_ok in H. destruct H as ([q2 l''] & E & H). apply stake_told in E; [|exact HV].
    destruct E as (SE & SO & ST). rewrite DO, PO in ST. inv_res. split; [lia|].
    eapply told_more; [exact (told_trans _ _ _ _ _ _ _ _ _ _ PT (told_trans _ _ _ _ _ _ _ _ _ _ DT ST))|..];
      intros a; unfold none; [lia|]. now rewrite sent_restake.
  - pinged HE H. apply bind_ok in H. destruct H as ([[q1 x1] l'] & E & H). apply withdraw_told in E; [|exact HV].
    destruct E as (-> & DE & DO & DT). rewrite PO in DT. inv_res. split; [lia|].
    eapply told_more; [exact (told_trans _ _ _ _ _ _ _ _ _ _ PT DT)|..]; intros a; [rewrite <- NP; reflexivity|].
    rewrite sent_transfer, sent_restake_if. unfold none, only. destruct (String.eqb _ _); lia.
  - pinged HE H. apply bind_ok in H. destruct H as ([[q1 x1] l'] & E & H). apply withdraw_told in E; [|exact HV].
    destruct E as (-> & DE & DO & DT). rewrite PO in DT. inv_res. split; [lia|].
    eapply told_more; [exact (told_trans _ _ _ _ _ _ _ _ _ _ PT DT)|..]; intros a; [rewrite <- NP; reflexivity|].
    rewrite sent_transfer, sent_restake_if. unfold none, only. destruct (String.eqb _ _); lia.
  - pinged HE H. apply bind_ok in H. destruct H as ([q2 l''] & E & H). apply stake_told in E; [|exact HV].
    destruct E as (SE & SO & ST). rewrite PO in ST. inv_res. split; [lia|].
    eapply told_more; [exact (told_trans _ _ _ _ _ _ _ _ _ _ PT ST)|..];
      intros a; [rewrite <- NP; reflexivity|]. now rewrite sent_restake.
  - pinged HE H. apply bind_ok in H. destruct H as ([q2 l''] & E & H). apply stake_told in E; [|exact HV].
    destruct E as (SE & SO & ST). rewrite PO in ST. inv_res. split; [lia|].
    eapply told_more; [exact (told_trans _ _ _ _ _ _ _ _ _ _ PT ST)|..];
      intros a; [rewrite <- NP; reflexivity|]. now rewrite sent_restake.
  - pinged HE H. apply bind_ok in H. destruct H as (y & _ & H).
    apply bind_ok in H. destruct H as ([q2 l''] & E & H). apply unstake_told in E; [|exact HV].
    destruct E as (SE & SO & ST). rewrite PO in ST. inv_res. split; [lia|].
    eapply told_more; [exact (told_trans _ _ _ _ _ _ _ _ _ _ PT ST)|..];
      intros a; [rewrite <- NP; reflexivity|]. now rewrite sent_restake.
  - pinged HE H. apply bind_ok in H. destruct H as ([q2 l''] & E & H). apply unstake_told in E; [|exact HV].
    destruct E as (SE & SO & ST). rewrite PO in ST. inv_res. split; [lia|].
    eapply told_more; [exact (told_trans _ _ _ _ _ _ _ _ _ _ PT ST)|..];
      intros a; [rewrite <- NP; reflexivity|]. now rewrite sent_restake.
  - apply bind_ok in H. destruct H as ([q2 ps2] & E & H). unfold on_stake_action in E.
    apply bind_ok in E. destruct E as (? & _ & E). destruct (ctx_results c) as [|s [|? ?]]; try discriminate.
    inv_res. split; [exact HE|]. eapply told_more; [apply told_nil; auto; apply N.le_refl|exact NP|].
    intros a. destruct (_ && _); reflexivity.
  - apply bind_ok in H. destruct H as (? & _ & H). pinged HE H. inv_res. split; [cbn; lia|].
    eapply told_more; [eapply told_set; [exact PT|reflexivity..]|exact NP|]. intros a. now rewrite sent_restake.
  - apply bind_ok in H. destruct H as (? & _ & H). apply bind_ok in H. destruct H as (? & _ & H).
    pinged HE H. inv_res. split; [cbn; lia|].
    eapply told_more; [eapply told_set; [exact PT|reflexivity..]|exact NP|]. intros a. now rewrite sent_restake_if.
  - apply bind_ok in H. destruct H as ([q2 ps2] & E & H). unfold vote in E.
    apply bind_ok in E. destruct E as (? & _ & E). inv_res. split; [exact HE|].
    eapply told_more; [apply told_nil; auto; apply N.le_refl|exact NP|]. reflexivity.
  - apply bind_ok in H. destruct H as (? & _ & H). apply bind_ok in H. destruct H as (? & _ & H).
    pinged HE H. inv_res. split; [cbn; lia|].
    eapply told_more; [eapply told_set; [exact PT|reflexivity..]|exact NP|]. reflexivity.
  - apply bind_ok in H. destruct H as (? & _ & H). apply bind_ok in H. destruct H as (? & _ & H).
    pinged HE H. inv_res. split; [cbn; lia|].
    eapply told_more; [eapply told_set; [exact PT|reflexivity..]|exact NP|]. intros a. now rewrite sent_restake.
Qed.

(** * Histories *)
Lemma valid_chars_no_space s : forall b, valid_chars b s = true -> has_space s = false.
Proof.
  induction s as [|c s IH]; intros b H; cbn in *; auto.
  destruct (Ascii.eqb_spec c " "%char) as [->|N]; [discriminate H|].
  destruct (char_kind c) as [k|]; [|discriminate]. destruct (k && b); [discriminate|]. cbn. eauto.
Qed.
Lemma valid_no_space a : is_valid_account_id a = true -> has_space a = false.
Proof.
  unfold is_valid_account_id. intros H. apply andb_true_iff in H. destruct H as [_ H].
  eapply valid_chars_no_space, H.
Qed.
Lemma step_told self w e : last_epoch_height (w_pool w) <= w_epoch w ->
  match e with EvCall who _ _ _ _ => is_valid_account_id who = true | _ => True end ->
  let '(w', o) := step self w e in
  last_epoch_height (w_pool w') <= w_epoch w' /\
  told (owner_id (w_pool w)) (w_pool w) (step_log self w e) (w_pool w')
    (fun a => event_in a e o) (fun a => event_out a o).
Proof.
  intros HE HV. destruct (step self w e) as [w' o] eqn:S. unfold step_log. rewrite S. cbn [snd].
  destruct e as [who attached locked results m|x|x].
  - destruct o as [ps|].
    + apply step_call_some in S. destruct S as (_ & _ & p' & X & _ & ->). cbn [w_pool w_epoch].
      unfold call_ctx in X.
      destruct (exec_l _ (w_pool w) m) as [[[p1 ps1] l]|] eqn:L.
      * pose proof (exec_same (mkCtx self who attached (w_total w - locked + attached) locked (w_epoch w) results) (w_pool w) m) as Q.
        rewrite L in Q. cbn in Q. rewrite <- Q in X. inversion X; subst.
        apply exec_told in L; [|now apply valid_no_space|exact HE]. exact L.
      * pose proof (exec_same (mkCtx self who attached (w_total w - locked + attached) locked (w_epoch w) results) (w_pool w) m) as Q.
        rewrite L in Q. cbn in Q. rewrite <- Q in X. discriminate.
    + apply step_call_none in S. subst w'. split; auto. eapply told_more; [apply told_nil; auto; apply N.le_refl|..]; reflexivity.
  - cbn in S. inversion S; subst; clear S. split; auto.
    eapply told_more; [apply told_nil; auto; apply N.le_refl|..]; reflexivity.
  - cbn in S. inversion S; subst; clear S. cbn. split; [lia|].
    eapply told_more; [apply told_nil; auto; apply N.le_refl|..]; reflexivity.
Qed.
Lemma told_owner owner p l p' i o n : told owner p l p' i o -> books owner n p -> owner_id p' = owner.
Proof. intros (fs & _ & T) B. destruct (T n B) as (n' & _ & B' & _). apply B'. Qed.

Lemma history_told self evs : forall w n, last_epoch_height (w_pool w) <= w_epoch w ->
  books (owner_id (w_pool w)) n (w_pool w) -> callers_valid evs ->
  told (owner_id (w_pool w)) (w_pool w) (pool_log self w evs) (w_pool (final self w evs))
    (fun a => deposited a (history self w evs)) (fun a => paid a (history self w evs)).
Proof.
  induction evs as [|e evs IH]; intros w n HE B V.
  - cbn. eapply told_more; [apply told_nil; auto; apply N.le_refl|..]; reflexivity.
  - inversion V; subst. pose proof (step_told self w e HE H1) as S. cbn [pool_log final history].
    destruct (step self w e) as [w' o] eqn:E. destruct S as [HE' T]. cbn [fst].
    pose proof (told_owner _ _ _ _ _ _ _ T B) as O.
    assert (B' : exists n', books (owner_id (w_pool w)) n' (w_pool w')).
    { destruct T as (fs & _ & T). destruct (T n B) as (n' & _ & B' & _). eauto. }
    destruct B' as [n' B']. rewrite <- O in B'. specialize (IH w' n' HE' B' H2). rewrite O in IH.
    eapply told_more; [exact (told_trans _ _ _ _ _ _ _ _ _ _ T IH)|..]; intros a.
    + now rewrite deposited_cons.
    + now rewrite paid_cons.
Qed.

Lemma says_all_inj l : forall fs fs', Forall2 says l fs -> Forall2 says l fs' -> fs = fs'.
Proof.
  induction l as [|s l IH]; intros fs fs' A A'; inversion A; inversion A'; subst; auto.
  f_equal; eauto using says_inj.
Qed.

Lemma initial_books self w : initial self w ->
  books (owner_id (w_pool w)) (blank w) (w_pool w) /\ last_epoch_height (w_pool w) <= w_epoch w.
Proof.
  intros I. destruct (initial_inv _ _ I) as (_ & A & _).
  destruct I as (c & owner & key & f & ps & _ & _ & _ & _ & _ & H & _ & HE).
  assert (L : last_epoch_height (w_pool w) = w_epoch w).
  { unfold new in H. inv_res. rewrite HE. match goal with E : _ = w_pool w |- _ => now rewrite <- E end. }
  split; [|lia]. constructor; auto; cbn.
  - rewrite A. constructor.
  - intros a. unfold internal_get_account. now rewrite A.
  - intros a. unfold internal_get_account. now rewrite A.
  - lia.
Qed.

Lemma log_tells_the_books self w0 evs : initial self w0 -> callers_valid evs ->
  let log := pool_log self w0 evs in
  let p := w_pool (final self w0 evs) in
  let h := history self w0 evs in
  (exists facts, Forall2 says log facts) /\
  forall facts, Forall2 says log facts ->
    exists n, note_facts (owner_id (w_pool w0)) (blank w0) facts = Some n /\
      (forall a, n_unstaked n a = unstaked (internal_get_account p a) /\
                 n_shares_of n a = stake_shares (internal_get_account p a) /\
                 n_in n a = deposited a h /\ n_out n a = paid a h) /\
      n_staked n = total_staked_balance p /\ n_shares n = total_stake_shares p.
Proof.
  intros I V. cbv zeta. destruct (initial_books _ _ I) as [B HE].
  destruct (history_told self evs w0 _ HE B V) as (fs & S & T). split; [now exists fs|].
  intros facts F. rewrite (says_all_inj _ _ _ F S). destruct (T _ B) as (n & E & [B1 B2 B3 B4 B5 B6 B7 B8] & NI & NO).
  exists n. split; auto. split; [|split; auto]. intros a. rewrite NI, NO. cbn. auto.
Qed.

(** * The lines of one call *)
Definition said (l : list string) (P : list fact -> Prop) : Prop := exists fs, Forall2 says l fs /\ P fs.
Lemma ping_lines c p p' need l : internal_ping_l c p = Ok (p', need, l) ->
  said l (rewards_part (ctx_epoch c)) /\ (last_epoch_height p = ctx_epoch c -> l = []).
Proof.
  intros H. unfold internal_ping_l in H. destruct (N.eqb_spec (last_epoch_height p) (ctx_epoch c)) as [E|NE].
  { inv_res. split; auto. exists []. split; [constructor|now left]. }
  split; [|congruence]. unfold said.
  apply bind_ok in H. destruct H as (lb & E1 & H). apply bind_ok in H. destruct H as (tb & E2 & H).
  apply bind_ok in H. destruct H as (? & _ & H). apply bind_ok in H. destruct H as (tr & _ & H).
  apply bind_ok in H. destruct H as ([p1 l1] & E3 & H). inversion H; subst; clear H.
  destruct (0 <? tr).
  2: { inv_res. exists []. split; [constructor|now left]. }
  apply bind_ok in E3. destruct E3 as (fee & _ & H). apply bind_ok in H. destruct H as (rem & _ & H).
  apply bind_ok in H. destruct H as (t & _ & H). apply bind_ok in H. destruct H as (k & _ & H).
  apply bind_ok in H. destruct H as (p2 & _ & H). apply bind_ok in H. destruct H as (t2 & _ & H).
  inversion H; subst; clear H. destruct (0 <? k).
  - eexists. split; [constructor; [apply say_reward|constructor; [apply say_fee|constructor]]|].
    right. right. repeat eexists.
  - eexists. split; [constructor; [apply say_reward|constructor]|]. right. left. repeat eexists.
Qed.
Lemma deposit_lines c p p' x l : has_space (ctx_predecessor c) = false -> internal_deposit_l c p = Ok (p', x, l) ->
  said l (fun fs => exists u, fs = [FDeposit (ctx_predecessor c) (ctx_attached c) u]).
Proof.
  intros HV H. unfold internal_deposit_l in H. inv_res. eexists.
  split; [constructor; [now apply say_deposit|constructor]|]. now eexists.
Qed.
Lemma withdraw_lines c p p' x ps l : has_space (ctx_predecessor c) = false -> internal_withdraw_l c p x = Ok (p', ps, l) ->
  said l (fun fs => fs = [FWithdraw (ctx_predecessor c) x (unstaked (internal_get_account p (ctx_predecessor c)) - x)]).
Proof.
  intros HV H. unfold internal_withdraw_l in H. inv_res. eexists.
  split; [constructor; [now apply say_withdraw|constructor]|]. reflexivity.
Qed.
Lemma stake_lines c p p' x l : has_space (ctx_predecessor c) = false -> internal_stake_l c p x = Ok (p', l) ->
  said l (fun fs => exists x k u s t s', fs = [FStake (ctx_predecessor c) x k u s; FTotals t s']).
Proof.
  intros HV H. unfold internal_stake_l in H. inv_res. eexists.
  split; [constructor; [now apply say_stake|constructor; [now apply say_totals|constructor]]|].
  do 6 eexists. reflexivity.
Qed.
Lemma unstake_lines c p p' x l : has_space (ctx_predecessor c) = false -> inner_unstake_l c p x = Ok (p', l) ->
  said l (fun fs => exists x k u s t s', fs = [FUnstake (ctx_predecessor c) x k u s; FTotals t s']).
Proof.
  intros HV H. unfold inner_unstake_l in H. inv_res. eexists.
  split; [constructor; [now apply say_unstake|constructor; [now apply say_totals|constructor]]|].
  do 6 eexists. reflexivity.
Qed.

Lemma exec_lines c p m p' ps l : has_space (ctx_predecessor c) = false -> exec_l c p m = Ok (p', ps, l) ->
  exists lr la, l = (lr ++ la)%list /\ said lr (rewards_part (ctx_epoch c)) /\
    said la (action_part (ctx_predecessor c) (ctx_attached c) m) /\
    (silent_call m = true \/ last_epoch_height p = ctx_epoch c -> lr = []).
Proof.
  intros HV H. unfold exec_l in H.
  apply bind_ok in H. destruct H as (? & _ & H). apply bind_ok in H. destruct H as (? & _ & H).
  assert (SN : said [] (fun l => l = [])) by (exists []; split; [constructor|reflexivity]).
  assert (SR : said [] (rewards_part (ctx_epoch c))) by (exists []; split; [constructor|now left]).
  destruct m; cbn [silent_call action_part].
  - apply bind_ok in H. destruct H as ([[q need] l1] & E & H). apply ping_lines in E. destruct E as [R Z].
    inv_res. exists l, []. rewrite app_nil_r. intuition discriminate.
  - apply bind_ok in H. destruct H as ([[q need] l1] & E & H). apply ping_lines in E. destruct E as [R Z].
    apply bind_ok in H. destruct H as ([[q1 x1] l'] & E & H). apply deposit_lines in E; [|exact HV].
    inv_res. exists l1, l'. intuition discriminate.
  - apply bind_ok in H. destruct H as ([[q need] l1] & E & H). apply ping_lines in E. destruct E as [R Z].
    apply bind_ok in H. destruct H as ([[q1 x1] l'] & E & H). apply deposit_lines in E; [|exact HV].
    apply bind_ok in H. destruct H as ([q2 l''] & E' & H). apply stake_lines in E'; [|exact HV].
    inv_res. exists l1, (l' ++ l'')%list. split; [reflexivity|]. split; [exact R|]. split; [|intuition discriminate].
    destruct E as (f1 & S1 & u & ->). destruct E' as (f2 & S2 & a1 & a2 & a3 & a4 & a5 & a6 & ->).
    eexists. split; [exact (Forall2_app S1 S2)|]. do 7 eexists. reflexivity.
  - apply bind_ok in H. destruct H as ([[q need] l1] & E & H). apply ping_lines in E. destruct E as [R Z].
    apply bind_ok in H. destruct H as ([[q1 x1] l'] & E & H). apply withdraw_lines in E; [|exact HV].
    inv_res. exists l1, l'. split; [reflexivity|]. split; [exact R|]. split; [|intuition discriminate].
    destruct E as (f1 & S1 & ->). rewrite N.sub_diag in S1. eexists. split; [exact S1|]. eexists. reflexivity.
  - apply bind_ok in H. destruct H as ([[q need] l1] & E & H). apply ping_lines in E. destruct E as [R Z].
    apply bind_ok in H. destruct H as ([[q1 x1] l'] & E & H). apply withdraw_lines in E; [|exact HV].
    inv_res. exists l1, l'. split; [reflexivity|]. split; [exact R|]. split; [|intuition discriminate].
    destruct E as (f1 & S1 & ->). eexists. split; [exact S1|]. eexists. reflexivity.
  - apply bind_ok in H. destruct H as ([[q need] l1] & E & H). apply ping_lines in E. destruct E as [R Z].
    apply bind_ok in H. destruct H as ([q1 l'] & E & H). apply stake_lines in E; [|exact HV].
    inv_res. exists l1, l'. intuition discriminate.
  - apply bind_ok in H. destruct H as ([[q need] l1] & E & H). apply ping_lines in E. destruct E as [R Z].
    apply bind_ok in H. destruct H as ([q1 l'] & E & H). apply stake_lines in E; [|exact HV].
    inv_res. exists l1, l'. intuition discriminate.
  - apply bind_ok in H. destruct H as ([[q need] l1] & E & H). apply ping_lines in E. destruct E as [R Z].
    apply bind_ok in H. destruct H as (? & _ & H).
    apply bind_ok in H. destruct H as ([q1 l'] & E & H). apply unstake_lines in E; [|exact HV].
    inv_res. exists l1, l'. intuition discriminate.
  - apply bind_ok in H. destruct H as ([[q need] l1] & E & H). apply ping_lines in E. destruct E as [R Z].
    apply bind_ok in H. destruct H as ([q1 l'] & E & H). apply unstake_lines in E; [|exact HV].
    inv_res. exists l1, l'. intuition discriminate.
  - apply bind_ok in H. destruct H as ([q2 ps2] & E & H). inv_res. exists [], []. auto.
  - apply bind_ok in H. destruct H as (? & _ & H).
    apply bind_ok in H. destruct H as ([[q need] l1] & E & H). apply ping_lines in E. destruct E as [R Z].
    inv_res. exists l, []. rewrite app_nil_r. intuition discriminate.
  - apply bind_ok in H. destruct H as (? & _ & H). apply bind_ok in H. destruct H as (? & _ & H).
    apply bind_ok in H. destruct H as ([[q need] l1] & E & H). apply ping_lines in E. destruct E as [R Z].
    inv_res. exists l, []. rewrite app_nil_r. intuition discriminate.
  - apply bind_ok in H. destruct H as ([q2 ps2] & E & H). inv_res. exists [], []. auto.
  - apply bind_ok in H. destruct H as (? & _ & H). apply bind_ok in H. destruct H as (? & _ & H).
    apply bind_ok in H. destruct H as ([[q need] l1] & E & H). apply ping_lines in E. destruct E as [R Z].
    inv_res. exists l, []. rewrite app_nil_r. intuition discriminate.
  - apply bind_ok in H. destruct H as (? & _ & H). apply bind_ok in H. destruct H as (? & _ & H).
    apply bind_ok in H. destruct H as ([[q need] l1] & E & H). apply ping_lines in E. destruct E as [R Z].
    inv_res. exists l, []. rewrite app_nil_r. intuition discriminate.
Qed.

Lemma call_lines c p m p' ps l : is_valid_account_id (ctx_predecessor c) = true -> exec_l c p m = Ok (p', ps, l) ->
  exists rewards action, Forall2 says l (rewards ++ action) /\
    rewards_part (ctx_epoch c) rewards /\ action_part (ctx_predecessor c) (ctx_attached c) m action /\
    (silent_call m = true \/ last_epoch_height p = ctx_epoch c -> rewards = []).
Proof.
  intros HV H. apply exec_lines in H; [|now apply valid_no_space].
  destruct H as (lr & la & -> & (fr & SR & R) & (fa & SA & A) & Z). exists fr, fa.
  split; [now apply Forall2_app|]. do 2 (split; [assumption|]). intros D. specialize (Z D). subst lr. now inversion SR.
Qed.

Lemma same_calls c p m :
  exec c p m = match exec_l c p m with Ok (p', ps, _) => Ok (p', ps) | Panic e => Panic e end.
Proof. rewrite <- exec_same. destruct (exec_l c p m) as [[[p' ps] l]|]; reflexivity. Qed.
