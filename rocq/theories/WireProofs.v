(** The messages between contracts are understood. *)
From Coq Require Import NArith List Bool String Ascii Lia.
From Verif Require Import Prelude PreludeFacts JsonModel JsonProofs WireModel WireSpec.
From Verif Require LockupEffects.
Import ListNotations.
Open Scope string_scope.
Open Scope N_scope.

Module LE := LockupEffects.

Arguments wr_dec : simpl never.
Arguments rd_dec : simpl never.
Arguments rd_num : simpl never.
Arguments wr_base64 : simpl never.
Arguments rd_base64 : simpl never.
Arguments arguments : simpl never.
Arguments object : simpl never.
Arguments field : simpl never.
Arguments opt_field : simpl never.
Arguments named : simpl never.
Arguments u32 : simpl never.
Arguments u64 : simpl never.
Arguments U64 : simpl never.
Arguments U128 : simpl never.
Arguments account : simpl never.
Arguments key : simpl never.
Arguments is_valid_account_id : simpl never.
Arguments valid_account : simpl never.
Arguments with_args : simpl never.

Lemma with_object {A} (f : list (string * json) -> option A) o : with_args f (object o) = f o.
Proof. exact (arguments_print o f). Qed.
Lemma u32_ok n : n < U32_BOUND -> u32 (JNum n) = Some n.
Proof. apply rd_num_ok. Qed.
Lemma u64_ok n : n < U64_BOUND -> u64 (JNum n) = Some n.
Proof. apply rd_num_ok. Qed.
Lemma U64_ok n : n < U64_BOUND -> U64 (wr_dec n) = Some n.
Proof. apply rd_dec_ok. Qed.
Lemma U128_ok n : n < U128_BOUND -> U128 (wr_dec n) = Some n.
Proof. apply rd_dec_ok. Qed.
Lemma account_ok a : account (JStr a) = Some a.
Proof. reflexivity. Qed.
Lemma key_ok a : key (JStr a) = Some a.
Proof. reflexivity. Qed.
Lemma valid_account_ok a : is_valid_account_id a = true -> valid_account (JStr a) = Some a.
Proof. intros H. unfold valid_account. now rewrite H. Qed.

(** What was read fits. *)
Lemma rd_num_fits b v n : rd_num b v = Some n -> n < b.
Proof.
  unfold rd_num. destruct v; try discriminate. destruct (N.ltb_spec n0 b); [|discriminate]. now intros [= <-].
Qed.
Lemma rd_dec_fits b v n : rd_dec b v = Some n -> n < b.
Proof.
  unfold rd_dec. destruct v; try discriminate. cbv zeta. destruct (String.eqb _ _); [discriminate|].
  destruct (of_decimal _) as [m|]; [|discriminate]. destruct (N.ltb_spec m b); [|discriminate]. now intros [= <-].
Qed.
Lemma field_some {A} n (r : rd A) o x : field n r o = Some x -> exists v, r v = Some x.
Proof. unfold field. destruct (named n o) as [|v [|? ?]]; try discriminate. eauto. Qed.
Lemma opt_field_some {A} n (r : rd A) o x : opt_field n r o = Some (Some x) -> exists v, r v = Some x.
Proof.
  unfold opt_field. destruct (named n o) as [|v [|? ?]]; try discriminate.
  - destruct v; try discriminate; intros H; destruct (r _) eqn:E; try discriminate; injection H as <-; eauto.
  - destruct v; discriminate.
Qed.
Lemma field_U128 n o x : field n U128 o = Some x -> x < U128_BOUND.
Proof. intros (v & H)%field_some. now apply rd_dec_fits in H. Qed.
Lemma field_U64 n o x : field n U64 o = Some x -> x < U64_BOUND.
Proof. intros (v & H)%field_some. now apply rd_dec_fits in H. Qed.
Lemma field_u32 n o x : field n u32 o = Some x -> x < U32_BOUND.
Proof. intros (v & H)%field_some. now apply rd_num_fits in H. Qed.
Lemma opt_field_U64 n o x : opt_field n U64 o = Some x -> fits_option U64_BOUND x.
Proof. destruct x as [x|]; [|easy]. intros (v & H)%opt_field_some. now apply rd_dec_fits in H. Qed.

(** Options *)
Lemma opt_field_ok {A} n (w : A -> json) (r : rd A) o x :
  named n o = [wr_option w x] -> (forall y, x = Some y -> r (w y) = Some y /\ w y <> JNull) ->
  opt_field n r o = Some x.
Proof.
  unfold opt_field. intros -> H. destruct x as [y|]; [|reflexivity]. destruct (H y eq_refl) as (R & NN).
  cbn [wr_option]. destruct (w y) eqn:E; rewrite ?R; try reflexivity. congruence.
Qed.
Lemma wr_dec_not_null n : wr_dec n <> JNull.
Proof. discriminate. Qed.

(** Fields of a concrete object. *)
Lemma field_here {A} n (r : rd A) o v : named n o = [v] -> field n r o = r v.
Proof. unfold field. now intros ->. Qed.

Lemma dispatch_inv {A} (t : methods A) name args x :
  dispatch t name args = Some x -> exists f, In (name, f) t /\ f args = Some x.
Proof.
  induction t as [|[n f] t IH]; cbn; [discriminate|]. destruct (String.eqb_spec name n) as [->|].
  - intros H. exists f. auto.
  - intros H. destruct (IH H) as (g & I & E). eauto.
Qed.
Lemma with_args_inv {A} (f : list (string * json) -> option A) s x :
  with_args f s = Some x -> exists o, f o = Some x.
Proof.
  unfold with_args, arguments. destruct (parse s) as [[]|]; cbn; try discriminate. eauto.
Qed.

Ltac get_fields E :=
  repeat match type of E with
    | (match ?x with Some _ => _ | None => None end) = _ => let F := fresh "F" in destruct x eqn:F; [|discriminate E]
    end.
Ltac lookup n o := match o with (n, ?v) :: _ => v | _ :: ?t => lookup n t end.
Ltac read_fields :=
  repeat match goal with
    | |- context[field ?n ?r ?o] => let v := lookup n o in rewrite (field_here n r o v eq_refl)
    end.

(** ** The pieces *)
Lemma fraction_ok f : SM.numerator f < U32_BOUND -> SM.denominator f < U32_BOUND -> fraction (wr_fraction f) = Some f.
Proof.
  intros H1 H2. unfold fraction, wr_fraction, rd_obj. read_fields.
  rewrite (u32_ok _ H1), (u32_ok _ H2). now destruct f.
Qed.
Lemma fraction_read v f : fraction v = Some f -> fraction_fits f.
Proof.
  unfold fraction_fits, fraction, rd_obj. destruct v; try discriminate.
  destruct (field "numerator" u32 l) as [n|] eqn:E1; [|discriminate].
  destruct (field "denominator" u32 l) as [d|] eqn:E2; [|discriminate]. intros [= <-]. cbn.
  split; eapply field_u32; eassumption.
Qed.

Definition schedule_or_hash_fits (s : LM.schedule_or_hash) : Prop :=
  match s with LM.ArgHash _ => True | LM.ArgSchedule s => schedule_fits s end.
Lemma schedule_ok s : schedule_fits s -> schedule (wr_schedule s) = Some s.
Proof.
  intros (H1 & H2 & H3). unfold schedule, wr_schedule, rd_obj. read_fields.
  rewrite (U64_ok _ H1), (U64_ok _ H2), (U64_ok _ H3). now destruct s.
Qed.
Lemma schedule_read v s : schedule v = Some s -> schedule_fits s.
Proof.
  unfold schedule, rd_obj. destruct v; try discriminate.
  destruct (field "start_timestamp" U64 l) as [a|] eqn:E1; [|discriminate].
  destruct (field "cliff_timestamp" U64 l) as [b|] eqn:E2; [|discriminate].
  destruct (field "end_timestamp" U64 l) as [c|] eqn:E3; [|discriminate]. intros [= <-]. unfold schedule_fits. cbn.
  split; [|split]; eapply field_U64; eassumption.
Qed.
Lemma schedule_or_hash_ok s : schedule_or_hash_fits s -> schedule_or_hash (wr_schedule_or_hash s) = Some s.
Proof.
  destruct s as [h|s]; cbn [schedule_or_hash_fits]; intros H; unfold schedule_or_hash; cbn [wr_schedule_or_hash variant fst snd].
  - change (String.eqb "VestingHash" "VestingHash") with true. cbn iota. now rewrite rd_base64_ok.
  - change (String.eqb "VestingSchedule" "VestingHash") with false.
    change (String.eqb "VestingSchedule" "VestingSchedule") with true. cbn iota. now rewrite schedule_ok.
Qed.
Lemma schedule_or_hash_read v s : schedule_or_hash v = Some s -> schedule_or_hash_fits s.
Proof.
  unfold schedule_or_hash. destruct (variant v) as [x|]; [|discriminate].
  destruct (String.eqb _ _).
  - destruct (rd_base64 _); [|discriminate]. intros [= <-]. exact I.
  - destruct (String.eqb _ _); [|discriminate]. destruct (schedule (snd x)) eqn:E; [|discriminate]. intros [= <-].
    cbn. now apply schedule_read in E.
Qed.
Lemma wr_schedule_or_hash_not_null s : wr_schedule_or_hash s <> JNull.
Proof. destruct s; discriminate. Qed.
Lemma transfers_ok t : match t with LM.TransfersEnabled t => t < U64_BOUND | _ => True end ->
  transfers (wr_transfers t) = Some t.
Proof.
  destruct t as [t|a]; intros H; unfold transfers; cbn [wr_transfers variant fst snd].
  - change (String.eqb "TransfersEnabled" "TransfersEnabled") with true. cbn iota. unfold rd_obj. read_fields.
    now rewrite U64_ok.
  - change (String.eqb "TransfersDisabled" "TransfersEnabled") with false.
    change (String.eqb "TransfersDisabled" "TransfersDisabled") with true. cbn iota. unfold rd_obj. read_fields. reflexivity.
Qed.

(** ** The staking pool factory *)
Lemma pool_factory_text name text m : pool_factory_reads name text = Some (PoolFactoryCall m) ->
  match m with
  | PF.CreateStakingPool _ _ _ f => SM.numerator f < U32_BOUND /\ SM.denominator f < U32_BOUND
  | PF.OnStakingPoolCreate _ d _ => d < U128_BOUND
  end.
Proof.
  intros (f & I & E)%dispatch_inv. cbn in I.
  repeat destruct I as [[= <- <-]|I]; [| | |contradiction]; apply with_args_inv in E; destruct E as (o & E).
  - get_fields E. discriminate.
  - get_fields E. injection E as <-.
    match goal with F : field "reward_fee_fraction" _ _ = _ |- _ => apply field_some in F as (v & F); now apply fraction_read in F end.
  - get_fields E. injection E as <-. eapply field_U128. eassumption.
Qed.
Lemma pool_factory_reads_callback self a d p : d < U128_BOUND ->
  gets pool_factory_reads (pool_factory_callback self (PF.OnStakingPoolCreate a d p)) self
    (PoolFactoryCall (PF.OnStakingPoolCreate a d p)).
Proof.
  intros H. eexists. split; [reflexivity|]. split; [reflexivity|]. cbn [method args].
  unfold pool_factory_reads, pool_factory_methods. cbn [dispatch String.eqb Ascii.eqb Bool.eqb].
  rewrite with_object. read_fields. rewrite (U128_ok _ H). reflexivity.
Qed.
Lemma pool_factory_understood name text m c s s' ps p :
  pool_factory_reads name text = Some (PoolFactoryCall m) -> PF.ctx_attached c < U128_BOUND ->
  PF.exec c s m = Ok (s', ps) -> In p ps ->
  match p with
  | PF.PCreate a _ x cb =>
      gets pool_reads (pool_factory_calls p) a
        (PoolNew (PF.a_owner_id x) (PF.a_stake_public_key x) (PF.a_reward_fee_fraction x)) /\
      gets pool_factory_reads (pool_factory_callback (PF.ctx_current c) cb) (PF.ctx_current c) (PoolFactoryCall cb)
  | PF.PAddStakingPool w a => gets whitelist_reads (pool_factory_calls p) w (WhitelistCall (WL.AddStakingPool a))
  | PF.PTransfer _ _ => pool_factory_calls p = None
  end.
Proof.
  intros T A E I. apply pool_factory_text in T. destruct m as [i o k f|a d q]; cbn [PF.exec] in E.
  - unfold PF.create_staking_pool in E. inv_res. destruct I as [<-|[]]. destruct T as (T1 & T2). split.
    + eexists. split; [reflexivity|]. split; [reflexivity|]. cbn [method args]. unfold pool_reads, pool_methods.
      cbn [dispatch String.eqb Ascii.eqb Bool.eqb]. unfold pool_args. rewrite with_object. read_fields.
      cbn [PF.a_reward_fee_fraction]. rewrite fraction_ok by assumption. reflexivity.
    + now apply pool_factory_reads_callback.
  - inv_res. unfold PF.on_staking_pool_create in *. inv_res.
    destruct x1; injection E as <- <-; destruct I as [<-|[]]; [|reflexivity].
    eexists. split; [reflexivity|]. split; [reflexivity|]. cbn [method args].
    unfold whitelist_reads, whitelist_methods. cbn [dispatch String.eqb Ascii.eqb Bool.eqb].
    rewrite with_object. read_fields. reflexivity.
Qed.

(** ** The lockup factory *)
Definition args_fit (a : LF.lockup_args) : Prop :=
  LF.a_lockup_duration a < U64_BOUND /\ fits_option U64_BOUND (LF.a_lockup_timestamp a) /\
  match LF.a_transfers_information a with LM.TransfersEnabled t => t < U64_BOUND | _ => True end /\
  match LF.a_vesting_schedule a with Some x => schedule_or_hash_fits x | None => True end /\
  fits_option U64_BOUND (LF.a_release_duration a).
Lemma lockup_reads_new a : args_fit a -> lockup_reads "new" (lockup_args a) = Some (LockupNew a).
Proof.
  destruct a as [o d t i v r w f]. unfold args_fit. cbn. intros (H1 & H2 & H3 & H4 & H5).
  unfold lockup_reads, lockup_methods. cbn [dispatch String.eqb Ascii.eqb Bool.eqb]. unfold lockup_args.
  cbn [LF.a_owner_account_id LF.a_lockup_duration LF.a_lockup_timestamp LF.a_transfers_information LF.a_vesting_schedule
       LF.a_release_duration LF.a_staking_pool_whitelist_account_id LF.a_foundation_account_id].
  rewrite with_object. read_fields. rewrite account_ok, (U64_ok _ H1), (transfers_ok _ H3), account_ok.
  rewrite (opt_field_ok "lockup_timestamp" wr_dec U64 _ t)
    by (first [reflexivity|intros y ->; split; [now apply U64_ok|discriminate]]).
  rewrite (opt_field_ok "vesting_schedule" wr_schedule_or_hash schedule_or_hash _ v)
    by (first [reflexivity|intros y ->; split; [now apply schedule_or_hash_ok|apply wr_schedule_or_hash_not_null]]).
  rewrite (opt_field_ok "release_duration" wr_dec U64 _ r)
    by (first [reflexivity|intros y ->; split; [now apply U64_ok|discriminate]]).
  rewrite (opt_field_ok "foundation_account_id" JStr account _ f)
    by (first [reflexivity|intros y ->; split; [reflexivity|discriminate]]).
  reflexivity.
Qed.
Lemma opt_field_schedule n o x : opt_field n schedule_or_hash o = Some x ->
  match x with Some x => schedule_or_hash_fits x | None => True end.
Proof. destruct x as [x|]; [|easy]. intros (v & H)%opt_field_some. now apply schedule_or_hash_read in H. Qed.
Lemma lockup_factory_text name text m : lockup_factory_reads name text = Some (LockupFactoryCall m) ->
  match m with
  | LF.Create _ d t v r _ =>
      d < U64_BOUND /\ fits_option U64_BOUND t /\ match v with Some x => schedule_or_hash_fits x | None => True end /\
      fits_option U64_BOUND r
  | LF.OnLockupCreate _ d _ => d < U128_BOUND
  end.
Proof.
  intros (f & I & E)%dispatch_inv. cbn in I.
  repeat destruct I as [[= <- <-]|I]; [| | |contradiction]; apply with_args_inv in E; destruct E as (o & E).
  - get_fields E. discriminate.
  - get_fields E. injection E as <-. split; [eapply field_U64; eassumption|].
    split; [eapply opt_field_U64; eassumption|]. split; [eapply opt_field_schedule; eassumption|].
    eapply opt_field_U64; eassumption.
  - get_fields E. injection E as <-. eapply field_U128. eassumption.
Qed.
Lemma lockup_factory_understood name text m c s s' ps p :
  lockup_factory_reads name text = Some (LockupFactoryCall m) -> LF.ctx_attached c < U128_BOUND ->
  LF.exec c s m = Ok (s', ps) -> In p ps ->
  match p with
  | LF.PCreate a _ x cb =>
      gets lockup_reads (lockup_factory_calls p) a (LockupNew x) /\
      gets lockup_factory_reads (lockup_factory_callback (LF.ctx_current c) cb) (LF.ctx_current c) (LockupFactoryCall cb)
  | LF.PTransfer _ _ => lockup_factory_calls p = None
  end.
Proof.
  intros T A E I. apply lockup_factory_text in T. destruct m as [o d t v r w|a d q]; cbn [LF.exec] in E.
  - unfold LF.create in E. inv_res. destruct I as [<-|[]]. destruct T as (T1 & T2 & T3 & T4). split.
    + eexists. split; [reflexivity|]. split; [reflexivity|]. cbn [method args]. apply lockup_reads_new.
      repeat split; auto.
    + eexists. split; [reflexivity|]. split; [reflexivity|]. cbn [method args].
      unfold lockup_factory_reads, lockup_factory_methods. cbn [dispatch String.eqb Ascii.eqb Bool.eqb].
      rewrite with_object. read_fields. rewrite (U128_ok _ A). reflexivity.
  - inv_res. unfold LF.on_lockup_create in *. inv_res.
    match type of I with In _ (if ?b then _ else _) => destruct b end; [destruct I|]. destruct I as [<-|[]]. reflexivity.
Qed.

(** ** The multisig factory *)
Lemma member_ok acc m : match m with M2.Account a => acc (JStr a) = Some a | _ => True end ->
  member acc (wr_member m) = Some m.
Proof.
  destruct m as [k|a]; intros H; unfold member, wr_member, rd_obj; read_fields; [reflexivity|].
  change (field "public_key" key [("account_id", JStr a)]) with (@None public_key). now rewrite H.
Qed.
Lemma member_refused a : is_valid_account_id a = false -> member valid_account (wr_member (M2.Account a)) = None.
Proof.
  intros H. unfold member, wr_member, rd_obj. read_fields.
  change (field "public_key" key [("account_id", JStr a)]) with (@None public_key). unfold valid_account. now rewrite H.
Qed.
Definition member_ok_b (m : M2.member) : bool :=
  match m with M2.AccessKey _ => true | M2.Account a => is_valid_account_id a end.
Lemma members_read ms : rd_all (member valid_account) (map wr_member ms) = if forallb member_ok_b ms then Some ms else None.
Proof.
  induction ms as [|m ms IH]; [reflexivity|]. cbn [map rd_all forallb]. rewrite IH.
  destruct (member_ok_b m) eqn:E; cbn [andb].
  - rewrite member_ok; [destruct (forallb _ _); reflexivity|]. destruct m; [exact I|]. now apply valid_account_ok.
  - destruct m; [discriminate|]. now rewrite member_refused.
Qed.
Lemma members_fit ms : forallb member_ok_b ms = true <-> Forall member_fits ms.
Proof.
  rewrite forallb_forall, Forall_forall. split; intros H m I; specialize (H m I); destruct m; cbn in *; auto.
Qed.
Lemma multisig_factory_reads_new p :
  multisig2_reads_new "new" (args (multisig_factory_calls p)) =
    if forallb member_ok_b (MF.p_members p) && (MF.p_num_confirmations p <? U32_BOUND)
    then Some (MF.p_members p, MF.p_num_confirmations p) else None.
Proof.
  unfold multisig2_reads_new, multisig_factory_calls. cbn [args dispatch String.eqb Ascii.eqb Bool.eqb].
  rewrite with_object. read_fields. cbn [rd_list]. rewrite members_read.
  destruct (forallb _ _); [|reflexivity]. unfold u32, rd_num. cbn [andb]. now destruct (_ <? _).
Qed.
Lemma multisig_factory_understood p :
  let m := multisig_factory_calls p in
  to m = MF.p_account p /\ method m = "new" /\
  (Forall member_fits (MF.p_members p) -> MF.p_num_confirmations p < U32_BOUND ->
   multisig2_reads_new (method m) (args m) = Some (MF.p_members p, MF.p_num_confirmations p)) /\
  (forall x, multisig2_reads_new (method m) (args m) = Some x -> x = (MF.p_members p, MF.p_num_confirmations p)).
Proof.
  cbv zeta. split; [reflexivity|]. split; [reflexivity|].
  change (method (multisig_factory_calls p)) with "new". rewrite multisig_factory_reads_new. split.
  - intros H1 H2. apply members_fit in H1. apply N.ltb_lt in H2. now rewrite H1, H2.
  - intros x. destruct (_ && _); [congruence|discriminate].
Qed.

(** ** The staking pool *)
Lemma pool_understood self p :
  match p with
  | SM.PVote v b => gets voting_reads (pool_calls self p) v (VotingCall (VM.Vote b))
  | SM.PStake _ _ true => gets pool_reads (pool_calls self p) self (PoolCall SM.OnStakeAction)
  | _ => pool_calls self p = None
  end.
Proof.
  destruct p as [r a|a k []|v b]; try reflexivity; (eexists; split; [reflexivity|]; split; [reflexivity|]); [reflexivity|].
  cbn [method args]. unfold voting_reads, voting_methods. cbn [dispatch String.eqb Ascii.eqb Bool.eqb].
  rewrite with_object. read_fields. reflexivity.
Qed.

(** ** The lockup *)
Lemma schedule_with_salt_read v s t : schedule_with_salt v = Some (s, t) -> schedule_fits s.
Proof.
  destruct v; try discriminate. unfold schedule_with_salt, rd_obj. intros E. get_fields E. injection E as <- <-.
  match goal with F : field "vesting_schedule" _ _ = _ |- _ => apply field_some in F; destruct F as (w & F); now apply schedule_read in F end.
Qed.
Lemma lockup_text name text m : lockup_reads name text = Some (LockupCall m) -> lockup_fits m.
Proof.
  intros (f & I & E)%dispatch_inv. cbn in I.
  repeat (destruct I as [[= <- <-]|I];
    [try (unfold amount_of in E); first [apply with_args_inv in E; destruct E as (o & E); get_fields E|idtac];
     first [discriminate E|injection E as <-]; cbn [lockup_fits]; try exact Logic.I; try (eapply field_U128; eassumption)|]);
    try contradiction.
  match goal with |- match ?x with _ => _ end => destruct x as [[s t]|]; [|exact Logic.I] end.
  match goal with H : opt_field _ _ _ = _ |- _ => apply opt_field_some in H; destruct H as (v & H); now apply schedule_with_salt_read in H end.
Qed.
Lemma lockup_reads_callback self cb : lockup_fits cb -> (exists m, lockup_callback self cb = Some m) ->
  gets lockup_reads (lockup_callback self cb) self (LockupCall cb).
Proof.
  intros F (m & E). exists m. split; [exact E|].
  destruct cb; cbn in E; try discriminate E; injection E as <-; (split; [reflexivity|]); cbn [method args];
    unfold lockup_reads, lockup_methods, amount_of; cbn [dispatch String.eqb Ascii.eqb Bool.eqb];
    rewrite ?with_object; read_fields; rewrite ?U128_ok by exact F; reflexivity.
Qed.
Lemma pool_reads_wanted self p op : match op with LM.PWithdraw n | LM.PStake n | LM.PUnstake n => n < U128_BOUND | _ => True end ->
  gets pool_reads (lockup_calls self (LM.RPool p op)) p (wanted self op).
Proof.
  intros F. destruct op; eexists; (split; [reflexivity|]; split; [reflexivity|]); cbn [method args];
    unfold pool_reads, pool_methods; cbn [dispatch String.eqb Ascii.eqb Bool.eqb wanted];
    rewrite ?with_object; read_fields; rewrite ?U128_ok by exact F; reflexivity.
Qed.
Lemma answer_bool cb b : (exists p, cb = LM.OnWhitelistIsWhitelisted p) ->
  lockup_reads_answer cb (whitelist_answer b) = Some (LM.ABool b).
Proof. intros (p & ->). cbn [lockup_reads_answer]. unfold whitelist_answer. now rewrite parse_print. Qed.
Lemma answer_poll o : fits_option U64_BOUND o ->
  lockup_reads_answer LM.OnGetResultFromTransferPoll (voting_answer o) = Some (LM.APollResult o).
Proof.
  intros F. cbn [lockup_reads_answer]. unfold voting_answer. rewrite parse_print. destruct o as [t|]; [|reflexivity].
  cbn [wr_option fits_option] in *. unfold wr_dec at 1. rewrite (U64_ok _ F). reflexivity.
Qed.
Definition balance_callback (cb : LM.call) : bool :=
  match cb with
  | LM.OnGetAccountTotalBalance | LM.OnGetAccountUnstakedBalanceToWithdrawByOwner
  | LM.OnGetAccountStakedBalanceToUnstake | LM.OnGetAccountUnstakedBalanceToWithdraw => true
  | _ => false
  end.
Lemma answer_balance cb n : balance_callback cb = true -> n < U128_BOUND ->
  lockup_reads_answer cb (pool_answer n) = Some (LM.ABalance n).
Proof.
  intros B F. unfold pool_answer.
  destruct cb; try discriminate B; cbn [lockup_reads_answer]; rewrite parse_print, (U128_ok _ F); reflexivity.
Qed.
Lemma answer_fits m t x : lockup_reads_answer m t = Some x -> match x with LM.ABalance n => n < U128_BOUND | _ => True end.
Proof.
  assert (X : match (let? v := parse t in option_map LM.ABalance (U128 v)) with
              | Some (LM.ABalance n) => n < U128_BOUND | _ => True end).
  { destruct (parse t) as [v|]; [|exact I]. destruct (U128 v) eqn:E; [|exact I]. cbn. now apply rd_dec_fits in E. }
  destruct m; cbn [lockup_reads_answer]; intros H; try (injection H as <-; exact I);
    try (rewrite H in X; destruct x; exact X).
  - destruct (parse t) as [[]|]; try discriminate H. injection H as <-. exact I.
  - destruct (parse t) as [[]|]; try discriminate H; try (injection H as <-; exact I);
      destruct (U64 _); try discriminate H; injection H as <-; exact I.
Qed.

Lemma lockup_understood name text m c s s' p :
  lockup_reads name text = Some (LockupCall m) -> LM.ctx_balance c < U128_BOUND ->
  Forall (fun r => forall x, r = Some x -> exists t, lockup_reads_answer m t = Some x) (LM.ctx_results c) ->
  LM.exec c s m = Ok (s', Some p) ->
  let self := LM.ctx_current c in
  match LM.p_remote p with
  | LM.RIsWhitelisted w q => gets whitelist_reads (lockup_calls self (LM.p_remote p)) w (IsWhitelisted q)
  | LM.RGetResult v => gets voting_reads (lockup_calls self (LM.p_remote p)) v GetResult
  | LM.RPool q op => gets pool_reads (lockup_calls self (LM.p_remote p)) q (wanted self op)
  | LM.RTransfer _ _ | LM.RAddFullAccessKey _ => lockup_calls self (LM.p_remote p) = None
  end /\
  forall cb g, LM.p_then p = Some (cb, g) ->
  gets lockup_reads (lockup_callback self cb) self (LockupCall cb) /\
  match LM.p_remote p with
  | LM.RIsWhitelisted _ _ => forall b, lockup_reads_answer cb (whitelist_answer b) = Some (LM.ABool b)
  | LM.RGetResult _ => forall o, fits_option U64_BOUND o ->
      lockup_reads_answer cb (voting_answer o) = Some (LM.APollResult o)
  | LM.RPool _ op =>
      if asks_balance op
      then forall n, n < U128_BOUND -> lockup_reads_answer cb (pool_answer n) = Some (LM.ABalance n)
      else forall t, lockup_reads_answer cb t = Some LM.AVoid
  | _ => forall t, lockup_reads_answer cb t = Some LM.AVoid
  end.
Proof.
  intros T B A E. cbv zeta. apply lockup_text in T. apply LE.exec_effect in E.
  assert (AN : forall n l, LM.ctx_results c = Some (LM.ABalance n) :: l -> n < U128_BOUND).
  { intros n l R. rewrite R in A. apply Forall_inv in A. destruct (A _ eq_refl) as (t & H). now apply answer_fits in H. }
  clear A.
  assert (GB : LM.get_account_balance (LM.ctx_balance c) < U128_BOUND).
  { unfold LM.get_account_balance, sat_sub. lia. }
  inversion E; subst; clear E; cbn [LM.p_remote LM.p_then].
  all: try match goal with H : LE.owner_op ?m0 = _ |- _ => destruct m0; cbn in H; try discriminate H; injection H as <- <- end.
  all: split; [|intros ? ? [= <- <-]].
  all: repeat match goal with H : LM.ctx_results _ = _ |- _ => apply AN in H end.
  all: try reflexivity.
  all: try (apply pool_reads_wanted; solve [exact I|assumption]).
  all: try (split; [apply lockup_reads_callback; [cbn; solve [exact I|assumption|lia]|eexists; reflexivity]|cbn [asks_balance]]).
  all: try (intros; reflexivity).
  all: try (intros; apply answer_balance; [reflexivity|assumption]).
  - eexists. split; [reflexivity|]. split; [reflexivity|]. cbn [method args].
    unfold whitelist_reads, whitelist_methods. cbn [dispatch String.eqb Ascii.eqb Bool.eqb].
    rewrite with_object. read_fields. reflexivity.
  - intros b. apply answer_bool. eauto.
  - eexists. split; [reflexivity|]. split; reflexivity.
  - exact answer_poll.
Qed.

(** ** The token *)
Lemma wnear_understood c t t' ps v p m msg :
  is_valid_account_id (WN.ctx_predecessor c) = true -> WN.exec c t m = Ok (t', ps, v) -> In p ps ->
  match p with
  | WN.PTransferCall s r a _ =>
      s = WN.ctx_predecessor c /\ m = WN.FtTransferCall r a /\
      gets reads_on_transfer (wnear_calls msg p) r (s, a, msg) /\
      gets wnear_reads (wnear_callback (WN.ctx_current c) p) (WN.ctx_current c) (WN.FtResolveTransfer s r a)
  | WN.PTransfer _ _ => wnear_calls msg p = None
  end.
Proof.
  intros V E I. unfold WN.exec in E.
  destruct (WN.arguments_ok m) eqn:A; [|discriminate E]. cbn [bind require] in E.
  destruct p as [to a|s r a g]; [reflexivity|].
  assert (Q : m = WN.FtTransferCall r a /\ s = WN.ctx_predecessor c).
  { destruct m; try discriminate E;
      try (exfalso; unfold WN.near_deposit, WN.near_withdraw, WN.ft_transfer, WN.ft_resolve_transfer,
             WN.storage_deposit, WN.storage_withdraw, WN.storage_unregister in E;
           repeat (inv_res; match type of E with context[match ?b with _ => _ end] => destruct b; try discriminate E end);
           inv_res; repeat match type of I with context[if ?b then _ else _] => destruct b end;
           cbn in I; repeat destruct I as [I|I]; try discriminate I; contradiction).
    unfold WN.ft_transfer_call in E. inv_res. destruct I as [[= <- <- <- <-]|[]]. auto. }
  destruct Q as (-> & ->). cbn in A. apply andb_true_iff in A as (F1 & F2). apply N.ltb_lt in F2.
  split; [reflexivity|]. split; [reflexivity|]. split.
  - eexists. split; [reflexivity|]. split; [reflexivity|]. cbn [method args].
    unfold reads_on_transfer. cbn [String.eqb Ascii.eqb Bool.eqb]. unfold object. rewrite arguments_print. read_fields.
    rewrite (U128_ok _ F2). reflexivity.
  - eexists. split; [reflexivity|]. split; [reflexivity|]. cbn [method args].
    unfold wnear_reads, wnear_methods. cbn [dispatch String.eqb Ascii.eqb Bool.eqb].
    rewrite with_object. read_fields. rewrite !valid_account_ok, (U128_ok _ F2) by assumption. reflexivity.
Qed.

(** ** Requests of a multisig *)
Lemma strings_ok l : rd_list rd_str (JArr (map JStr l)) = Some l.
Proof. cbn [rd_list]. apply rd_all_ok. apply Forall_forall. reflexivity. Qed.
Lemma permission_ok {A} (acc : rd account_id) (mk : option N -> account_id -> list string -> A) al r ms :
  fits_option U128_BOUND al -> acc (JStr r) = Some r ->
  permission acc mk (wr_permission al r ms) = Some (mk al r ms).
Proof.
  intros H R. unfold permission, wr_permission, rd_obj.
  rewrite (opt_field_ok "allowance" wr_dec U128 _ al)
    by (first [reflexivity|intros y ->; split; [now apply U128_ok|discriminate]]).
  read_fields.
  rewrite R, strings_ok. reflexivity.
Qed.
Lemma action1_ok a : action1_fits a -> action1 (wr_action1 a) = Some a.
Proof.
  destruct a as [n| |c|k [[al r ms]|]|k|m a d g|n|n]; cbn [action1_fits]; intros H;
    unfold action1, wr_action1, rd_obj; read_fields; cbn [rd_str String.eqb Ascii.eqb Bool.eqb option_map].
  - now rewrite (U128_ok _ H).
  - reflexivity.
  - now rewrite rd_base64_ok.
  - read_fields. cbn [M1.allowance M1.perm_receiver M1.method_names] in *.
    match goal with |- context[opt_field _ (permission account M1.mkPermission) ?o] =>
      change (opt_field "permission" (permission account M1.mkPermission) o)
        with (option_map Some (permission account M1.mkPermission (wr_permission al r ms))) end.
    now rewrite permission_ok.
  - reflexivity.
  - reflexivity.
  - rewrite rd_base64_ok. destruct H as (H1 & H2). now rewrite (U128_ok _ H1), (U64_ok _ H2).
  - now rewrite (u32_ok _ H).
  - now rewrite (u32_ok _ H).
Qed.
Lemma request1_ok r : request1_fits r -> request1 (wr_request1 r) = Some r.
Proof.
  intros H. unfold request1, wr_request1, rd_obj. read_fields. cbn [rd_list].
  rewrite rd_all_ok; [now destruct r|]. eapply Forall_impl; [|exact H]. exact action1_ok.
Qed.
Lemma member2_ok m : member_fits m -> member valid_account (wr_member m) = Some m.
Proof. intros H. apply member_ok. destruct m; [exact I|]. now apply valid_account_ok. Qed.
Lemma action2_ok a : action2_fits a -> action2 (wr_action2 a) = Some a.
Proof.
  destruct a as [n| |c|m|m|k [[al r ms]|]|m a d g|n|n]; cbn [action2_fits]; intros H;
    unfold action2, wr_action2, rd_obj; read_fields; cbn [rd_str String.eqb Ascii.eqb Bool.eqb option_map].
  - now rewrite (U128_ok _ H).
  - reflexivity.
  - now rewrite rd_base64_ok.
  - now rewrite member2_ok.
  - now rewrite member2_ok.
  - read_fields. cbn [M2.allowance M2.perm_receiver M2.method_names] in *. destruct H as (H1 & H2).
    match goal with |- context[opt_field _ (permission valid_account M2.mkPermission) ?o] =>
      change (opt_field "permission" (permission valid_account M2.mkPermission) o)
        with (option_map Some (permission valid_account M2.mkPermission (wr_permission al r ms))) end.
    rewrite permission_ok; [reflexivity|assumption|now apply valid_account_ok].
  - reflexivity.
  - rewrite rd_base64_ok. destruct H as (H1 & H2). now rewrite (U128_ok _ H1), (U64_ok _ H2).
  - now rewrite (u32_ok _ H).
  - now rewrite (u32_ok _ H).
Qed.
Lemma request2_ok r : request2_fits r -> request2 (wr_request2 r) = Some r.
Proof.
  intros (V & H). unfold request2, wr_request2, rd_obj. read_fields. cbn [rd_list]. rewrite (valid_account_ok _ V).
  rewrite rd_all_ok; [now destruct r|]. eapply Forall_impl; [|exact H]. exact action2_ok.
Qed.

(** Conversely, what is read fits. *)
Lemma rd_all_each {A} (r : rd A) (P : A -> Prop) l xs :
  (forall v x, r v = Some x -> P x) -> rd_all r l = Some xs -> Forall P xs.
Proof.
  intros H. revert xs. induction l as [|v l IH]; cbn; intros xs E; [injection E as <-; constructor|].
  destruct (r v) eqn:R; [|discriminate]. destruct (rd_all r l); [|discriminate]. injection E as <-. constructor; eauto.
Qed.
Lemma rd_obj_inv {A} f v (x : A) : rd_obj f v = Some x -> exists o, f o = Some x.
Proof. destruct v; try discriminate. cbn. eauto. Qed.
Lemma field_list {A} n (r : rd A) (P : A -> Prop) o xs :
  (forall v x, r v = Some x -> P x) -> field n (rd_list r) o = Some xs -> Forall P xs.
Proof. intros H (v & E)%field_some. destruct v; try discriminate. eapply rd_all_each; eauto. Qed.
Lemma option_map_inv {A B} (f : A -> B) o y : option_map f o = Some y -> exists x, o = Some x /\ y = f x.
Proof. destruct o; [|discriminate]. intros [= <-]. eauto. Qed.
Lemma opt_field_U128 n o x : opt_field n U128 o = Some x -> fits_option U128_BOUND x.
Proof. destruct x as [x|]; [|easy]. intros (v & H)%opt_field_some. now apply rd_dec_fits in H. Qed.
Lemma valid_account_read v a : valid_account v = Some a -> is_valid_account_id a = true.
Proof.
  unfold valid_account. destruct v; try discriminate. destruct (is_valid_account_id s) eqn:E; [|discriminate].
  now intros [= <-].
Qed.
Lemma field_valid n o a : field n valid_account o = Some a -> is_valid_account_id a = true.
Proof. intros (v & H)%field_some. now apply valid_account_read in H. Qed.
Lemma action1_read v a : action1 v = Some a -> action1_fits a.
Proof.
  intros (o & E)%rd_obj_inv. get_fields E.
  repeat match type of E with (if ?b then _ else _) = _ => destruct b end; try discriminate E;
    try (apply option_map_inv in E; destruct E as (x & E & ->)); try (get_fields E); try (injection E as <-);
    cbn [action1_fits]; try exact I; try (eapply field_U128; eassumption); try (eapply field_u32; eassumption).
  - match goal with |- match ?p with _ => _ end => destruct p as [p|]; [|exact I] end.
    match goal with H : opt_field _ _ _ = Some (Some _) |- _ => apply opt_field_some in H; destruct H as (w & H);
      apply rd_obj_inv in H; destruct H as (o' & H); get_fields H; injection H as <- end.
    cbn [M1.allowance]. eapply opt_field_U128. eassumption.
  - split; [eapply field_U128; eassumption|eapply field_U64; eassumption].
Qed.
Lemma request1_read v r : request1 v = Some r -> request1_fits r.
Proof.
  intros (o & E)%rd_obj_inv. get_fields E. injection E as <-. unfold request1_fits. cbn [M1.actions].
  eapply field_list; [|eassumption]. exact action1_read.
Qed.
Lemma member2_read v m : member valid_account v = Some m -> member_fits m.
Proof.
  unfold member. destruct (rd_obj (field "public_key" key) v); [intros [= <-]; exact I|].
  intros (a & (o & E)%rd_obj_inv & ->)%option_map_inv. now apply field_valid in E.
Qed.
Lemma action2_read v a : action2 v = Some a -> action2_fits a.
Proof.
  intros (o & E)%rd_obj_inv. get_fields E.
  repeat match type of E with (if ?b then _ else _) = _ => destruct b end; try discriminate E;
    try (apply option_map_inv in E; destruct E as (x & E & ->)); try (get_fields E); try (injection E as <-);
    cbn [action2_fits]; try exact I; try (eapply field_U128; eassumption); try (eapply field_u32; eassumption);
    try (apply field_some in E; destruct E as (w & E); now apply member2_read in E).
  - match goal with |- match ?p with _ => _ end => destruct p as [p|]; [|exact I] end.
    match goal with H : opt_field _ _ _ = Some (Some _) |- _ => apply opt_field_some in H; destruct H as (w & H);
      apply rd_obj_inv in H; destruct H as (o' & H); get_fields H; injection H as <- end.
    cbn [M2.allowance M2.perm_receiver]. split; [eapply opt_field_U128; eassumption|eapply field_valid; eassumption].
  - split; [eapply field_U128; eassumption|eapply field_U64; eassumption].
Qed.
Lemma request2_read v r : request2 v = Some r -> request2_fits r.
Proof.
  intros (o & E)%rd_obj_inv. get_fields E. injection E as <-. split; cbn [M2.actions M2.receiver_id].
  - eapply field_valid; eassumption.
  - eapply field_list; [|eassumption]. exact action2_read.
Qed.

(** ** What can be asked of each contract *)
Ltac writes := cbn [dispatch String.eqb Ascii.eqb Bool.eqb]; unfold amount_of; rewrite ?with_object; read_fields.
Lemma lockup_written m : lockup_fits m -> exists name text, lockup_reads name text = Some (LockupCall m).
Proof.
  intros F. destruct (lockup_callback "" m) as [x|] eqn:E.
  - destruct (lockup_reads_callback "" m F (ex_intro _ x E)) as (y & _ & _ & R). eauto.
  - unfold lockup_reads, lockup_methods.
    destruct m; try discriminate E; cbn [lockup_fits] in F.
    + exists "select_staking_pool", (object [("staking_pool_account_id", JStr pool)]). now writes.
    + exists "unselect_staking_pool", "". reflexivity.
    + exists "deposit_to_staking_pool", (object [("amount", wr_dec amount)]). writes. now rewrite U128_ok.
    + exists "deposit_and_stake", (object [("amount", wr_dec amount)]). writes. now rewrite U128_ok.
    + exists "refresh_staking_pool_balance", "". reflexivity.
    + exists "withdraw_from_staking_pool", (object [("amount", wr_dec amount)]). writes. now rewrite U128_ok.
    + exists "withdraw_all_from_staking_pool", "". reflexivity.
    + exists "stake", (object [("amount", wr_dec amount)]). writes. now rewrite U128_ok.
    + exists "unstake", (object [("amount", wr_dec amount)]). writes. now rewrite U128_ok.
    + exists "unstake_all", "". reflexivity.
    + exists "check_transfers_vote", "". reflexivity.
    + exists "transfer", (object [("amount", wr_dec amount); ("receiver_id", JStr receiver)]). writes. now rewrite U128_ok.
    + exists "add_full_access_key", (object [("new_public_key", JStr pk)]). now writes.
    + destruct o as [[s t]|].
      * exists "terminate_vesting", (object [("vesting_schedule_with_salt",
          JObj [("vesting_schedule", wr_schedule s); ("salt", wr_base64 t)])]). writes.
        match goal with |- context[opt_field ?n schedule_with_salt [(_, ?v)]] =>
          change (opt_field n schedule_with_salt [(n, v)]) with (option_map Some (schedule_with_salt v)) end.
        unfold schedule_with_salt, rd_obj. read_fields. now rewrite schedule_ok, rd_base64_ok.
      * exists "terminate_vesting", (object []). now writes.
    + exists "termination_prepare_to_withdraw", "". reflexivity.
    + exists "termination_withdraw", (object [("receiver_id", JStr receiver)]). now writes.
Qed.
Lemma lockup_asked m : (exists name text, lockup_reads name text = Some (LockupCall m)) <-> lockup_fits m.
Proof. split; [intros (n & t & H); now apply lockup_text in H|apply lockup_written]. Qed.

Lemma pool_text name text m : pool_reads name text = Some (PoolCall m) -> pool_fits m.
Proof.
  intros (f & I & E)%dispatch_inv. cbn in I.
  repeat (destruct I as [[= <- <-]|I];
    [first [apply with_args_inv in E; destruct E as (o & E); get_fields E|idtac];
     first [discriminate E|injection E as <-]; cbn [pool_fits]; try exact Logic.I; try (eapply field_U128; eassumption)|]);
    try contradiction.
  match goal with F : field _ fraction _ = _ |- _ => apply field_some in F; destruct F as (v & F); now apply fraction_read in F end.
Qed.
Lemma pool_written m : pool_fits m -> exists name text, pool_reads name text = Some (PoolCall m).
Proof.
  unfold pool_reads, pool_methods. destruct m; cbn [pool_fits]; intros F.
  - exists "ping", "". reflexivity.
  - exists "deposit", "". reflexivity.
  - exists "deposit_and_stake", "". reflexivity.
  - exists "withdraw_all", "". reflexivity.
  - exists "withdraw", (object [("amount", wr_dec amount)]). writes. now rewrite U128_ok.
  - exists "stake_all", "". reflexivity.
  - exists "stake", (object [("amount", wr_dec amount)]). writes. now rewrite U128_ok.
  - exists "unstake_all", "". reflexivity.
  - exists "unstake", (object [("amount", wr_dec amount)]). writes. now rewrite U128_ok.
  - exists "on_stake_action", "". reflexivity.
  - exists "update_staking_key", (object [("stake_public_key", JStr key)]). now writes.
  - exists "update_reward_fee_fraction", (object [("reward_fee_fraction", wr_fraction f)]). writes.
    destruct F. now rewrite fraction_ok.
  - exists "vote", (object [("voting_account_id", JStr voting_account_id); ("is_vote", JBool is_vote)]). now writes.
  - exists "pause_staking", "". reflexivity.
  - exists "resume_staking", "". reflexivity.
Qed.
Lemma pool_asked m : (exists name text, pool_reads name text = Some (PoolCall m)) <-> pool_fits m.
Proof. split; [intros (n & t & H); now apply pool_text in H|apply pool_written]. Qed.

Lemma whitelist_asked m : exists name text, whitelist_reads name text = Some (WhitelistCall m).
Proof.
  unfold whitelist_reads, whitelist_methods. destruct m as [p|p|f|f].
  - exists "add_staking_pool", (object [("staking_pool_account_id", JStr p)]). now writes.
  - exists "remove_staking_pool", (object [("staking_pool_account_id", JStr p)]). now writes.
  - exists "add_factory", (object [("factory_account_id", JStr f)]). now writes.
  - exists "remove_factory", (object [("factory_account_id", JStr f)]). now writes.
Qed.

Definition request_text1 (r : M1.request) : string := object [("request", wr_request1 r)].
Definition request_text2 (r : M2.request) : string := object [("request", wr_request2 r)].
Definition id_text (i : N) : string := object [("request_id", JNum i)].
Lemma multisig_reads_request r : request1_fits r ->
  multisig_reads "add_request" (request_text1 r) = Some (M1.CAddRequest r) /\
  multisig_reads "add_request_and_confirm" (request_text1 r) = Some (M1.CAddRequestAndConfirm r).
Proof.
  intros H. unfold multisig_reads, multisig_methods, request_text1. writes. now rewrite request1_ok.
Qed.
Lemma multisig_reads_id i : i < U32_BOUND ->
  multisig_reads "confirm" (id_text i) = Some (M1.CConfirm i) /\
  multisig_reads "delete_request" (id_text i) = Some (M1.CDeleteRequest i).
Proof. intros H. unfold multisig_reads, multisig_methods, id_text. writes. now rewrite u32_ok. Qed.
Lemma multisig_text name text m : multisig_reads name text = Some m -> multisig_fits m.
Proof.
  intros (f & I & E)%dispatch_inv. cbn in I.
  repeat (destruct I as [[= <- <-]|I];
    [apply with_args_inv in E; destruct E as (o & E); apply option_map_inv in E; destruct E as (x & E & ->);
     cbn [multisig_fits]; first [eapply field_u32; eassumption|
       apply field_some in E; destruct E as (v & E); now apply request1_read in E]|]); contradiction.
Qed.
Lemma multisig_asked m : (exists name text, multisig_reads name text = Some m) <-> multisig_fits m.
Proof.
  split; [intros (n & t & H); now apply multisig_text in H|]. destruct m; cbn [multisig_fits]; intros H.
  - destruct (multisig_reads_request r H). eauto.
  - destruct (multisig_reads_request r H). eauto.
  - destruct (multisig_reads_id id H). eauto.
  - destruct (multisig_reads_id id H). eauto.
Qed.
Lemma multisig2_reads_request r : request2_fits r ->
  multisig2_reads "add_request" (request_text2 r) = Some (M2.CAddRequest r) /\
  multisig2_reads "add_request_and_confirm" (request_text2 r) = Some (M2.CAddRequestAndConfirm r).
Proof.
  intros H. unfold multisig2_reads, multisig2_methods, request_text2. writes. now rewrite request2_ok.
Qed.
Lemma multisig2_reads_id i : i < U32_BOUND ->
  multisig2_reads "confirm" (id_text i) = Some (M2.CConfirm i) /\
  multisig2_reads "delete_request" (id_text i) = Some (M2.CDeleteRequest i).
Proof. intros H. unfold multisig2_reads, multisig2_methods, id_text. writes. now rewrite u32_ok. Qed.
Lemma multisig2_text name text m : multisig2_reads name text = Some m -> multisig2_fits m.
Proof.
  intros (f & I & E)%dispatch_inv. cbn in I.
  repeat (destruct I as [[= <- <-]|I];
    [apply with_args_inv in E; destruct E as (o & E); apply option_map_inv in E; destruct E as (x & E & ->);
     cbn [multisig2_fits]; first [eapply field_u32; eassumption|
       apply field_some in E; destruct E as (v & E); now apply request2_read in E]|]); contradiction.
Qed.
Lemma multisig2_asked m : (exists name text, multisig2_reads name text = Some m) <-> multisig2_fits m.
Proof.
  split; [intros (n & t & H); now apply multisig2_text in H|]. destruct m; cbn [multisig2_fits]; intros H.
  - destruct (multisig2_reads_request r H). eauto.
  - destruct (multisig2_reads_request r H). eauto.
  - destruct (multisig2_reads_id id H). eauto.
  - destruct (multisig2_reads_id id H). eauto.
Qed.
Lemma resubmitted1 name text r :
  multisig_reads name text = Some (M1.CAddRequest r) \/ multisig_reads name text = Some (M1.CAddRequestAndConfirm r) ->
  let again := object [("request", wr_request1 r)] in
  multisig_reads "add_request" again = Some (M1.CAddRequest r) /\
  multisig_reads "add_request_and_confirm" again = Some (M1.CAddRequestAndConfirm r).
Proof. intros H. apply multisig_reads_request. destruct H as [H|H]; exact (multisig_text _ _ _ H). Qed.
Lemma resubmitted2 name text r :
  multisig2_reads name text = Some (M2.CAddRequest r) \/ multisig2_reads name text = Some (M2.CAddRequestAndConfirm r) ->
  let again := object [("request", wr_request2 r)] in
  multisig2_reads "add_request" again = Some (M2.CAddRequest r) /\
  multisig2_reads "add_request_and_confirm" again = Some (M2.CAddRequestAndConfirm r).
Proof. intros H. apply multisig2_reads_request. destruct H as [H|H]; exact (multisig2_text _ _ _ H). Qed.
Lemma wnear_answer_read n : n < U128_BOUND -> wnear_reads_answer (print (wr_dec n)) = WN.Unused n.
Proof. intros H. unfold wnear_reads_answer. now rewrite parse_print, U128_ok. Qed.
