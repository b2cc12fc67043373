(** The contracts read what their interface says. *)
From Coq Require Import NArith List Bool String Ascii Lia DecimalString.
From Verif Require Import Prelude PreludeFacts StateManipulationModel JsonModel JsonSpec JsonProofs JsonGrammar WireModel
  WireSpec WireApi WireProofs.
Import ListNotations.
Open Scope string_scope.
Open Scope N_scope.

Arguments once : simpl never.
Arguments amount : simpl never.
Arguments base64 : simpl never.

(** * Fields *)
Lemma named_absent k o : absent k o -> named k o = [].
Proof.
  unfold absent, named. induction o as [|[n v] o IH]; cbn; [reflexivity|]. intros H.
  destruct (String.eqb_spec n k) as [->|]; [now exfalso; apply H; left|]. apply IH. intros I. apply H. now right.
Qed.
Lemma named_app k a b : named k (a ++ b)%list = (named k a ++ named k b)%list.
Proof. unfold named. now rewrite filter_app, map_app. Qed.
Lemma named_once k v o : once k v o -> named k o = [v].
Proof.
  intros (a & b & -> & A & B). change ((k, v) :: b) with ([(k, v)] ++ b)%list.
  rewrite !named_app, (named_absent k a A), (named_absent k b B).
  unfold named. cbn. rewrite String.eqb_refl. reflexivity.
Qed.

Definition has (args o : list (string * json)) : Prop :=
  forall k v, In (k, v) args -> named k o = [v] \/ (v = JNull /\ named k o = []).
Lemma gives_args {A} (f : list (string * json) -> option A) text args : args <> [] -> gives text args ->
  exists o, with_args f text = f o /\ has args o.
Proof.
  intros N [->|(o & D & H)]; [now exfalso|]. apply parse_document in D. exists o. split.
  - unfold with_args, arguments. now rewrite D.
  - intros k v I. destruct (H k v I) as [O|(-> & O)]; [left; now apply named_once|right; split; [reflexivity|]].
    now apply named_absent.
Qed.
Lemma field_given {A} (r : rd A) args o k v : has args o -> In (k, v) args -> v <> JNull -> field k r o = r v.
Proof. intros H I N. destruct (H k v I) as [E|[-> _]]; [|now exfalso]. unfold field. now rewrite E. Qed.
Lemma opt_given {A} (r : rd A) (w : A -> json) args o k x : has args o -> In (k, nullable w x) args ->
  (forall y, x = Some y -> r (w y) = Some y /\ w y <> JNull) -> opt_field k r o = Some x.
Proof.
  intros H I R. unfold opt_field. destruct (H k _ I) as [E|[N E]]; rewrite E.
  - destruct x as [y|]; [|reflexivity]. destruct (R y eq_refl) as (R' & NN). cbn [nullable].
    destruct (w y) eqn:W; rewrite ?R'; try reflexivity. congruence.
  - destruct x as [y|]; [|reflexivity]. destruct (R y eq_refl) as (_ & NN). now exfalso.
Qed.

Ltac inlist := solve [repeat first [left; reflexivity|right]].
Ltac given G :=
  match type of G with
  | has ?args ?o =>
    repeat match goal with
      | |- context[field ?k ?r o] =>
          let v := lookup k args in
          rewrite (field_given r args o k v G) by first [inlist|discriminate|destruct v; discriminate]
      end
  end.
Ltac begins T G := intros T; cbn [snd fst];
  cbn [dispatch String.eqb Ascii.eqb Bool.eqb fst]; unfold amount_of;
  match type of T with
  | gives _ ?args =>
    match goal with |- with_args ?f ?t = _ =>
      let o := fresh "o" in let E := fresh "E" in
      destruct (gives_args f t args ltac:(discriminate) T) as (o & E & G); rewrite E; clear E; cbn beta
    end
  end.
Lemma amount_64 n : n < U64_BOUND -> U64 (amount n) = Some n.
Proof. apply U64_ok. Qed.
Lemma amount_128 n : n < U128_BOUND -> U128 (amount n) = Some n.
Proof. apply U128_ok. Qed.
Lemma opt_U64 k o args x : has args o -> In (k, nullable amount x) args -> fits_option U64_BOUND x ->
  opt_field k U64 o = Some x.
Proof. intros G I F. apply (opt_given U64 amount args o k x G I). intros y ->. split; [now apply amount_64|discriminate]. Qed.
Lemma opt_U128 k o args x : has args o -> In (k, nullable amount x) args -> fits_option U128_BOUND x ->
  opt_field k U128 o = Some x.
Proof. intros G I F. apply (opt_given U128 amount args o k x G I). intros y ->. split; [now apply amount_128|discriminate]. Qed.
Lemma opt_account k o args x : has args o -> In (k, nullable JStr x) args -> opt_field k account o = Some x.
Proof. intros G I. apply (opt_given account JStr args o k x G I). intros y ->. split; [reflexivity|discriminate]. Qed.
Lemma opt_str k o args x : has args o -> In (k, nullable JStr x) args -> opt_field k rd_str o = Some x.
Proof. exact (opt_account k o args x). Qed.
Lemma opt_valid k o args x : has args o -> In (k, nullable JStr x) args -> valid_option x ->
  opt_field k valid_account o = Some x.
Proof.
  intros G I F. apply (opt_given valid_account JStr args o k x G I). intros y ->.
  split; [now apply valid_account_ok|discriminate].
Qed.
Lemma opt_bool k o args x : has args o -> In (k, nullable JBool x) args -> opt_field k rd_bool o = Some x.
Proof. intros G I. apply (opt_given rd_bool JBool args o k x G I). intros y ->. split; [reflexivity|discriminate]. Qed.
Lemma vesting_fits_some x : vesting_fits (Some x) -> schedule_or_hash_fits x.
Proof. destruct x; exact (fun H => H). Qed.
Lemma opt_vesting k o args x : has args o -> In (k, nullable schedule_or_hash_of x) args -> vesting_fits x ->
  opt_field k schedule_or_hash o = Some x.
Proof.
  intros G I F. apply (opt_given schedule_or_hash schedule_or_hash_of args o k x G I). intros y ->. split.
  - change (schedule_or_hash_of y) with (wr_schedule_or_hash y). now apply schedule_or_hash_ok, vesting_fits_some.
  - change (schedule_or_hash_of y) with (wr_schedule_or_hash y). apply wr_schedule_or_hash_not_null.
Qed.
Lemma opt_field_vesting n o x : opt_field n schedule_or_hash o = Some x -> vesting_fits x.
Proof. intros H. apply opt_field_schedule in H. destruct x as [[]|]; exact H. Qed.
Lemma opt_field_valid n o x : opt_field n valid_account o = Some x -> valid_option x.
Proof. destruct x as [x|]; [|easy]. intros (v & H)%opt_field_some. now apply valid_account_read in H. Qed.
Lemma fraction_given f : fraction_fits f -> fraction (fraction_of f) = Some f.
Proof. intros []. now apply fraction_ok. Qed.

(** What is read by a method of the table is of the form that the table gives. *)
Ltac rows E :=
  first [apply with_args_inv in E; destruct E as (? & E)|idtac];
  try (apply option_map_inv in E; destruct E as (? & ? & ->)); try (get_fields E);
  first [discriminate E|injection E as <-|idtac].
Ltac reads_back H :=
  let f := fresh "f" in let I := fresh "I" in let E := fresh "E" in
  apply dispatch_inv in H; destruct H as (f & I & E); cbn in I;
  repeat (destruct I as [I|I]; [injection I as <- <-; rows E; (split; [reflexivity|])|]); try contradiction.
Ltac bounds := repeat match goal with
  | |- _ /\ _ => split
  | |- True => exact I
  | |- _ => eapply field_U128; eassumption
  | |- _ => eapply field_U64; eassumption
  | |- _ => eapply field_u32; eassumption
  | |- _ => eapply field_valid; eassumption
  | |- _ => eapply opt_field_U64; eassumption
  | |- _ => eapply opt_field_U128; eassumption
  | |- _ => eapply opt_field_valid; eassumption
  | |- _ => eapply opt_field_vesting; eassumption
  | F : field _ fraction _ = _ |- fraction_fits _ => apply field_some in F; destruct F as (? & F); now apply fraction_read in F
  end.

(** * The contracts *)
Lemma pool_speaks : speaks pool_reads pool_api pool_possible.
Proof.
  intros q. split.
  - intros P text. unfold pool_reads, pool_methods.
    destruct q as [a k f|m|u|u|u]; [|destruct m| | |]; cbn [pool_possible pool_fits] in P; cbn [pool_api fst snd];
      try (intros _; reflexivity); begins T G; given G;
      rewrite ?amount_128, ?fraction_given by assumption; reflexivity.
  - intros name text H. reads_back H; cbn [pool_possible pool_fits]; bounds.
Qed.
Lemma whitelist_speaks : speaks whitelist_reads whitelist_api (fun _ => True).
Proof.
  intros q. split.
  - intros _ text. unfold whitelist_reads, whitelist_methods.
    destruct q as [a|m|p|p]; [|destruct m| |]; cbn [whitelist_api fst snd]; begins T G; given G; reflexivity.
  - intros name text H. reads_back H; exact I.
Qed.
Lemma voting_speaks : speaks voting_reads voting_api (fun _ => True).
Proof.
  intros q. split.
  - intros _ text. unfold voting_reads, voting_methods.
    destruct q as [|m|]; [|destruct m|]; cbn [voting_api fst snd];
      try (intros _; reflexivity); begins T G; given G; reflexivity.
  - intros name text H. reads_back H; exact I.
Qed.
Lemma pool_factory_speaks : speaks pool_factory_reads pool_factory_api pool_factory_possible.
Proof.
  intros q. split.
  - intros P text. unfold pool_factory_reads, pool_factory_methods.
    destruct q as [a|m]; [|destruct m]; cbn [pool_factory_possible] in P; cbn [pool_factory_api fst snd];
      begins T G; given G; rewrite ?amount_128, ?fraction_given by assumption; reflexivity.
  - intros name text H. reads_back H; cbn [pool_factory_possible]; bounds.
Qed.
Lemma lockup_speaks : speaks lockup_reads lockup_api lockup_possible.
Proof.
  intros q. split.
  - intros P text. unfold lockup_reads, lockup_methods.
    destruct q as [a|m]; [|destruct m]; cbn [lockup_possible lockup_fits] in P; cbn [lockup_api fst snd];
      try (intros _; reflexivity).
    + destruct a as [o d t i v r w f]. cbn [LF.a_owner_account_id LF.a_lockup_duration LF.a_lockup_timestamp LF.a_transfers_information
        LF.a_vesting_schedule LF.a_release_duration LF.a_staking_pool_whitelist_account_id LF.a_foundation_account_id] in *.
      destruct P as (P1 & P2 & P3 & P4 & P5). begins T G.
      match type of G with has ?args ?x =>
        rewrite (field_given transfers args x "transfers_information" (transfers_of i) G)
          by first [inlist|destruct i; discriminate];
        rewrite (opt_U64 "lockup_timestamp" x args t G) by first [inlist|assumption];
        rewrite (opt_U64 "release_duration" x args r G) by first [inlist|assumption];
        rewrite (opt_vesting "vesting_schedule" x args v G) by first [inlist|assumption];
        rewrite (opt_account "foundation_account_id" x args f G) by inlist
      end.
      given G. change (transfers_of i) with (wr_transfers i). rewrite (transfers_ok i P3), (amount_64 d P1). reflexivity.
    + begins T G; given G; reflexivity.
    + begins T G; given G; now rewrite ?amount_128 by assumption.
    + begins T G; given G; now rewrite ?amount_128 by assumption.
    + begins T G; given G; now rewrite ?amount_128 by assumption.
    + begins T G; given G; now rewrite ?amount_128 by assumption.
    + begins T G; given G; now rewrite ?amount_128 by assumption.
    + begins T G; given G; now rewrite ?amount_128 by assumption.
    + begins T G; given G; reflexivity.
    + begins T G. match type of G with has ?args ?x =>
        erewrite (opt_given schedule_with_salt _ args x "vesting_schedule_with_salt" o G);
          [reflexivity|inlist|]
      end.
      intros [s t] ->. split; [|discriminate]. cbn [fst snd]. unfold schedule_with_salt, rd_obj. read_fields.
      change (schedule_of s) with (wr_schedule s). change (base64 t) with (wr_base64 t).
      now rewrite schedule_ok, rd_base64_ok.
    + begins T G; given G; reflexivity.
    + begins T G; given G; reflexivity.
    + begins T G; given G; now rewrite ?amount_128 by assumption.
    + begins T G; given G; now rewrite ?amount_128 by assumption.
    + begins T G; given G; now rewrite ?amount_128 by assumption.
    + begins T G; given G; now rewrite ?amount_128 by assumption.
    + begins T G; given G; now rewrite ?amount_128 by assumption.
    + begins T G; given G; now rewrite ?amount_128 by assumption.
    + begins T G; given G; now rewrite ?amount_128 by assumption.
    + begins T G; given G; now rewrite ?amount_128 by assumption.
  - intros name text H. pose proof H as H'. reads_back H; cbn [lockup_possible lockup_fits]; bounds;
      try (now apply lockup_text in H').
    match goal with F : field _ transfers _ = _ |- _ => apply field_some in F; destruct F as (w & F); revert F end.
    cbn [LF.a_transfers_information]. unfold transfers. destruct (variant w) as [xv|]; [|discriminate].
    destruct (String.eqb _ _).
    + intros (yy & FF)%rd_obj_inv. apply option_map_inv in FF as (zz & FF & ->). eapply field_U64; eassumption.
    + destruct (String.eqb _ _); [|discriminate].
      intros (yy & FF)%rd_obj_inv. apply option_map_inv in FF as (zz & FF & ->). exact I.
Qed.
Lemma lockup_factory_speaks : speaks lockup_factory_reads lockup_factory_api lockup_factory_possible.
Proof.
  intros q. split.
  - intros P text. unfold lockup_factory_reads, lockup_factory_methods.
    destruct q as [w f|[o d t v r w|a d p]]; cbn [lockup_factory_possible] in P; cbn [lockup_factory_api fst snd].
    + destruct P. begins T G; given G; now rewrite !valid_account_ok by assumption.
    + destruct P as (P1 & P2 & P3 & P4 & P5 & P6). begins T G.
      match type of G with has ?args ?x =>
        rewrite (opt_U64 "lockup_timestamp" x args t G) by first [inlist|assumption];
        rewrite (opt_U64 "release_duration" x args r G) by first [inlist|assumption];
        rewrite (opt_vesting "vesting_schedule" x args v G) by first [inlist|assumption];
        rewrite (opt_valid "whitelist_account_id" x args w G) by first [inlist|assumption]
      end.
      given G. now rewrite valid_account_ok, (amount_64 d P2) by assumption.
    + begins T G; given G; now rewrite ?amount_128 by assumption.
  - intros name text H. reads_back H; cbn [lockup_factory_possible]; bounds.
Qed.

Lemma members_given acc ms : (forall m, In m ms -> match m with M2.Account a => acc (JStr a) = Some a | _ => True end) ->
  rd_list (member acc) (JArr (map member_of ms)) = Some ms.
Proof.
  cbn [rd_list]. change member_of with wr_member. intros H. apply rd_all_ok. apply Forall_forall. intros m I.
  apply member_ok, H, I.
Qed.
Lemma multisig_factory_speaks :
  speaks multisig_factory_reads (fun q => let '(n, ms, k) := q in ("create", ("name", JStr n) :: members_api ms k))
    (fun q => snd q < U64_BOUND).
Proof.
  intros [[n ms] k]. split.
  - intros P text. unfold multisig_factory_reads, members_api. cbn [fst snd] in *. begins T G. given G.
    rewrite members_given by (intros []; reflexivity). now rewrite (u64_ok _ P).
  - intros name text H. unfold multisig_factory_reads in H.
    apply dispatch_inv in H as (f & [[= <- <-]|[]] & E). apply with_args_inv in E as (o & E). get_fields E.
    injection E as <- <- <-. split; [reflexivity|]. cbn [snd].
    match goal with F : field _ u64 _ = _ |- _ => apply field_some in F; destruct F as (v & F); now apply rd_num_fits in F end.
Qed.
Lemma multisig2_new_speaks :
  speaks multisig2_reads_new (fun q => ("new", members_api (fst q) (snd q)))
    (fun q => Forall member_fits (fst q) /\ snd q < U32_BOUND).
Proof.
  intros [ms k]. split.
  - intros [P1 P2] text. unfold multisig2_reads_new, members_api. cbn [fst snd] in *. begins T G. given G.
    rewrite members_given; [now rewrite (u32_ok _ P2)|]. intros m I. apply Forall_forall with (x := m) in P1; [|exact I].
    destruct m; [exact Logic.I|]. now apply valid_account_ok.
  - intros name text H. unfold multisig2_reads_new in H.
    apply dispatch_inv in H as (f & [[= <- <-]|[]] & E). apply with_args_inv in E as (o & E). get_fields E.
    injection E as <- <-. split; [reflexivity|]. cbn [fst snd]. split; [|bounds].
    eapply field_list; [|eassumption]. exact member2_read.
Qed.
Lemma multisig_new_speaks :
  speaks multisig_reads_new (fun k => ("new", [("num_confirmations", JNum k)])) (fun k => k < U32_BOUND).
Proof.
  intros k. split.
  - intros P text. unfold multisig_reads_new. cbn [fst snd] in *. begins T G. given G. now apply u32_ok.
  - intros name text H. unfold multisig_reads_new in H. reads_back H. bounds.
Qed.
Lemma multisig_speaks : speaks multisig_reads multisig_api multisig_fits.
Proof.
  intros q. split.
  - intros P text. unfold multisig_reads, multisig_methods. destruct q; cbn [multisig_fits] in P; cbn [multisig_api fst snd];
      begins T G; given G; try (change (request1_of r) with (wr_request1 r); now rewrite request1_ok); now rewrite u32_ok.
  - intros name text H. pose proof H as H'. reads_back H; now apply multisig_text in H'.
Qed.
Lemma multisig2_speaks : speaks multisig2_reads multisig2_api multisig2_fits.
Proof.
  intros q. split.
  - intros P text. unfold multisig2_reads, multisig2_methods. destruct q; cbn [multisig2_fits] in P; cbn [multisig2_api fst snd];
      begins T G; given G; try (change (request2_of r) with (wr_request2 r); now rewrite request2_ok); now rewrite u32_ok.
  - intros name text H. pose proof H as H'. reads_back H; now apply multisig2_text in H'.
Qed.
Lemma wnear_speaks memo note : speaks wnear_reads (wnear_api memo note) wnear_possible.
Proof.
  intros q. split.
  - intros P text. unfold wnear_reads, wnear_methods. destruct q; cbn [wnear_possible] in P; cbn [wnear_api fst snd];
      try (intros _; reflexivity); begins T G; given G.
    + now rewrite amount_128.
    + destruct P. match type of G with has ?args ?x => rewrite (opt_str "memo" x args memo G) by inlist end.
      now rewrite amount_128, valid_account_ok.
    + destruct P. match type of G with has ?args ?x => rewrite (opt_str "memo" x args memo G) by inlist end.
      now rewrite amount_128, valid_account_ok.
    + destruct P as (P1 & P2 & P3). now rewrite amount_128, !valid_account_ok by assumption.
    + match type of G with has ?args ?x => rewrite (opt_valid "account_id" x args _ G) by first [inlist|exact P];
        rewrite (opt_bool "registration_only" x args _ G) by inlist end. reflexivity.
    + match type of G with has ?args ?x => rewrite (opt_U128 "amount" x args _ G) by first [inlist|exact P] end. reflexivity.
    + match type of G with has ?args ?x => rewrite (opt_bool "force" x args _ G) by inlist end. reflexivity.
  - intros name text H. reads_back H; cbn [wnear_possible]; bounds.
Qed.


(** * Amounts *)
Lemma of_decimal_all s n : of_decimal s = Some n -> all_digits s = true.
Proof.
  unfold of_decimal. destruct (NilEmpty.uint_of_string s) as [u|] eqn:U; [|discriminate]. intros _. revert u U.
  induction s as [|c s IH]; [reflexivity|]. intros u. cbn [NilEmpty.uint_of_string].
  destruct (NilEmpty.uint_of_string s) as [w|]; [|bits c; discriminate].
  cbn [all_digits]. rewrite (IH w eq_refl). bits c; cbn; congruence.
Qed.
Lemma of_decimal_digits s n : of_decimal s = Some n <-> more_digits 0 s n.
Proof.
  revert n. induction s as [|c s IH]; intros n.
  - split; [intros [= <-]; constructor|]. intros H. inversion H. subst. reflexivity.
  - destruct (Ascii.eqb_spec c "0") as [->|NZ].
    + transitivity (more_digits 0 s n).
      * rewrite <- IH. unfold of_decimal. cbn [NilEmpty.uint_of_string]. destruct (NilEmpty.uint_of_string s); reflexivity.
      * split; intros H.
        -- apply more_one with 0; [cbn; auto|exact H].
        -- inversion H as [|? ? d ? ? D M]; subst. apply digit_in in D as [_ ->]. exact M.
    + assert (K : all_digits (String c s) = true ->
                  exists d, In (c, d) digit_values /\ d <> 0 /\
                  exists m, more_digits d s m /\ of_decimal (String c s) = Some m).
      { cbn [all_digits]. intros [C A]%andb_true_iff. exists (N_of_ascii c - 48).
        assert (D : In (c, N_of_ascii c - 48) digit_values) by now apply digit_in. split; [exact D|].
        assert (Z : N_of_ascii c - 48 <> 0) by (intros Z; apply NZ; bits c; cbn in C, Z; try discriminate; reflexivity).
        split; [exact Z|]. destruct (N_of_ascii c - 48) as [|p]; [now exfalso|].
        destruct (uint_of_digits s A p) as (u & _ & M). eexists. split; [exact M|].
        exact (of_decimal_numeral _ _ _ _ D Z M). }
      split; intros H.
      * destruct (K (of_decimal_all _ _ H)) as (d & D & _ & m & M & E). rewrite E in H. injection H as <-.
        apply more_one with d; [exact D|exact M].
      * pose proof (more_digits_all _ _ _ H) as A. destruct (K A) as (d & D & _ & m & M & E). rewrite E. f_equal.
        inversion H as [|? ? d' ? ? D' M']; subst. apply digit_in in D as [_ ->]. apply digit_in in D' as [_ ->].
        exact (more_digits_det _ _ _ M _ M').
Qed.
Lemma amount_read b v n : rd_dec b v = Some n <->
  exists d, (v = JStr d \/ v = JStr ("+" ++ d)) /\ d <> "" /\ more_digits 0 d n /\ n < b.
Proof.
  unfold rd_dec. split.
  - destruct v as [| | | |s| |]; try discriminate.
    set (d := match s with String "+" r => r | _ => s end).
    assert (S : s = d \/ s = "+" ++ d) by (subst d; destruct s as [|c s]; [now left|]; bits c; cbn; auto).
    destruct (String.eqb_spec d "") as [|D]; [discriminate|].
    destruct (of_decimal d) as [m|] eqn:E; [|discriminate]. destruct (N.ltb_spec m b); [|discriminate].
    intros [= <-]. exists d. apply of_decimal_digits in E.
    split; [destruct S as [S|S]; rewrite <- S; auto|auto].
  - intros (d & V & D & M & B). apply N.ltb_lt in B. pose proof (more_digits_all _ _ _ M) as A.
    apply of_decimal_digits in M. destruct V as [->| ->].
    + assert (E : match d with String "+" r => r | _ => d end = d).
      { destruct d as [|c d]; [reflexivity|]. cbn [all_digits] in A. apply andb_true_iff in A as [C _].
        bits c; cbn in C; try discriminate; reflexivity. }
      rewrite E, M, B. destruct (String.eqb_spec d ""); [contradiction|reflexivity].
    + cbn [append]. rewrite M, B. destruct (String.eqb_spec d ""); [contradiction|reflexivity].
Qed.
Lemma amount_numeral n : numeral (decimal n) n.
Proof.
  pose proof (parse_print (JNum n)) as H. cbn [print] in H. apply parse_document in H as (a & t & b & E & A & T & B).
  destruct (decimal_head n) as (c & s & D & C). inversion T as [| | |x m N| | | | | |]; subst.
  assert (a = "") as ->.
  { destruct A as [|x a X _]; [reflexivity|]. rewrite D in E. injection E as <- _. apply is_space_in in X.
    exfalso. bits c; cbn in C, X; discriminate. }
  cbn [append] in E.
  assert (b = "") as ->; [|now rewrite E, app_nil_s].
  destruct B as [|x b X _]; [reflexivity|]. exfalso. apply is_space_in in X.
  assert (AD : all_digits (decimal n) = true) by (apply (of_decimal_all _ n), of_decimal_decimal).
  rewrite E in AD. clear -AD X. induction t as [|y t IH]; cbn in AD; apply andb_true_iff in AD as [Y AD]; [|auto].
  bits x; cbn in X, Y; discriminate.
Qed.
