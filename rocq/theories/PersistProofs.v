(** The persisted types of /repo are read back as they were written; the size of a lockup's state. *)
From Coq Require Import NArith List Bool String Ascii Lia.
From Verif Require Import Prelude PreludeFacts StorageModel StorageProofs Borsh BorshProofs PersistModel.
From Verif Require Import LockupModel LockupWorld LockupSpec LockupEffects LockupFacts LockupInv PersistSpec.
Import ListNotations.
Open Scope string_scope.
Open Scope N_scope.

Lemma drop_last_snoc p c : drop_last (p ++ String c "") = p.
Proof.
  induction p as [|a p IH]; [reflexivity|]. cbn [append]. destruct (p ++ String c "") as [|x r] eqn:E.
  - now destruct p.
  - change (drop_last (String a (String x r))) with (String a (drop_last (String x r))). now rewrite IH.
Qed.

Lemma good_transfers : good c_transfers. Proof. unfold c_transfers. codec. Qed.
Lemma good_lockup_info : good c_lockup_info.
Proof. unfold c_lockup_info. codec. apply good_transfers. Qed.
Lemma good_schedule : good c_schedule. Proof. unfold c_schedule. codec. Qed.
Lemma good_staking : good c_staking. Proof. unfold c_staking, c_tx_status. codec. Qed.
Lemma good_termination : good c_termination. Proof. unfold c_termination, c_termination_status. codec. Qed.
Lemma good_vesting : good c_vesting.
Proof. unfold c_vesting. codec. - apply good_schedule. - apply good_termination. Qed.
Lemma good_lockup : good c_lockup.
Proof.
  unfold c_lockup. codec. - apply good_lockup_info. - apply good_vesting. - apply good_staking.
Qed.
Lemma good_schedule_with_salt : good c_schedule_with_salt.
Proof. unfold c_schedule_with_salt. codec. apply good_schedule. Qed.

Lemma good_unordered_map : good c_unordered_map.
Proof.
  apply good_only_struct; [|unfold c_vector; codec].
  intros [k p a b] E. cbn in *. subst. now rewrite drop_last_snoc.
Qed.
Lemma good_unordered_set : good c_unordered_set.
Proof.
  apply good_only_struct; [|unfold c_vector; codec].
  intros [k p a b] [E F]. cbn in *. subst. now rewrite drop_last_snoc.
Qed.
Lemma good_lookup k : good (c_lookup k).
Proof.
  apply good_only_struct; [|codec]. intros [k' p a b] (E & F & G). cbn in *. now subst.
Qed.

Ltac codecs := repeat (progress codec || match goal with
  | |- good c_unordered_map => apply good_unordered_map
  | |- good c_unordered_set => apply good_unordered_set
  | |- good (c_lookup _) => apply good_lookup end).

Lemma good_account : good c_account. Proof. unfold c_account. codec. Qed.
Lemma good_fraction : good c_fraction. Proof. unfold c_fraction. codec. Qed.
Lemma good_pool_fields : good c_pool_fields.
Proof. unfold c_pool_fields. codecs. apply good_fraction. Qed.
Lemma good_voting : good c_voting. Proof. unfold c_voting. codec. Qed.
Lemma good_whitelist_fields : good c_whitelist_fields. Proof. unfold c_whitelist_fields. codecs. Qed.
Lemma good_action : good c_action.
Proof. unfold c_action, c_permission. codec. Qed.
Lemma good_signed_request : good c_signed_request.
Proof. unfold c_signed_request, c_request. codec. apply good_action. Qed.
Lemma good_confirmations : good c_confirmations. Proof. unfold c_confirmations. codec. Qed.
Lemma good_multisig_fields : good c_multisig_fields. Proof. unfold c_multisig_fields. codecs. Qed.
Lemma good_member : good c_member. Proof. unfold c_member. codec. Qed.
Lemma good_action2 : good c_action2.
Proof. unfold c_action2, c_permission2. codec; apply good_member. Qed.
Lemma good_signed_request2 : good c_signed_request2.
Proof. unfold c_signed_request2, c_request2. codec. apply good_action2. apply good_member. Qed.
Lemma good_multisig2_fields : good c_multisig2_fields. Proof. unfold c_multisig2_fields. codecs. Qed.
Lemma good_pool_factory_fields : good c_pool_factory_fields. Proof. unfold c_pool_factory_fields. codecs. Qed.
Lemma good_lockup_factory : good c_lockup_factory. Proof. unfold c_lockup_factory. codec. Qed.
Lemma good_token_fields : good c_token_fields. Proof. unfold c_token_fields. codecs. Qed.

(** * Nothing else is read *)
Lemma strict_transfers : strict c_transfers. Proof. unfold c_transfers. strict_codec. Qed.
Lemma strict_lockup_info : strict c_lockup_info.
Proof. unfold c_lockup_info. strict_codec. apply strict_transfers. Qed.
Lemma strict_schedule : strict c_schedule. Proof. unfold c_schedule. strict_codec. Qed.
Lemma strict_staking : strict c_staking. Proof. unfold c_staking, c_tx_status. strict_codec. Qed.
Lemma strict_termination : strict c_termination. Proof. unfold c_termination, c_termination_status. strict_codec. Qed.
Lemma strict_vesting : strict c_vesting.
Proof. unfold c_vesting. strict_codec. - apply strict_schedule. - apply strict_termination. Qed.
Lemma strict_lockup : strict c_lockup.
Proof. unfold c_lockup. strict_codec. - apply strict_lockup_info. - apply strict_vesting. - apply strict_staking. Qed.
Lemma strict_account : strict c_account. Proof. unfold c_account. strict_codec. Qed.
Lemma strict_lookup k : strict (c_lookup k).
Proof.
  intros s x r. unfold c_lookup, c_only, c_struct. cbn [dec enc typed]. destruct (dec c_bytes s) as [[p q]|] eqn:D; [|discriminate].
  intros E. injection E as <- <-. apply strict_bytes in D. cbn [h_prefix h_kind h_keys h_values]. tauto.
Qed.
Lemma strict_whitelist_fields : strict c_whitelist_fields.
Proof. unfold c_whitelist_fields. strict_codec; apply strict_lookup. Qed.
Lemma strict_token_fields : strict c_token_fields.
Proof. unfold c_token_fields. strict_codec. apply strict_lookup. Qed.
Lemma strict_lockup_factory : strict c_lockup_factory. Proof. unfold c_lockup_factory. strict_codec. Qed.
Lemma strict_action : strict c_action. Proof. unfold c_action, c_permission. strict_codec. Qed.
Lemma strict_signed_request : strict c_signed_request.
Proof. unfold c_signed_request, c_request. strict_codec. apply strict_action. Qed.
Lemma strict_member : strict c_member. Proof. unfold c_member. strict_codec. Qed.
Lemma strict_action2 : strict c_action2.
Proof. unfold c_action2, c_permission2. strict_codec; apply strict_member. Qed.
Lemma strict_signed_request2 : strict c_signed_request2.
Proof. unfold c_signed_request2, c_request2. strict_codec. apply strict_action2. apply strict_member. Qed.
Lemma strict_fraction : strict c_fraction. Proof. unfold c_fraction. strict_codec. Qed.

(** * The lockup contract along any history *)
Definition name_ok (a : account_id) : Prop := slen a <= 64.
Definition oname_ok (o : option account_id) : Prop := match o with Some a => name_ok a | None => True end.
Record names (s : contract) : Prop := mkNames {
  n_owner : name_ok (owner_account_id s);
  n_whitelist : name_ok (staking_pool_whitelist_account_id s);
  n_poll : match transfers_information (lockup_information s) with TransfersDisabled a => name_ok a | _ => True end;
  n_pool : oname_ok (get_staking_pool_account_id s);
  n_foundation : oname_ok (foundation_account_id s);
  n_hash : sha_sized s
}.
Record numbers (s : contract) : Prop := mkNumbers {
  u_duration : lockup_duration (lockup_information s) < U64_BOUND;
  u_release : u64_opt (release_duration (lockup_information s));
  u_timestamp : u64_opt (lockup_timestamp (lockup_information s));
  u_transfers : match transfers_information (lockup_information s) with TransfersEnabled t => t < U64_BOUND | _ => True end;
  u_schedule : match vesting_information s with VSchedule vs => u64_schedule vs | _ => True end;
  u_deposit : get_known_deposited_balance s < U128_BOUND
}.
Definition msg_names (m : msg) : Prop :=
  match m with
  | MCall _ (Some (OnWhitelistIsWhitelisted p)) | MBack (OnWhitelistIsWhitelisted p) _ => name_ok p
  | _ => True
  end.
Definition answer_numbers (r : option answer) : Prop :=
  match r with Some (ABalance x) => x < U128_BOUND | Some (APollResult (Some t)) => t < U64_BOUND | _ => True end.
Definition msg_numbers (m : msg) : Prop := match m with MBack _ r => answer_numbers r | _ => True end.

Lemma valid_name a : is_valid_account_id a = true -> name_ok a.
Proof. unfold is_valid_account_id. rewrite !andb_true_iff, !N.leb_le. intros [[_ H] _]. exact H. Qed.

Ltac open_contract s := destruct s as [ow [la tw du re ti tr] ve wl si fo].
Ltac known := repeat match goal with
  | H : staking_information _ = _ |- _ => cbn in H; subst
  | H : vesting_information _ = _ |- _ => cbn in H; subst end.

Lemma names_effect c s m s' p : effect c s m s' p -> names s ->
  (ctx_predecessor c = ctx_current c -> forall q, m = OnWhitelistIsWhitelisted q -> name_ok q) ->
  names s' /\ match p with Some p => msg_names (MCall (p_remote p) (option_map fst (p_then p))) | None => True end.
Proof.
  open_contract s. intros He [Ho Hw Hp Hq Hf Hh] Hm. unfold sha_sized in *. cbn in Ho, Hw, Hp, Hq, Hf, Hh.
  inversion He; subst; known; cbn in Hq, Hh |- *;
    try match goal with |- context [if ?b then _ else _] => destruct b end;
    (split; [split; unfold sha_sized; cbn; auto|cbn; auto]).
  - now apply valid_name.
  - destruct m; cbn in H2; try discriminate; injection H2 as <- <-; exact I.
Qed.
Lemma numbers_effect c s m s' p : effect c s m s' p -> numbers s -> Forall answer_numbers (ctx_results c) -> numbers s'.
Proof.
  pose proof U128_pos.
  open_contract s. intros He [Hd Hr Ht Htr Hs Hk] Hm. cbn in Hd, Hr, Ht, Htr, Hs, Hk.
  inversion He; subst; known; cbn in Hk |- *;
    try match goal with H : ctx_results c = _ |- _ => rewrite H in Hm; inversion Hm; subst; cbn in * end;
    try match goal with |- context [if ?b then _ else _] => destruct b end;
    (split; cbn; auto; try lia).
Qed.

(** One call of the contract keeps a property of the state and of the messages that the effects keep. *)
Definition safe_names (w : world) : Prop := names (w_lockup w) /\ Forall msg_names (w_msgs w).
Definition safe_numbers (w : world) : Prop := numbers (w_lockup w) /\ Forall msg_numbers (w_msgs w).

Lemma run_names g w who att rs m w' l : run g w who att rs m = (Some w', l) -> safe_names w ->
  (who = g_self g -> forall q, m = OnWhitelistIsWhitelisted q -> name_ok q) -> safe_names w'.
Proof.
  intros E [Hs Hm] Hq. unfold run in E.
  destruct (exec _ _ _) as [[s' [p|]]|] eqn:Ex; [|injection E as <- <-|discriminate].
  - destruct (_ <=? _); [|discriminate]. injection E as <- <-.
    apply ok_effect in Ex. destruct Ex as [_ He]. apply names_effect in He; [|exact Hs|exact Hq].
    destruct He as [H1 H2]. split; [exact H1|]. cbn [w_msgs]. apply Forall_app. split; [exact Hm|]. constructor; auto.
  - apply ok_effect in Ex. destruct Ex as [_ He]. apply names_effect in He; [|exact Hs|exact Hq].
    split; [apply He|exact Hm].
Qed.
Lemma run_numbers g w who att rs m w' l : run g w who att rs m = (Some w', l) -> safe_numbers w ->
  Forall answer_numbers rs -> safe_numbers w'.
Proof.
  intros E [Hs Hm] Hq. unfold run in E.
  destruct (exec _ _ _) as [[s' [p|]]|] eqn:Ex; [|injection E as <- <-|discriminate].
  - destruct (_ <=? _); [|discriminate]. injection E as <- <-.
    apply ok_effect in Ex. destruct Ex as [_ He]. apply numbers_effect in He; [|exact Hs|exact Hq].
    split; [exact He|]. cbn [w_msgs]. apply Forall_app. split; [exact Hm|]. constructor; cbn; auto.
  - apply ok_effect in Ex. destruct Ex as [_ He]. apply numbers_effect in He; [|exact Hs|exact Hq].
    split; [apply He|exact Hm].
Qed.
Lemma back_names cb r : match cb with Some (OnWhitelistIsWhitelisted p) => name_ok p | _ => True end ->
  Forall msg_names (back cb r).
Proof. destruct cb as [m|]; cbn; constructor; auto; destruct m; cbn; auto. Qed.
Lemma tokens_forall (P : msg -> Prop) a : P (MTokens a) -> Forall P (tokens a).
Proof. unfold tokens. intros H. destruct (a =? 0); auto. Qed.

Lemma step_names g w ev : safe_names w -> safe_names (step g w ev).
Proof.
  intros HS. pose proof HS as [Hs Hm]. unfold step.
  destruct ev as [t|x|p s u|who att m|n o|n]; cbn [step_obs].
  - destruct (_ && _); [split; assumption|exact HS].
  - split; assumption.
  - destruct (_ && _); [split; assumption|exact HS].
  - destruct (String.eqb_spec who (g_self g)) as [|Hne]; [exact HS|].
    destruct (run g w who att [] m) as [[w'|] l] eqn:E; [|exact HS].
    eapply run_names; [exact E|exact HS|]. intros E'. now destruct Hne.
  - destruct (nth_error (w_msgs w) n) as [[r cb|cb r|a]|] eqn:Hn; [|exact HS..].
    destruct (execute w r cb o) as [[[pools new] l]|] eqn:Ex; [|exact HS].
    destruct (Forall_drop _ _ _ _ Hm Hn) as [H1 H2]. split; [exact Hs|]. cbn [fst w_msgs].
    apply Forall_app. split; [exact H2|].
    assert (Hb : forall x, Forall msg_names (back cb x)).
    { intros x. apply back_names. destruct cb as [[]|]; cbn in H1; auto. }
    unfold execute in Ex.
    destruct o, r; try discriminate; try (injection Ex as <- <- <-);
      repeat match goal with H : (if ?b then _ else _) = _ |- _ => destruct b; [|discriminate]; injection H as <- <- <- end;
      rewrite ?Forall_app; repeat split; auto; try apply tokens_forall; cbn; auto.
    all: match goal with |- context [match ?op with _ => _ end] => destruct op end; auto; now apply tokens_forall.
  - destruct (nth_error (w_msgs w) n) as [[r cb|cb r|a]|] eqn:Hn; [exact HS| | |exact HS].
    + destruct (Forall_drop _ _ _ _ Hm Hn) as [H1 H2].
      set (w1 := mkWorld _ _ _ _ _).
      assert (HS1 : safe_names w1) by (split; assumption).
      destruct (run g w1 (g_self g) 0 [r] cb) as [[w'|] l] eqn:E; [|exact HS1].
      eapply run_names; [exact E|exact HS1|]. intros _ q ->. exact H1.
    + destruct (Forall_drop _ _ _ _ Hm Hn) as [H1 H2]. split; assumption.
Qed.
Lemma step_numbers g w ev : inv w -> match ev with EDeliver _ (OPoll (Some t)) => t < U64_BOUND | _ => True end ->
  safe_numbers w -> safe_numbers (step g w ev).
Proof.
  intros HI Hev HS. pose proof HS as [Hs Hm]. unfold step. pose proof U128_pos.
  destruct ev as [t|x|p s u|who att m|n o|n]; cbn [step_obs].
  - destruct (_ && _); [split; assumption|exact HS].
  - split; assumption.
  - destruct (_ && _); [split; assumption|exact HS].
  - destruct (String.eqb_spec who (g_self g)) as [|Hne]; [exact HS|].
    destruct (run g w who att [] m) as [[w'|] l] eqn:E; [|exact HS].
    eapply run_numbers; [exact E|exact HS|]. constructor.
  - destruct (nth_error (w_msgs w) n) as [[r cb|cb r|a]|] eqn:Hn; [|exact HS..].
    destruct (execute w r cb o) as [[[pools new] l]|] eqn:Ex; [|exact HS].
    destruct (Forall_drop _ _ _ _ Hm Hn) as [H1 H2]. split; [exact Hs|]. cbn [fst w_msgs].
    apply Forall_app. split; [exact H2|].
    assert (Hb : forall x, answer_numbers x -> Forall msg_numbers (back cb x)).
    { intros x Hx. destruct cb; cbn; constructor; auto. }
    unfold execute in Ex.
    destruct o, r; try discriminate; try (injection Ex as <- <- <-);
      repeat match goal with H : (if ?b then _ else _) = _ |- _ => destruct b; [|discriminate]; injection H as <- <- <- end;
      rewrite ?Forall_app; repeat split; try apply tokens_forall; try apply Hb; try exact I; auto.
    + cbn. match goal with |- view_answer ?op (w_pools w ?p) < _ => pose proof (i_pools w HI p); destruct op; cbn; lia end.
    + match goal with |- Forall _ (match ?op with _ => _ end) => destruct op end; auto. now apply tokens_forall.
  - destruct (nth_error (w_msgs w) n) as [[r cb|cb r|a]|] eqn:Hn; [exact HS| | |exact HS].
    + destruct (Forall_drop _ _ _ _ Hm Hn) as [H1 H2].
      set (w1 := mkWorld _ _ _ _ _).
      assert (HS1 : safe_numbers w1) by (split; assumption).
      destruct (run g w1 (g_self g) 0 [r] cb) as [[w'|] l] eqn:E; [|exact HS1].
      eapply run_numbers; [exact E|exact HS1|]. repeat constructor. exact H1.
    + destruct (Forall_drop _ _ _ _ Hm Hn) as [H1 H2]. split; assumption.
Qed.

Lemma start_names g w : starts g w -> sha_sized (w_lockup w) -> safe_names w.
Proof.
  intros [(ow & du & ti & tr & ve & re & wl & fo & pr & Hnew & _) HB HT HP HM] Hh.
  apply new_ok in Hnew. destruct Hnew as (Es & _ & _ & Ho & Hw & Htr & Hfo).
  split; [|rewrite HM; constructor]. rewrite Es in *.
  split; cbn; auto using valid_name.
  - destruct tr; auto using valid_name.
  - destruct fo, ve as [[]|]; cbn; auto using valid_name; contradiction.
Qed.
Lemma start_numbers g w : starts g w -> safe_numbers w.
Proof.
  intros [(ow & du & ti & tr & ve & re & wl & fo & pr & Hnew & Hd & Ht & Hr & Htr & Hv) HB HT HP HM].
  apply new_ok in Hnew. destruct Hnew as (Es & _).
  pose proof U128_pos. split; [|rewrite HM; constructor]. rewrite Es.
  split; cbn; auto. destruct ve as [[]|]; auto.
Qed.
Lemma final_names g evs : forall w, safe_names w -> safe_names (final g w evs).
Proof. induction evs as [|ev evs IH]; intros w H; [exact H|]. cbn. apply IH, step_names, H. Qed.
Lemma final_numbers g evs : forall w, inv w -> poll_times_fit evs -> safe_numbers w -> safe_numbers (final g w evs).
Proof.
  induction evs as [|ev evs IH]; intros w HI He H; [exact H|]. inversion He; subst. cbn.
  apply IH; [now apply inv_step|assumption|]. now apply step_numbers.
Qed.

(** Such a state is a value of the Rust type, and its bytes are few. *)
Lemma short a n : slen a <= n -> n < U32_BOUND -> slen a < U32_BOUND. Proof. lia. Qed.
Lemma short_name a : name_ok a -> typed c_bytes a.
Proof. unfold name_ok. intros H. assert (64 < U32_BOUND) by reflexivity. cbn -[U32_BOUND]. lia. Qed.
Lemma typed_opt {A} (c : codec A) o : match o with Some x => typed c x | None => True end -> typed (c_option c) o.
Proof. intros H. destruct o; exact H. Qed.
Lemma lockup_typed w : inv w -> names (w_lockup w) -> numbers (w_lockup w) -> typed c_lockup (w_lockup w).
Proof.
  intros HI HN HU. pose proof (i_amount w HI) as Ha. pose proof (i_sum w HI) as Hsum.
  destruct HN as [Ho Hw Hp Hq Hf Hh]. destruct HU as [Hd Hr Ht Htr Hs Hk].
  destruct (w_lockup w) as [ow [la tw du re ti tr] ve wl si fo]. unfold sha_sized in *.
  cbn in Ho, Hw, Hp, Hq, Hf, Hh, Hd, Hr, Ht, Htr, Hs, Hk, Ha, Hsum.
  assert (U : forall x, x < U128_BOUND -> typed c_u128 x) by (intros x Hx; exact Hx).
  assert (V : forall x, x < U64_BOUND -> typed c_u64 x) by (intros x Hx; exact Hx).
  assert (Htw : tw < U128_BOUND) by lia.
  split; [now apply short_name|]. split.
  { cbn [snd fst]. split; [now apply U|]. split; [exact Htw|]. split; [now apply V|].
    split; [now apply typed_opt; destruct re|]. split; [now apply typed_opt; destruct ti|].
    destruct tr as [t|a]; (split; [|reflexivity]); [now apply V|now apply short_name]. }
  split.
  { destruct ve as [|h|[t0 t1 t2]|[ua st]]; cbn [fst snd]; (split; [|reflexivity]).
    - exact I.
    - apply (short h 32); [exact Hh|reflexivity].
    - destruct Hs as (S0 & S1 & S2). split; [now apply V|]. split; now apply V.
    - split; [apply U; cbn in Hsum; cbn [fst unvested_amount]; lia|]. destruct st; split; reflexivity || exact I. }
  split; [now apply short_name|]. split; cbn [fst snd].
  - apply typed_opt. destruct si as [[p st d]|]; [|exact I]. cbn in Hq, Hk.
    split; [now apply short_name|]. split; [destruct st; split; reflexivity || exact I|now apply U].
  - apply typed_opt. destruct fo; [now apply short_name|exact I].
Qed.

Lemma slen_pair {A B} (a : codec A) (b : codec B) x y : slen (enc (c_pair a b) (x, y)) = slen (enc a x) + slen (enc b y).
Proof. apply slen_app. Qed.
Lemma slen_opt {A} (a : codec A) o n : match o with Some x => slen (enc a x) <= n | None => True end ->
  slen (enc (c_option a) o) <= 1 + n.
Proof.
  unfold c_option. cbn [enc]. intros H. destruct o as [x|]; [|rewrite slen_uint; lia].
  rewrite slen_app, slen_uint. lia.
Qed.
Lemma slen_enum {A} (v : variants A) x : slen (enc (c_enum v) x) = 1 + slen (v_enc v x).
Proof. unfold c_enum. cbn [enc]. now rewrite slen_app, slen_uint. Qed.
Lemma slen_name a : name_ok a -> slen (enc c_bytes a) <= 68.
Proof. rewrite slen_bytes. unfold name_ok. lia. Qed.
Lemma slen_u64_opt o : slen (enc (c_option c_u64) o) <= 9.
Proof. apply (slen_opt c_u64 o 8). destruct o; [|exact I]. unfold c_u64. now rewrite slen_uint. Qed.

Lemma lockup_bytes s : names s -> slen (to_bytes c_lockup s) <= 455.
Proof.
  intros [Ho Hw Hp Hq Hf Hh]. destruct s as [ow [la tw du re ti tr] ve wl si fo]. unfold sha_sized in *.
  cbn in Ho, Hw, Hp, Hq, Hf, Hh.
  pose proof (slen_name _ Ho) as Lo. pose proof (slen_name _ Hw) as Lw.
  assert (Li : slen (enc c_lockup_info (mkLockup la tw du re ti tr)) <= 127).
  { unfold c_lockup_info, c_struct. cbn [enc lockup_amount termination_withdrawn_tokens lockup_duration release_duration
      lockup_timestamp transfers_information]. rewrite !slen_pair.
    unfold c_u128, c_u64 at 1. rewrite !slen_uint. pose proof (slen_u64_opt re). pose proof (slen_u64_opt ti).
    assert (slen (enc c_transfers tr) <= 69).
    { unfold c_transfers, c_struct. cbn [enc]. rewrite slen_enum. destruct tr as [t|a]; cbn [v_or v_last v_enc].
      - unfold c_u64. rewrite slen_uint. lia.
      - pose proof (slen_name _ Hp). lia. }
    lia. }
  assert (Lv : slen (enc c_vesting ve) <= 37).
  { unfold c_vesting, c_struct. cbn [enc]. rewrite slen_enum. destruct ve as [|h|[t0 t1 t2]|[ua st]]; cbn [v_or v_last v_enc].
    - cbn. lia.
    - rewrite slen_bytes. lia.
    - unfold c_schedule, c_struct. cbn [enc start_timestamp cliff_timestamp end_timestamp]. rewrite !slen_pair.
      unfold c_u64. rewrite !slen_uint. lia.
    - unfold c_termination, c_struct. cbn [enc unvested_amount t_status]. rewrite slen_pair. unfold c_u128. rewrite slen_uint.
      unfold c_termination_status, c_struct. cbn [enc]. rewrite slen_enum. destruct st; cbn [v_or v_last v_enc enc c_unit]; change (slen "") with 0; lia. }
  assert (Ls : slen (enc (c_option c_staking) si) <= 1 + 85).
  { apply slen_opt. destruct si as [[p st d]|]; [|exact I]. cbn in Hq.
    unfold c_staking, c_struct. cbn [enc staking_pool_account_id status deposit_amount]. rewrite !slen_pair.
    pose proof (slen_name _ Hq). unfold c_u128, account_id in *. rewrite slen_uint.
    unfold c_tx_status, c_struct. cbn [enc]. rewrite slen_enum. destruct st; cbn [v_or v_last v_enc enc c_unit]; change (slen "") with 0; lia. }
  assert (Lf : slen (enc (c_option c_bytes) fo) <= 1 + 68).
  { apply slen_opt. destruct fo; [|exact I]. now apply slen_name. }
  unfold to_bytes, c_lockup, c_struct.
  cbn [enc owner_account_id lockup_information vesting_information staking_pool_whitelist_account_id
    staking_information foundation_account_id]. rewrite !slen_pair. unfold account_id in *. lia.
Qed.

(** The balance of the account never falls below the reserve. *)
Lemma spends_keep_reserve c s m s' p : effect c s m s' (Some p) -> attached_to (p_remote p) <> 0 ->
  attached_to (p_remote p) + MIN_BALANCE_FOR_STORAGE <= ctx_balance c.
Proof.
  intros He Ha. inversion He; subst; cbn [p_remote attached_to] in *; try (exfalso; congruence);
    unfold get_account_balance, sat_sub in *; try lia.
  match goal with H : get_liquid_owners_balance _ _ _ = _ |- _ => unfold get_liquid_owners_balance in H; inv_res end.
  unfold get_account_balance, sat_sub in *. lia.
Qed.
Lemma run_reserve g w who att rs m w' l : run g w who att rs m = (Some w', l) ->
  MIN_BALANCE_FOR_STORAGE <= w_balance w -> MIN_BALANCE_FOR_STORAGE <= w_balance w'.
Proof.
  intros E HB. unfold run in E.
  destruct (exec _ _ _) as [[s' [p|]]|] eqn:Ex; [|injection E as <- <-; exact HB|discriminate].
  destruct (_ <=? _) eqn:L; [|discriminate]. injection E as <- <-. cbn [w_balance].
  apply ok_effect in Ex. destruct Ex as [Ha He]. cbn [ctx_attached] in Ha. subst att.
  destruct (N.eq_dec (attached_to (p_remote p)) 0) as [->|Hne]; [lia|].
  apply spends_keep_reserve in He; [|exact Hne]. cbn [ctx_balance] in He. lia.
Qed.
Lemma step_reserve g w ev : MIN_BALANCE_FOR_STORAGE <= w_balance w -> MIN_BALANCE_FOR_STORAGE <= w_balance (step g w ev).
Proof.
  intros HB. unfold step. destruct ev as [t|x|p s u|who att m|n o|n]; cbn [step_obs].
  - destruct (_ && _); exact HB.
  - cbn [fst w_balance]. lia.
  - destruct (_ && _); exact HB.
  - destruct (String.eqb who (g_self g)); [exact HB|].
    destruct (run g w who att [] m) as [[w'|] l] eqn:E; [|exact HB]. eapply run_reserve; eassumption.
  - destruct (nth_error (w_msgs w) n) as [[r cb|cb r|a]|]; [|exact HB..].
    destruct (execute w r cb o) as [[[pools new] l]|]; exact HB.
  - destruct (nth_error (w_msgs w) n) as [[r cb|cb r|a]|]; [exact HB| | |exact HB].
    + set (w1 := mkWorld _ _ _ _ _).
      destruct (run g w1 (g_self g) 0 [r] cb) as [[w'|] l] eqn:E; [|exact HB]. eapply run_reserve; eassumption.
    + cbn [fst w_balance]. lia.
Qed.
Lemma final_reserve g evs : forall w, MIN_BALANCE_FOR_STORAGE <= w_balance w ->
  MIN_BALANCE_FOR_STORAGE <= w_balance (final g w evs).
Proof. induction evs as [|ev evs IH]; intros w H; [exact H|]. cbn. apply IH, step_reserve, H. Qed.

Theorem storage_covered g w evs keys :
  starts g w -> sha_sized (w_lockup w) -> MIN_BALANCE_FOR_STORAGE <= w_balance w -> keys <= 36 ->
  lockup_storage_cost (w_lockup (final g w evs)) keys <= MIN_BALANCE_FOR_STORAGE /\
  MIN_BALANCE_FOR_STORAGE <= w_balance (final g w evs).
Proof.
  intros H0 Hh HB Hk. split; [|now apply final_reserve].
  destruct (final_names g evs w (start_names g w H0 Hh)) as [HN _]. apply lockup_bytes in HN.
  unfold lockup_storage_cost, account_bytes, ACCOUNT_BYTES, RECORD_BYTES, FULL_ACCESS_KEY_BYTES, LOCKUP_CODE_BYTES,
    BYTE_COST, RECORD_BYTES, MIN_BALANCE_FOR_STORAGE.
  change (slen STATE_KEY) with 5. change (10 ^ 19) with 10000000000000000000. lia.
Qed.
Theorem lockup_survives g w evs :
  starts g w -> sha_sized (w_lockup w) -> poll_times_fit evs ->
  let s := w_lockup (final g w evs) in from_bytes c_lockup (to_bytes c_lockup s) = Some s.
Proof.
  intros H0 Hh Hp s. apply (reads_back c_lockup good_lockup). pose proof (inv_start g w H0) as HI.
  apply lockup_typed; [now apply inv_final|exact (proj1 (final_names g evs w (start_names g w H0 Hh)))|].
  exact (proj1 (final_numbers g evs w HI Hp (start_numbers g w H0))).
Qed.

(** * The commitment to a vesting schedule *)
Definition hidden (h : string) (s : contract) : Prop :=
  match vesting_information s with VHash h' => h' = h | VSchedule _ => False | _ => True end.
Lemma effect_hidden c s m s' p h : effect c s m s' p -> hidden h s -> hidden h s'.
Proof.
  open_contract s. unfold hidden. intros He Hv. inversion He; subst; cbn in Hv |- *; known; auto.
  destruct (_ <? _); exact I.
Qed.
Lemma effect_terminate c s o s' p h : effect c s (TerminateVesting o) s' p -> hidden h s ->
  exists vs salt, o = Some (vs, salt) /\ ctx_hash c vs salt = h.
Proof.
  intros He Hh. inversion He; subst; try discriminate; try (match goal with H : _ \/ _ |- _ => destruct H; discriminate end).
  match goal with H : assert_vesting _ _ _ = Ok _ |- _ => apply assert_vesting_ok in H; destruct H as [(h' & sl & E1 & E2 & E3)|[E1 _]] end;
    unfold hidden in Hh; rewrite E1 in Hh; [|contradiction]. subst. eauto.
Qed.
Lemma run_effect g w who att rs m w' l : run g w who att rs m = (Some w', l) ->
  exists c p, effect c (w_lockup w) m (w_lockup w') p /\ ctx_hash c = g_hash g /\
    forall x, In x l -> exists r, x = BSent r.
Proof.
  intros E. unfold run in E.
  destruct (exec _ _ _) as [[s' [p|]]|] eqn:Ex; [|injection E as <- <-|discriminate].
  - destruct (_ <=? _); [|discriminate]. injection E as <- <-. apply ok_effect in Ex. destruct Ex as [_ He].
    eexists _, _. split; [exact He|]. split; [reflexivity|]. intros x [<-|[]]. eauto.
  - apply ok_effect in Ex. destruct Ex as [_ He]. eexists _, _. split; [exact He|]. split; [reflexivity|]. intros x [].
Qed.
Lemma execute_obs w r cb o x who m b : execute w r cb o = Some x -> ~ In (BCalled who m b) (snd x).
Proof.
  unfold execute. destruct o, r; try discriminate; try destruct (is_view _); try destruct (pool_keeps _ _ _); try discriminate;
    intros [= <-]; cbn; intuition discriminate.
Qed.

Lemma step_hidden g w ev h : hidden h (w_lockup w) -> hidden h (w_lockup (step g w ev)) /\
  forall who o, In (BCalled who (TerminateVesting o) true) (snd (step_obs g w ev)) ->
    exists vs salt, o = Some (vs, salt) /\ g_hash g vs salt = h.
Proof.
  intros Hh. unfold step. destruct ev as [t|x|p s u|who att m|n o|n]; cbn [step_obs].
  - destruct (_ && _); (split; [exact Hh|intros ? ? []]).
  - split; [exact Hh|intros ? ? []].
  - destruct (_ && _); (split; [exact Hh|intros ? ? []]).
  - destruct (String.eqb who (g_self g)); [split; [exact Hh|intros ? ? []]|].
    destruct (run g w who att [] m) as [[w'|] l] eqn:E; [|split; [exact Hh|intros ? ? [[=]|[]]]].
    apply run_effect in E. destruct E as (c & p & He & Ec & Hl). cbn [fst snd].
    split; [eapply effect_hidden; eassumption|]. intros who' o [[= -> ->]|Hi].
    + rewrite <- Ec. eapply effect_terminate; eassumption.
    + apply Hl in Hi. destruct Hi. discriminate.
  - destruct (nth_error (w_msgs w) n) as [[r cb|cb r|a]|]; try (split; [exact Hh|intros ? ? []]).
    destruct (execute w r cb o) as [[[pools new] l]|] eqn:E; [|split; [exact Hh|intros ? ? []]].
    split; [exact Hh|]. intros who o' Hi. now apply (execute_obs _ _ _ _ _ who (TerminateVesting o') true) in E.
  - destruct (nth_error (w_msgs w) n) as [[r cb|cb r|a]|]; try (split; [exact Hh|intros ? ? []]).
    set (w1 := mkWorld _ _ _ _ _).
    destruct (run g w1 (g_self g) 0 [r] cb) as [[w'|] l] eqn:E; [|split; [exact Hh|intros ? ? [[=]|[]]]].
    apply run_effect in E. destruct E as (c & p & He & Ec & Hl). cbn [fst snd].
    split; [eapply effect_hidden; [exact He|exact Hh]|]. intros who o [[=]|Hi].
    apply Hl in Hi. destruct Hi. discriminate.
Qed.

(** A vesting hidden at the start is terminated with something that hashes to what was given then. *)
Lemma revealed g h who o : forall evs w, hidden h (w_lockup w) ->
  In (BCalled who (TerminateVesting o) true) (log g w evs) ->
  exists vs salt, o = Some (vs, salt) /\ g_hash g vs salt = h.
Proof.
  induction evs as [|ev evs IH]; intros w Hh Hi; [destruct Hi|]. cbn in Hi.
  destruct (step_hidden g w ev h Hh) as [H1 H2]. apply in_app_or in Hi. destruct Hi as [Hi|Hi]; [eauto|].
  exact (IH _ H1 Hi).
Qed.

Theorem commitment (sha : string -> string) g w evs vs salt who o :
  g_hash g = (fun v x => sha (to_bytes c_schedule_with_salt (v, x))) ->
  vesting_information (w_lockup w) = VHash (sha (to_bytes c_schedule_with_salt (vs, salt))) ->
  typed c_schedule_with_salt (vs, salt) ->
  match o with Some x => typed c_schedule_with_salt x | None => True end ->
  In (BCalled who (TerminateVesting o) true) (log g w evs) ->
  o = Some (vs, salt) \/
  exists x, o = Some x /\ to_bytes c_schedule_with_salt x <> to_bytes c_schedule_with_salt (vs, salt) /\
    sha (to_bytes c_schedule_with_salt x) = sha (to_bytes c_schedule_with_salt (vs, salt)).
Proof.
  intros Eg Ev T T' Hi.
  destruct (revealed g (sha (to_bytes c_schedule_with_salt (vs, salt))) who o evs w) as (v & x & -> & E).
  - unfold hidden. now rewrite Ev.
  - exact Hi.
  - rewrite Eg in E.
    destruct (string_dec (to_bytes c_schedule_with_salt (v, x)) (to_bytes c_schedule_with_salt (vs, salt))) as [D|D].
    + left. f_equal. exact (one_to_one_codec _ good_schedule_with_salt _ _ T' T D).
    + right. eauto.
Qed.
