(** The reader of JsonModel.v accepts exactly the texts of the grammar in JsonSpec.v. *)
From Coq Require Import NArith List Bool String Ascii Lia DecimalString DecimalN DecimalFacts.
From Verif Require Import Prelude Json StateManipulationModel JsonModel StateManipulationProofs JsonSpec JsonProofs.
Import ListNotations.
Open Scope string_scope.
Open Scope N_scope.

Ltac bits c := destruct c as [[] [] [] [] [] [] [] []].

(** * White space *)
Lemma is_space_in c : is_space c = true <-> In (N_of_ascii c) [32; 9; 10; 13].
Proof.
  unfold is_space. cbn [In]. rewrite !orb_true_iff, !N.eqb_eq.
  split; [intros [[[]|]|]|intros [|[|[|[|[]]]]]]; auto.
Qed.
Lemma skip_splits s : exists a, s = a ++ skip s /\ space a.
Proof.
  induction s as [|c s (a & E & H)]; [exists ""; split; [reflexivity|constructor]|]. cbn [skip].
  destruct (is_space c) eqn:C.
  - exists (String c a). split; [cbn; now rewrite <- E|]. constructor; [now apply is_space_in|exact H].
  - exists "". split; [reflexivity|constructor].
Qed.
Lemma skip_space a s : space a -> skip (a ++ s) = skip s.
Proof.
  induction 1 as [|c a H _ IH]; [reflexivity|]. cbn [append skip]. apply is_space_in in H. rewrite H. exact IH.
Qed.
Lemma skip_all a : space a -> skip a = "".
Proof. intros H. rewrite <- (app_nil_s a), skip_space; [reflexivity|exact H]. Qed.
Lemma space_app a b : space a -> space b -> space (a ++ b).
Proof. induction 1; [trivial|]. intros. cbn. constructor; auto. Qed.
Lemma skip_starts a s : space a -> starts s = true -> skip (a ++ s) = s.
Proof. intros H S. now rewrite skip_space, starts_skip. Qed.

(** * String literals *)
Lemma short_escape_in d e : short_escape d = Some e <-> exists n, In (d, n) short_escapes /\ e = ascii_of_N n.
Proof.
  split.
  - intros H. unfold short_escape in H.
    repeat match type of H with (if Ascii.eqb ?a ?b then _ else _) = _ => destruct (Ascii.eqb_spec a b) end;
      try discriminate; injection H as <-; subst d; eexists; (split; [cbn; tauto|reflexivity]).
  - intros (n & H & ->). unfold short_escapes in H. cbn [In] in H.
    repeat (destruct H as [H|H]; [injection H as <- <-; reflexivity|]). destruct H.
Qed.
Lemma hex_of_in c n : hex_of c = Some n <-> In (c, n) hex_digits.
Proof.
  split.
  - bits c; cbn; intros H; try discriminate; injection H as <-; tauto.
  - intros H. unfold hex_digits in H. cbn [In] in H.
    repeat (destruct H as [H|H]; [injection H as <- <-; reflexivity|]). destruct H.
Qed.
Lemma hex_small c n : In (c, n) hex_digits -> n < 16.
Proof.
  intros H. unfold hex_digits in H. cbn [In] in H.
  repeat (destruct H as [H|H]; [injection H as <- <-; reflexivity|]). destruct H.
Qed.
Lemma code_unit_in a b c d n : code_unit a b c d = Some n <->
  four_digits (String a (String b (String c (String d "")))) n.
Proof.
  unfold code_unit. split.
  - destruct (hex_of a) as [x|] eqn:A; [|discriminate]. destruct (hex_of b) as [y|] eqn:B; [|discriminate].
    destruct (hex_of c) as [z|] eqn:C; [|discriminate]. destruct (hex_of d) as [t|] eqn:D; [|discriminate].
    rewrite hex_of_in in *. intros [= <-].
    replace (((x * 16 + y) * 16 + z) * 16 + t) with (4096 * x + 256 * y + 16 * z + t) by lia. now constructor.
  - intros H. inversion H as [h1 x h2 y h3 z h4 t A B C D]; subst. apply hex_of_in in A, B, C, D.
    rewrite A, B, C, D. f_equal. lia.
Qed.
Lemma code_unit_small a b c d n : code_unit a b c d = Some n -> n < 65536.
Proof.
  intros H. apply code_unit_in in H. inversion H as [h1 x h2 y h3 z h4 t A B C D]; subst.
  apply hex_small in A, B, C, D. lia.
Qed.
Lemma four_digits_shape h n : four_digits h n ->
  exists a b c d, h = String a (String b (String c (String d ""))) /\ code_unit a b c d = Some n.
Proof. intros H. inversion H; subst. do 4 eexists. split; [reflexivity|now apply code_unit_in]. Qed.
Lemma is_low_in n : is_low n = true <-> 56320 <= n < 57344.
Proof. unfold is_low. rewrite andb_true_iff, !N.leb_le. lia. Qed.
Lemma is_high_in n : is_high n = true <-> 55296 <= n < 56320.
Proof. unfold is_high. rewrite andb_true_iff, !N.leb_le. lia. Qed.

Lemma divide a b q r : a = b * q + r -> r < b -> a / b = q /\ a mod b = r.
Proof. intros E L. split; symmetry; [apply (N.div_unique a b q r L E)|apply (N.mod_unique a b q r L E)]. Qed.
Lemma in_utf8_is n u : in_utf8 n u -> u = utf8 n.
Proof.
  unfold utf8, bytes. destruct 1 as [a A|n a b E B L|n a b c E B C L|n a b c d E B C D L];
    repeat match goal with |- context [?x <? ?y] => destruct (N.ltb_spec x y); try lia end;
    cbn [map string_of_list_ascii].
  - reflexivity.
  - destruct (divide n 64 a b E B) as [Q R]. rewrite Q, N.div_1_r, R. reflexivity.
  - assert (E1 : n = 4096 * a + (64 * b + c)) by lia. destruct (divide _ _ _ _ E1) as [Q1 _]; [lia|].
    assert (E2 : n = 64 * (64 * a + b) + c) by lia. destruct (divide _ _ _ _ E2 C) as [Q2 R2].
    destruct (divide (64 * a + b) 64 a b eq_refl B) as [_ R1]. rewrite Q1, Q2, R1, N.div_1_r, R2. reflexivity.
  - assert (E1 : n = 262144 * a + (4096 * b + 64 * c + d)) by lia. destruct (divide _ _ _ _ E1) as [Q1 _]; [lia|].
    assert (E2 : n = 4096 * (64 * a + b) + (64 * c + d)) by lia. destruct (divide _ _ _ _ E2) as [Q2 _]; [lia|].
    assert (E3 : n = 64 * (64 * (64 * a + b) + c) + d) by lia. destruct (divide _ _ _ _ E3 D) as [Q3 R3].
    destruct (divide (64 * a + b) 64 a b eq_refl B) as [_ R1].
    destruct (divide (64 * (64 * a + b) + c) 64 (64 * a + b) c eq_refl C) as [_ R2].
    rewrite Q1, Q2, Q3, R1, R2, N.div_1_r, R3. reflexivity.
Qed.
Lemma utf8_in n : n < 1114112 -> in_utf8 n (utf8 n).
Proof.
  intros L. assert (M : forall k, k mod 64 < 64) by (intros; now apply N.mod_lt).
  assert (D : forall k, k = 64 * (k / 64) + k mod 64) by (intros; now apply N.div_mod).
  assert (X : n / 4096 = n / 64 / 64) by (now rewrite N.div_div).
  assert (Y : n / 262144 = n / 64 / 64 / 64) by (now rewrite !N.div_div).
  pose proof (D n). pose proof (D (n / 64)). pose proof (D (n / 64 / 64)).
  pose proof (M n). pose proof (M (n / 64)). pose proof (M (n / 64 / 64)).
  unfold utf8. rewrite X, Y, N.div_1_r.
  destruct (N.ltb_spec n 128); [now apply (utf8_1 n)|].
  destruct (N.ltb_spec n 2048); [apply (utf8_2 n (n / 64) (n mod 64)); lia|].
  destruct (N.ltb_spec n 65536).
  - apply (utf8_3 n (n / 64 / 64) ((n / 64) mod 64) (n mod 64)); lia.
  - apply (utf8_4 n (n / 64 / 64 / 64) ((n / 64 / 64) mod 64) ((n / 64) mod 64) (n mod 64)); lia.
Qed.

Lemma before_some c o t r : before c o = Some (t, r) -> exists u, t = c ++ u /\ o = Some (u, r).
Proof. destruct o as [[u x]|]; [|discriminate]. intros [= <- <-]. eauto. Qed.

Lemma literal_spells_len k : forall s t r, (String.length s <= k)%nat -> literal s = Some (t, r) ->
  exists u, s = u ++ String """" r /\ spells u t.
Proof.
  induction k as [|k IH]; intros s t r L H; (destruct s as [|c s]; [discriminate H|]); cbn in L; [lia|].
  cbn [literal] in H. destruct (Ascii.eqb_spec c """") as [->|C1].
  { injection H as <- <-. exists "". split; [reflexivity|constructor]. }
  destruct (Ascii.eqb_spec c "\") as [->|C2].
  - destruct s as [|d s]; [discriminate|]. cbn in L. destruct (short_escape d) as [e|] eqn:D.
    + apply before_some in H as (v & -> & H). apply IH in H as (u & -> & H); [|lia].
      apply short_escape_in in D as (n & D & ->). exists (String "\" (String d u)).
      split; [reflexivity|]. cbn [append]. now constructor.
    + destruct (Ascii.eqb_spec d "u") as [->|]; [|discriminate].
      destruct s as [|h1 [|h2 [|h3 [|h4 s]]]]; try discriminate. cbn in L.
      destruct (code_unit h1 h2 h3 h4) as [n|] eqn:E; [|discriminate]. pose proof (code_unit_small _ _ _ _ _ E) as B.
      apply code_unit_in in E. destruct (is_low n) eqn:LO; [discriminate|]. destruct (is_high n) eqn:HI.
      * destruct s as [|x [|y [|l1 [|l2 [|l3 [|l4 s]]]]]]; try discriminate. cbn in L.
        destruct (Ascii.eqb_spec x "\") as [->|]; [|discriminate].
        destruct (Ascii.eqb_spec y "u") as [->|]; [|discriminate]. cbn [andb] in H.
        destruct (code_unit l1 l2 l3 l4) as [m|] eqn:F; [|discriminate]. apply code_unit_in in F.
        destruct (is_low m) eqn:LM; [|discriminate]. apply is_low_in in LM. apply is_high_in in HI.
        apply before_some in H as (v & -> & H). apply IH in H as (u & -> & H); [|lia].
        replace n with (55296 + (n - 55296)) in E by lia. replace m with (56320 + (m - 56320)) in F by lia.
        eexists. split; [|apply (spells_pair _ _ _ _ _ u v E F); [lia|lia|apply utf8_in; lia|exact H]].
        reflexivity.
      * apply before_some in H as (v & -> & H). apply IH in H as (u & -> & H); [|lia].
        eexists. split; [|apply (spells_hex _ n _ u v E); [|apply utf8_in; lia|exact H]]; [reflexivity|].
        destruct (N.lt_ge_cases n 55296) as [|G]; [now left|right].
        destruct (N.lt_ge_cases n 57344) as [G'|]; [exfalso|assumption].
        destruct (N.lt_ge_cases n 56320) as [K|K].
        -- assert (X : is_high n = true) by (apply is_high_in; lia). congruence.
        -- assert (X : is_low n = true) by (apply is_low_in; lia). congruence.
  - destruct (N.ltb_spec (N_of_ascii c) 32); [discriminate|].
    apply before_some in H as (v & -> & H). apply IH in H as (u & -> & H); [|lia].
    exists (String c u). split; [reflexivity|]. cbn [append]. constructor; try assumption.
    + intros E. apply C1. rewrite <- (ascii_N_embedding c), E. reflexivity.
    + intros E. apply C2. rewrite <- (ascii_N_embedding c), E. reflexivity.
Qed.
Lemma literal_spells s t r : literal s = Some (t, r) -> exists u, s = u ++ String """" r /\ spells u t.
Proof. exact (literal_spells_len _ s t r (le_n _)). Qed.

Lemma spells_literal u t : spells u t -> forall r, literal (u ++ String """" r) = Some (t, r).
Proof.
  induction 1 as [|c s t C1 C2 C3 _ IH|e n s t E _ IH|h n u s t F B U _ IH|h l a b u s t F G A B U _ IH]; intros r.
  - reflexivity.
  - cbn [append literal]. destruct (Ascii.eqb_spec c """") as [->|_]; [now exfalso; apply C1|].
    destruct (Ascii.eqb_spec c "\") as [->|_]; [now exfalso; apply C2|].
    apply N.ltb_ge in C3. rewrite C3, IH. reflexivity.
  - cbn [append literal]. change (Ascii.eqb "\" """") with false. change (Ascii.eqb "\" "\") with true. cbn iota.
    assert (D : short_escape e = Some (ascii_of_N n)) by (apply short_escape_in; eauto). rewrite D, IH. reflexivity.
  - apply four_digits_shape in F as (h1 & h2 & h3 & h4 & -> & F). apply in_utf8_is in U as ->.
    cbn [append literal]. change (Ascii.eqb "\" """") with false. change (Ascii.eqb "\" "\") with true. cbn iota.
    change (short_escape "u") with (@None ascii). change (Ascii.eqb "u" "u") with true. cbn iota.
    rewrite F. assert (LO : is_low n = false).
    { destruct (is_low n) eqn:X; [apply is_low_in in X; lia|reflexivity]. }
    assert (HI : is_high n = false).
    { destruct (is_high n) eqn:X; [apply is_high_in in X; lia|reflexivity]. }
    rewrite LO, HI, IH. reflexivity.
  - apply four_digits_shape in F as (h1 & h2 & h3 & h4 & -> & F).
    apply four_digits_shape in G as (l1 & l2 & l3 & l4 & -> & G). apply in_utf8_is in U as ->.
    cbn [append literal]. change (Ascii.eqb "\" """") with false. change (Ascii.eqb "\" "\") with true. cbn iota.
    change (short_escape "u") with (@None ascii). change (Ascii.eqb "u" "u") with true. cbn iota beta delta [andb].
    rewrite F, G. assert (LO : is_low (55296 + a) = false).
    { destruct (is_low (55296 + a)) eqn:X; [apply is_low_in in X; lia|reflexivity]. }
    assert (HI : is_high (55296 + a) = true) by (apply is_high_in; lia).
    assert (LB : is_low (56320 + b) = true) by (apply is_low_in; lia).
    rewrite LO, HI, LB, IH.
    replace (65536 + 1024 * (55296 + a - 55296) + (56320 + b - 56320)) with (65536 + 1024 * a + b) by lia.
    reflexivity.
Qed.

(** * Numbers *)
Lemma digit_in c d : In (c, d) digit_values <-> is_digit c = true /\ d = N_of_ascii c - 48.
Proof.
  split.
  - intros H. unfold digit_values in H. cbn [firstn hex_digits In] in H.
    repeat (destruct H as [H|H]; [injection H as <- <-; split; reflexivity|]). destruct H.
  - intros [H ->]. bits c; cbn in H; try discriminate; cbn; tauto.
Qed.
Fixpoint all_digits (s : string) : bool :=
  match s with EmptyString => true | String c r => is_digit c && all_digits r end.
Lemma digits_splits s : s = fst (digits s) ++ snd (digits s) /\ all_digits (fst (digits s)) = true.
Proof.
  induction s as [|c s IH]; [split; reflexivity|]. cbn [digits]. destruct (is_digit c) eqn:D; [|split; reflexivity].
  destruct (digits s) as [d t]. cbn in *. destruct IH as [-> IH]. rewrite D. split; [reflexivity|exact IH].
Qed.
Lemma digits_all d r : all_digits d = true -> ends_number r = true -> digits (d ++ r) = (d, r).
Proof.
  induction d as [|c d IH]; intros A E.
  - destruct r as [|c r]; [reflexivity|]. cbn in E |- *. apply andb_true_iff in E as [E _].
    destruct (is_digit c); [discriminate|reflexivity].
  - cbn in A. apply andb_true_iff in A as [C A]. cbn [append digits]. rewrite C, IH; auto.
Qed.
Lemma more_digits_all a s n : more_digits a s n -> all_digits s = true.
Proof. induction 1 as [|a c d s n H _ IH]; [reflexivity|]. apply digit_in in H as [H _]. cbn. now rewrite H. Qed.

Lemma more_digits_det a s n : more_digits a s n -> forall m, more_digits a s m -> n = m.
Proof.
  induction 1 as [|a c d s n H _ IH]; intros m M; inversion M; subst; [reflexivity|]. apply IH.
  match goal with X : In (c, ?e) digit_values |- _ => apply digit_in in X as [_ ->] end.
  apply digit_in in H as [_ ->]. assumption.
Qed.
Lemma uint_of_digits s : all_digits s = true -> forall p, exists u,
  NilEmpty.uint_of_string s = Some u /\ more_digits (Npos p) s (Npos (Pos.of_uint_acc u p)).
Proof.
  induction s as [|c s IH]; intros A p; [exists Decimal.Nil; split; [reflexivity|constructor]|].
  cbn [all_digits] in A. apply andb_true_iff in A as [C A].
  destruct (IH A (Pos.of_succ_nat 0)) as (u & U & _).
  assert (K : forall q, more_digits (Npos q) s (Npos (Pos.of_uint_acc u q))).
  { intros q. destruct (IH A q) as (w & W & M). rewrite U in W. injection W as <-. exact M. }
  bits c; cbn in C; try discriminate C; cbn [NilEmpty.uint_of_string]; rewrite U; cbn;
    (eexists; split; [reflexivity|]; eapply more_one; [cbn; eauto 12|]; cbn [Pos.of_uint_acc];
     match goal with |- more_digits ?a _ (Npos (Pos.of_uint_acc u ?q)) => replace a with (Npos q) by lia end; apply K).
Qed.
Lemma of_decimal_numeral c d s n : In (c, d) digit_values -> d <> 0 -> more_digits d s n ->
  of_decimal (String c s) = Some n.
Proof.
  intros C D M. pose proof (more_digits_all _ _ _ M) as A. unfold of_decimal.
  unfold digit_values in C. cbn [firstn hex_digits In] in C.
  repeat (destruct C as [C|C]; [injection C as <- <-; try (now exfalso; apply D);
    match goal with H : more_digits (Npos ?p) s n |- _ => destruct (uint_of_digits s A p) as (u & U & K) end;
    cbn [NilEmpty.uint_of_string]; rewrite U; cbn; f_equal; exact (more_digits_det _ _ _ K _ M)|]).
  destruct C.
Qed.
Lemma more_digits_any s : all_digits s = true -> forall a, exists n, more_digits a s n.
Proof.
  induction s as [|c s IH]; intros A a; [exists a; constructor|]. cbn in A. apply andb_true_iff in A as [C A].
  destruct (IH A (10 * a + (N_of_ascii c - 48))) as (n & H). exists n. econstructor; [now apply digit_in|exact H].
Qed.
Lemma several_digits_all s : several_digits s <-> s <> "" /\ all_digits s = true.
Proof.
  unfold several_digits. split; intros [H D]; (split; [exact H|]).
  - destruct D as (n & D). exact (more_digits_all _ _ _ D).
  - exact (more_digits_any s D 0).
Qed.
Lemma some_digits_split s r : some_digits s = Some r -> exists d, s = d ++ r /\ several_digits d.
Proof.
  unfold some_digits. destruct (digits_splits s) as [E A]. destruct (digits s) as [d t]. cbn [fst snd] in *.
  destruct (String.eqb_spec d ""); [discriminate|]. intros [= <-]. exists d. split; [exact E|].
  now apply several_digits_all.
Qed.
Lemma digits_stop d r : all_digits d = true -> match r with String c _ => is_digit c = false | "" => True end ->
  digits (d ++ r) = (d, r).
Proof.
  induction d as [|c d IH]; intros A E; cbn [append].
  - destruct r as [|c r]; [reflexivity|]. cbn [digits]. now rewrite E.
  - cbn in A. apply andb_true_iff in A as [C A]. cbn [digits]. rewrite C, IH; auto.
Qed.
Lemma ends_stop r : ends_number r = true -> match r with String c _ => is_digit c = false | "" => True end.
Proof. destruct r as [|c r]; [trivial|]. cbn. intros E. apply andb_true_iff in E as [E _]. now apply negb_true_iff in E. Qed.
Lemma some_digits_all d r : several_digits d -> match r with String c _ => is_digit c = false | "" => True end ->
  some_digits (d ++ r) = Some r.
Proof.
  intros H E. apply several_digits_all in H as [H A]. unfold some_digits. rewrite digits_stop by assumption.
  destruct (String.eqb_spec d ""); [contradiction|reflexivity].
Qed.

Lemma fraction_split s b r : fraction_part s = Some (b, r) ->
  exists f, s = f ++ r /\ after_point f /\ (b = true <-> f <> "").
Proof.
  destruct s as [|c s]; [intros [= <- <-]; exists ""; repeat split; [now left|discriminate|congruence]|].
  cbn [fraction_part]. destruct (Ascii.eqb_spec c ".") as [->|].
  - destruct (some_digits s) as [t|] eqn:D; [|discriminate]. intros [= <- <-].
    apply some_digits_split in D as (d & -> & D). exists ("." ++ d). split; [reflexivity|]. split; [right; eauto|].
    now split.
  - intros [= <- <-]. exists "". repeat split; [now left|discriminate|congruence].
Qed.
Lemma exponent_split s b r : exponent_part s = Some (b, r) ->
  exists e, s = e ++ r /\ exponent e /\ (b = true <-> e <> "").
Proof.
  destruct s as [|c s]; [intros [= <- <-]; exists ""; repeat split; [now left|discriminate|congruence]|].
  cbn [exponent_part]. destruct (Ascii.eqb c "e" || Ascii.eqb c "E") eqn:C.
  - assert (X : String c "" = "e" \/ String c "" = "E").
    { apply orb_true_iff in C as [C|C]; apply Ascii.eqb_eq in C as ->; auto. }
    intros H.
    assert (S : exists m t, s = m ++ t /\ (m = "" \/ m = "+" \/ m = "-") /\ option_map (pair true) (some_digits t) = Some (b, r)).
    { destruct s as [|d t]; [exists "", ""; auto|]. destruct (Ascii.eqb d "+" || Ascii.eqb d "-") eqn:D.
      - exists (String d ""), t. split; [reflexivity|]. split; [right|exact H].
        apply orb_true_iff in D as [D|D]; apply Ascii.eqb_eq in D as ->; auto.
      - exists "", (String d t). auto. }
    destruct S as (m & t & -> & M & S). destruct (some_digits t) as [q|] eqn:D; [|discriminate S].
    injection S as <- <-. apply some_digits_split in D as (d & -> & D).
    exists (String c "" ++ m ++ d). split; [cbn [append]; now rewrite app_assoc_s|]. split; [|now split].
    right. exists (String c ""), m, d. auto.
  - intros [= <- <-]. exists "". repeat split; [now left|discriminate|congruence].
Qed.
Lemma exponent_ends e r : exponent e -> ends_number r = true ->
  exponent_part (e ++ r) = Some (negb (String.eqb e ""), r) /\ fraction_part (e ++ r) = Some (false, e ++ r) /\
  match e ++ r with String c _ => is_digit c = false | "" => True end.
Proof.
  intros [->|(x & m & d & -> & X & M & D)] E.
  - destruct (ends_parts r E) as [F G]. cbn [append String.eqb negb]. repeat split; [exact G|exact F|exact (ends_stop r E)].
  - rewrite !app_assoc_s.
    assert (S : some_digits (d ++ r) = Some r) by (apply some_digits_all; [exact D|now apply ends_stop]).
    apply several_digits_all in D as [ND AD]. destruct d as [|c d]; [contradiction|]. cbn [all_digits] in AD.
    apply andb_true_iff in AD as [C _].
    assert (PM : Ascii.eqb c "+" || Ascii.eqb c "-" = false) by (bits c; cbn in C; try discriminate C; reflexivity).
    destruct X as [-> | ->], M as [->|[->| ->]]; cbn [append] in *; cbn [exponent_part fraction_part];
      repeat match goal with |- context [Ascii.eqb ?a ?b] =>
        let v := eval compute in (Ascii.eqb a b) in
        match v with true => idtac | false => idtac end; change (Ascii.eqb a b) with v end;
      cbn [orb]; rewrite ?PM, S; repeat split; reflexivity.
Qed.
Lemma fraction_ends f e r : after_point f -> exponent e -> ends_number r = true ->
  fraction_part (f ++ e ++ r) = Some (negb (String.eqb f ""), e ++ r) /\
  match f ++ e ++ r with String c _ => is_digit c = false | "" => True end.
Proof.
  intros F X E. destruct (exponent_ends e r X E) as (_ & G & S). destruct F as [->|(d & -> & D)]; [now split|].
  cbn [append fraction_part]. change (Ascii.eqb "." ".") with true. cbn iota.
  rewrite some_digits_all by assumption. split; reflexivity.
Qed.
Lemma numeral_head t n : numeral t n -> exists c s, t = String c s /\ is_digit c = true.
Proof. destruct 1 as [|c d s n C _ _]; [now exists "0"%char, ""|]. apply digit_in in C as [C _]. eauto. Qed.
Lemma numeral_parts t n : numeral t n -> all_digits t = true /\ String.eqb t "" = false /\
  match t with String c (String _ _) => Ascii.eqb c "0" | _ => false end = false /\ of_decimal t = Some n.
Proof.
  destruct 1 as [|c d s n C D M]; [repeat split|].
  split; [cbn; apply digit_in in C as [C _]; now rewrite C, (more_digits_all _ _ _ M)|]. split; [reflexivity|].
  split; [|exact (of_decimal_numeral c d s n C D M)].
  destruct s as [|x s]; [reflexivity|]. destruct (Ascii.eqb_spec c "0") as [->|_]; [|reflexivity].
  exfalso. apply D. now apply digit_in in C as [_ ->].
Qed.

(** A number of the grammar, in its parts. *)
Definition parts (t : string) (v : json) : Prop :=
  exists m i n f e, t = m ++ i ++ f ++ e /\ sign_of m /\ numeral i n /\ after_point f /\ exponent e /\
    v = if negb (String.eqb m "") || negb (String.eqb f "") || negb (String.eqb e "") then JReal else JNum n.
Lemma numeral_in_parts t n : numeral t n -> parts t (JNum n).
Proof.
  intros H. exists "", t, n, "", "". cbn [append]. rewrite app_nil_s. repeat split; [now left|exact H|now left|now left].
Qed.
Lemma real_in_parts t : real t -> parts t JReal.
Proof.
  intros (m & i & n & f & e & E & M & I & F & X & N). exists m, i, n, f, e. repeat split; auto.
  destruct (String.eqb_spec m ""), (String.eqb_spec f ""), (String.eqb_spec e ""); try reflexivity; tauto.
Qed.
Lemma parts_are t v : parts t v -> (exists n, numeral t n /\ v = JNum n) \/ (real t /\ v = JReal).
Proof.
  intros (m & i & n & f & e & -> & M & I & F & X & ->).
  destruct (String.eqb_spec m "") as [->|NM], (String.eqb_spec f "") as [->|NF], (String.eqb_spec e "") as [->|NE];
    cbn [negb orb].
  1: { left. exists n. cbn [append]. now rewrite app_nil_s. }
  all: right; (split; [|reflexivity]); eexists _, i, n, _, _; (split; [reflexivity|]); repeat split; auto.
Qed.
Lemma number_reads t v r : parts t v -> ends_number r = true -> number (t ++ r) = Some (v, r).
Proof.
  intros (m & i & n & f & e & -> & M & I & F & X & ->) E. rewrite !app_assoc_s. unfold number.
  replace (match m ++ i ++ f ++ e ++ r with
           | EmptyString => (false, m ++ i ++ f ++ e ++ r)
           | String c t => if Ascii.eqb c "-" then (true, t) else (false, m ++ i ++ f ++ e ++ r) end)
    with (negb (String.eqb m ""), i ++ f ++ e ++ r).
  2:{ destruct M as [-> | ->]; [|reflexivity]. cbn [append]. destruct (numeral_head _ _ I) as (c & s & -> & D).
      cbn [append]. now rewrite (digit_not_minus c D). }
  destruct (fraction_ends f e r F X E) as [FR ST]. destruct (exponent_ends e r X E) as (EX & _ & _).
  destruct (numeral_parts i n I) as (A & NE & LZ & V).
  rewrite (digits_stop i _ A ST), NE, LZ, FR, EX, V. cbn [orb].
  destruct (negb (String.eqb m "") || negb (String.eqb f "") || negb (String.eqb e "")); reflexivity.
Qed.
Lemma digits_numeral c d : is_digit c = true -> all_digits d = true ->
  match d with String _ _ => Ascii.eqb c "0" | _ => false end = false ->
  exists n, of_decimal (String c d) = Some n /\ numeral (String c d) n.
Proof.
  intros C A Z. destruct (Ascii.eqb_spec c "0") as [->|NZ].
  - destruct d; [|discriminate]. exists 0. split; [reflexivity|constructor].
  - assert (D : In (c, N_of_ascii c - 48) digit_values) by now apply digit_in.
    assert (P : N_of_ascii c - 48 <> 0).
    { intros P. apply NZ. bits c; cbn in C, P; try discriminate; reflexivity. }
    destruct (N_of_ascii c - 48) as [|p] eqn:Q; [now exfalso|].
    destruct (uint_of_digits d A p) as (u & U & M). eexists.
    split; [exact (of_decimal_numeral c (Npos p) d _ D P M)|]. now apply numeral_other with (Npos p).
Qed.
Lemma number_parts s v r : number s = Some (v, r) -> exists t, s = t ++ r /\ parts t v.
Proof.
  unfold number.
  assert (SG : exists m w, s = m ++ w /\ sign_of m /\
    (match s with EmptyString => (false, s) | String c t => if Ascii.eqb c "-" then (true, t) else (false, s) end)
      = (negb (String.eqb m ""), w)).
  { destruct s as [|c s]; [exists "", ""; repeat split; now left|]. destruct (Ascii.eqb_spec c "-") as [->|].
    - exists "-", s. repeat split. now right.
    - exists "", (String c s). repeat split. now left. }
  destruct SG as (m & w & -> & M & ->). destruct (digits_splits w) as [E A]. destruct (digits w) as [d q].
  cbn [fst snd] in *. subst w. destruct d as [|c d]; [discriminate|]. cbn [all_digits] in A.
  apply andb_true_iff in A as [C A]. cbn [String.eqb orb].
  destruct (match d with "" => false | String _ _ => Ascii.eqb c "0" end) eqn:Z; [discriminate|].
  destruct (digits_numeral c d C A) as (n & V & I); [destruct d; auto|]. rewrite V.
  destruct (fraction_part q) as [[bf q1]|] eqn:F; [|discriminate]. apply fraction_split in F as (f & -> & F & BF).
  destruct (exponent_part q1) as [[be q2]|] eqn:X; [|discriminate]. apply exponent_split in X as (e & -> & X & BE).
  intros H. exists (m ++ String c d ++ f ++ e).
  assert (K1 : negb (String.eqb f "") = bf) by (destruct (String.eqb_spec f ""), bf; cbn; intuition congruence).
  assert (K2 : negb (String.eqb e "") = be) by (destruct (String.eqb_spec e ""), be; cbn; intuition congruence).
  assert (R : q2 = r) by (destruct (negb (String.eqb m "") || bf || be); now injection H).
  subst q2. split; [now rewrite !app_assoc_s|]. exists m, (String c d), n, f, e. repeat split; auto.
  rewrite K1, K2. destruct (negb (String.eqb m "") || bf || be); now injection H.
Qed.
Lemma parts_head t v : parts t v -> exists c s, t = String c s /\ (is_digit c = true \/ c = "-"%char).
Proof.
  intros (m & i & n & f & e & -> & M & I & _). destruct M as [-> | ->]; [|eexists _, _; split; [reflexivity|now right]].
  destruct (numeral_head _ _ I) as (c & s & -> & D). eexists _, _. split; [reflexivity|now left].
Qed.

(** * Values *)
(** Every value the reader reads, it reads by one of its cases. *)
Lemma value_inv f s v r : value (S f) s = Some (v, r) ->
  (skip s = "null" ++ r /\ v = JNull) \/
  (skip s = "true" ++ r /\ v = JBool true) \/
  (skip s = "false" ++ r /\ v = JBool false) \/
  (exists t u, skip s = String """" t /\ literal t = Some (u, r) /\ v = JStr u) \/
  (exists t, skip s = String "[" t /\ skip t = String "]" r /\ v = JArr []) \/
  (exists t l, skip s = String "[" t /\ elements (value f) f t = Some (l, r) /\ v = JArr l) \/
  (exists t, skip s = String "{" t /\ skip t = String "}" r /\ v = JObj []) \/
  (exists t l, skip s = String "{" t /\ fields (value f) f t = Some (l, r) /\ v = JObj l) \/
  number (skip s) = Some (v, r).
Proof.
  cbn [value]. generalize (skip s). clear s. intros s H.
  destruct s as [|c t]; [right; right; right; right; right; right; right; right; exact H|].
  destruct (Ascii.eqb_spec c "n") as [->|C1].
  { left. destruct t as [|a [|b [|d t]]]; [discriminate H| | |];
      (bits a; try discriminate H); (bits b; try discriminate H) || discriminate H;
      (bits d; try discriminate H). injection H as <- <-. split; reflexivity. }
  destruct (Ascii.eqb_spec c "t") as [->|C2].
  { right. left. destruct t as [|a t]; [discriminate H|]. bits a; try discriminate H.
    destruct t as [|a t]; [discriminate H|]. bits a; try discriminate H.
    destruct t as [|a t]; [discriminate H|]. bits a; try discriminate H.
    injection H as <- <-. split; reflexivity. }
  destruct (Ascii.eqb_spec c "f") as [->|C3].
  { right. right. left. destruct t as [|a t]; [discriminate H|]. bits a; try discriminate H.
    destruct t as [|a t]; [discriminate H|]. bits a; try discriminate H.
    destruct t as [|a t]; [discriminate H|]. bits a; try discriminate H.
    destruct t as [|a t]; [discriminate H|]. bits a; try discriminate H.
    injection H as <- <-. split; reflexivity. }
  do 3 right.
  destruct (Ascii.eqb_spec c """") as [->|C4].
  { left. destruct (literal t) as [[u x]|] eqn:L; [|discriminate]. injection H as <- <-. eauto. }
  right. destruct (Ascii.eqb_spec c "[") as [->|C5].
  { destruct (skip t) as [|a x] eqn:K.
    - right. left. destruct (elements (value f) f t) as [[l y]|] eqn:L; [|discriminate]. injection H as <- <-. eauto.
    - destruct (Ascii.eqb_spec a "]") as [->|C].
      + left. injection H as <- <-. eauto.
      + right. left.
        assert (H' : match elements (value f) f t with Some (l, r) => Some (JArr l, r) | None => None end = Some (v, r))
          by (bits a; try exact H; now exfalso; apply C).
        destruct (elements (value f) f t) as [[l y]|] eqn:L; [|discriminate]. injection H' as <- <-. eauto. }
  do 2 right. destruct (Ascii.eqb_spec c "{") as [->|C6].
  { destruct (skip t) as [|a x] eqn:K.
    - right. left. destruct (fields (value f) f t) as [[l y]|] eqn:L; [|discriminate]. injection H as <- <-. eauto.
    - destruct (Ascii.eqb_spec a "}") as [->|C].
      + left. injection H as <- <-. eauto.
      + right. left.
        assert (H' : match fields (value f) f t with Some (l, r) => Some (JObj l, r) | None => None end = Some (v, r))
          by (bits a; try exact H; now exfalso; apply C).
        destruct (fields (value f) f t) as [[l y]|] eqn:L; [|discriminate]. injection H' as <- <-. eauto. }
  do 2 right. bits c; try exact H; now exfalso;
    first [now apply C1|now apply C2|now apply C3|now apply C4|now apply C5|now apply C6].
Qed.
Lemma elements_inv f k s l r : elements f k s = Some (l, r) -> exists k' v t, k = S k' /\ f s = Some (v, t) /\
  ((skip t = String "]" r /\ l = [v]) \/
   (exists u m, skip t = String "," u /\ elements f k' u = Some (m, r) /\ l = v :: m)).
Proof.
  destruct k as [|k]; [discriminate|]. cbn [elements]. destruct (f s) as [[v t]|] eqn:V; [|discriminate].
  intros H. exists k, v, t. split; [reflexivity|]. split; [reflexivity|].
  destruct (skip t) as [|c x]; [discriminate|]. bits c; try discriminate H.
  - injection H as <- <-. now left.
  - destruct (elements f k x) as [[m y]|] eqn:L; [|discriminate]. injection H as <- <-. right. eauto.
Qed.
Lemma fields_inv f k s l r : fields f k s = Some (l, r) -> exists k' x n y z v t,
  k = S k' /\ skip s = String """" x /\ literal x = Some (n, y) /\ skip y = String ":" z /\ f z = Some (v, t) /\
  ((skip t = String "}" r /\ l = [(n, v)]) \/
   (exists u m, skip t = String "," u /\ fields f k' u = Some (m, r) /\ l = (n, v) :: m)).
Proof.
  destruct k as [|k]; [discriminate|]. cbn [fields]. intros H.
  destruct (skip s) as [|c x]; [discriminate|]. bits c; try discriminate H.
  destruct (literal x) as [[n y]|] eqn:L; [|discriminate].
  destruct (skip y) as [|c z] eqn:Y; [discriminate|]. bits c; try discriminate H.
  destruct (f z) as [[v t]|] eqn:V; [|discriminate].
  exists k, x, n, y, z, v, t. do 5 (split; [first [reflexivity|assumption]|]).
  destruct (skip t) as [|c w]; [discriminate|]. bits c; try discriminate H.
  - injection H as <- <-. now left.
  - destruct (fields f k w) as [[m q]|] eqn:M; [|discriminate]. injection H as <- <-. right. eauto.
Qed.

Lemma skip_is s t : skip s = t -> exists a, s = a ++ t /\ space a.
Proof. intros <-. apply skip_splits. Qed.

Definition sound (f : string -> option (json * string)) : Prop :=
  forall s v r, f s = Some (v, r) -> exists a t, s = a ++ t ++ r /\ space a /\ text t v.
Lemma elements_sound f : sound f -> forall k s l r, elements f k s = Some (l, r) ->
  exists t, s = t ++ "]" ++ r /\ items t l.
Proof.
  intros S. induction k as [|k IH]; intros s l r H; [discriminate|].
  apply elements_inv in H as (k' & v & t & [= <-] & V & H). apply S in V as (a & x & -> & A & X).
  destruct H as [[K ->]|(u & m & K & M & ->)]; apply skip_is in K as (b & -> & B).
  - exists (a ++ x ++ b). split; [now rewrite !app_assoc_s|]. now constructor.
  - apply IH in M as (w & -> & W). exists (a ++ x ++ b ++ "," ++ w).
    split; [rewrite !app_assoc_s; reflexivity|]. now constructor.
Qed.
Lemma fields_sound f : sound f -> forall k s l r, fields f k s = Some (l, r) ->
  exists t, s = t ++ "}" ++ r /\ members t l.
Proof.
  intros S. induction k as [|k IH]; intros s l r H; [discriminate|].
  apply fields_inv in H as (k' & x & n & y & z & v & t & [= <-] & E & L & Y & V & H).
  apply skip_is in E as (a & -> & A). apply literal_spells in L as (q & -> & Q).
  apply skip_is in Y as (b & -> & B). apply S in V as (c & w & -> & C & W).
  destruct H as [[K ->]|(u & m & K & M & ->)]; apply skip_is in K as (d & -> & D).
  - exists (a ++ """" ++ q ++ """" ++ b ++ ":" ++ c ++ w ++ d).
    split; [repeat (rewrite ?app_assoc_s; cbn [append]); reflexivity|].
    now constructor.
  - apply IH in M as (e & -> & I). exists (a ++ """" ++ q ++ """" ++ b ++ ":" ++ c ++ w ++ d ++ "," ++ e).
    split; [repeat (rewrite ?app_assoc_s; cbn [append]); reflexivity|].
    now constructor.
Qed.
Lemma value_sound f : sound (value f).
Proof.
  induction f as [|f IH]; intros s v r H; [discriminate|].
  destruct (skip_splits s) as (a & E & A). apply value_inv in H.
  repeat match type of H with _ \/ _ => destruct H as [H|H] end;
    try match type of H with _ /\ _ =>
      destruct H as [K ->]; rewrite K in E; exists a; eexists; split; [exact E|split; [exact A|constructor]] end.
  - destruct H as (t & u & K & L & ->). rewrite K in E. apply literal_spells in L as (q & -> & Q).
    exists a, ("""" ++ q ++ """"). split; [rewrite !app_assoc_s; exact E|]. split; [exact A|now constructor].
  - destruct H as (t & K & L & ->). rewrite K in E. apply skip_is in L as (b & -> & B).
    exists a, ("[" ++ b ++ "]"). split; [rewrite !app_assoc_s; exact E|]. split; [exact A|now constructor].
  - destruct H as (t & l & K & L & ->). rewrite K in E. apply (elements_sound _ IH) in L as (b & -> & B).
    exists a, ("[" ++ b ++ "]"). split; [rewrite !app_assoc_s; exact E|]. split; [exact A|now constructor].
  - destruct H as (t & K & L & ->). rewrite K in E. apply skip_is in L as (b & -> & B).
    exists a, ("{" ++ b ++ "}"). split; [rewrite !app_assoc_s; exact E|]. split; [exact A|now constructor].
  - destruct H as (t & l & K & L & ->). rewrite K in E. apply (fields_sound _ IH) in L as (b & -> & B).
    exists a, ("{" ++ b ++ "}"). split; [rewrite !app_assoc_s; exact E|]. split; [exact A|now constructor].
  - apply number_parts in H as (t & K & N). rewrite K in E. exists a, t. split; [exact E|]. split; [exact A|].
    apply parts_are in N as [(n & N & ->)|[N ->]]; now constructor.
Qed.

(** * The other way round *)
Scheme text_mut := Minimality for text Sort Prop
  with items_mut := Minimality for items Sort Prop
  with members_mut := Minimality for members Sort Prop.
Combined Scheme texts_mut from text_mut, items_mut, members_mut.

Lemma ends_space b c t : space b -> In c [","; "]"; "}"]%char -> ends_number (b ++ String c t) = true.
Proof.
  intros H I. destruct H as [|x b X _]; [cbn in I; destruct I as [<-|[<-|[<-|[]]]]; reflexivity|].
  cbn [append]. apply is_space_in in X. bits x; cbn in X; try discriminate X; reflexivity.
Qed.
Lemma ends_space_all b : space b -> ends_number b = true.
Proof.
  intros H. destruct H as [|x b X _]; [reflexivity|].
  apply is_space_in in X. bits x; cbn in X; try discriminate X; reflexivity.
Qed.
Lemma text_starts t v : text t v -> starts t = true.
Proof.
  destruct 1 as [| | |t n N|t N| | | | | ]; try reflexivity.
  - apply numeral_head in N as (c & s & -> & C). now apply digit_starts.
  - apply real_in_parts, parts_head in N as (c & s & -> & [C| ->]); [now apply digit_starts|reflexivity].
Qed.
Lemma starts_not_brace s A (x : string -> A) y : starts s = true ->
  match s with String "}" r => x r | _ => y end = y.
Proof. destruct s as [|[[] [] [] [] [] [] [] []] s]; cbn; try reflexivity; discriminate. Qed.
Lemma items_head s l : items s l -> exists a t, s = a ++ t /\ space a /\ starts t = true.
Proof.
  destruct 1 as [a s b v A S B|a s b v t l A S B _];
    (eexists a, _; split; [reflexivity|]; split; [exact A|apply starts_app, (text_starts _ _ S)]).
Qed.
Lemma members_head s l : members s l -> exists a t, s = a ++ t /\ space a /\ starts t = true.
Proof. destruct 1 as [a|a]; (eexists a, _; split; [reflexivity|]; split; [assumption|reflexivity]). Qed.
Lemma text_pos t v : text t v -> (1 <= String.length t)%nat.
Proof. intros H. apply text_starts in H. destruct t; [discriminate|cbn; lia]. Qed.

Lemma value_number f a t v r : parts t v -> ends_number r = true -> space a -> value (S f) (a ++ t ++ r) = Some (v, r).
Proof.
  intros P E A. rewrite <- (number_reads t v r P E). cbn [value]. rewrite skip_space by exact A.
  destruct (parts_head _ _ P) as (c & s & -> & C). cbn [append].
  destruct C as [C| ->]; [|reflexivity]. pose proof (value_digit f c (s ++ r) C) as H. exact H.
Qed.

Ltac nosp := repeat match goal with |- context [is_space ?c] => change (is_space c) with false; cbn iota end.
Lemma texts_read :
  (forall t v, text t v -> forall f r a, (String.length t <= f)%nat -> ends_number r = true -> space a ->
     value f (a ++ t ++ r) = Some (v, r)) /\
  (forall t l, items t l -> forall f k r, (String.length t <= f)%nat -> (String.length t <= k)%nat ->
     elements (value f) k (t ++ "]" ++ r) = Some (l, r)) /\
  (forall t l, members t l -> forall f k r, (String.length t <= f)%nat -> (String.length t <= k)%nat ->
     fields (value f) k (t ++ "}" ++ r) = Some (l, r)).
Proof.
  apply texts_mut.
  1-10: intros; try match goal with H : (_ <= ?f)%nat |- _ => destruct f as [|f]; [cbn in H; lia|] end.
  - cbn [value]. rewrite skip_space by assumption. reflexivity.
  - cbn [value]. rewrite skip_space by assumption. reflexivity.
  - cbn [value]. rewrite skip_space by assumption. reflexivity.
  - assert (P : parts s (JNum n)) by now apply numeral_in_parts.
    destruct f as [|f]; [destruct (parts_head _ _ P) as (c & u & -> & _); cbn in *; lia|].
    apply value_number; assumption.
  - assert (P : parts s JReal) by now apply real_in_parts.
    destruct f as [|f]; [destruct (parts_head _ _ P) as (c & u & -> & _); cbn in *; lia|].
    apply value_number; assumption.
  - rewrite !app_assoc_s. cbn [value]. rewrite skip_space by assumption. cbn [append skip]. nosp.
    now rewrite (spells_literal s t).
  - rewrite !app_assoc_s. cbn [value]. rewrite skip_space by assumption. cbn [append skip]. nosp.
    rewrite skip_space by assumption. reflexivity.
  - rename H into I, H0 into IH, H1 into L, H2 into E, H3 into A.
    cbn [append String.length] in L. rewrite length_app_s in L. cbn in L.
    rewrite !app_assoc_s. cbn [value]. rewrite skip_space by assumption. cbn [append skip]. nosp.
    destruct (items_head _ _ I) as (b & t & Q & B & S).
    assert (K : skip (s ++ "]" ++ r) = t ++ "]" ++ r) by (rewrite Q, app_assoc_s; apply skip_starts, starts_app; assumption).
    cbn [append] in K. rewrite K, starts_not_bracket by (apply starts_app, S).
    change (String "]" r) with ("]" ++ r). now rewrite IH by lia.
  - rewrite !app_assoc_s. cbn [value]. rewrite skip_space by assumption. cbn [append skip]. nosp.
    rewrite skip_space by assumption. reflexivity.
  - rename H into I, H0 into IH, H1 into L, H2 into E, H3 into A.
    cbn [append String.length] in L. rewrite length_app_s in L. cbn in L.
    rewrite !app_assoc_s. cbn [value]. rewrite skip_space by assumption. cbn [append skip]. nosp.
    destruct (members_head _ _ I) as (b & t & Q & B & S).
    assert (K : skip (s ++ "}" ++ r) = t ++ "}" ++ r) by (rewrite Q, app_assoc_s; apply skip_starts, starts_app; assumption).
    cbn [append] in K. rewrite K, starts_not_brace by (apply starts_app, S).
    change (String "}" r) with ("}" ++ r). now rewrite IH by lia.
  - intros a s b v A S IH B f k r L K. pose proof (text_pos _ _ S). rewrite !length_app_s in L, K.
    destruct k as [|k]; [lia|]. rewrite !app_assoc_s. cbn [elements].
    rewrite IH; [|lia|apply ends_space; cbn; tauto|exact A]. rewrite skip_space by exact B. reflexivity.
  - intros a s b v t l A S IH B T IT f k r L K. pose proof (text_pos _ _ S). rewrite !length_app_s in L, K. cbn in L, K.
    destruct k as [|k]; [lia|]. rewrite !app_assoc_s. cbn [elements].
    rewrite IH; [|lia|apply ends_space; cbn; tauto|exact A]. rewrite skip_space by exact B. cbn [append skip]. nosp.
    change (String "]" r) with ("]" ++ r). now rewrite IT by lia.
  - intros a q n b c s d v A Q B C S IH D f k r L K. repeat (rewrite ?length_app_s in L, K; cbn [append String.length] in L, K).
    destruct k as [|k]; [lia|]. rewrite !app_assoc_s. cbn [fields].
    rewrite skip_space by exact A. cbn [append skip]. nosp. rewrite ?app_assoc_s. cbn [append].
    rewrite (spells_literal q n Q). rewrite ?app_assoc_s, skip_space by exact B. cbn [append skip]. nosp.
    rewrite ?app_assoc_s.
    rewrite IH; [|lia|apply ends_space; cbn; tauto|exact C]. rewrite skip_space by exact D. reflexivity.
  - intros a q n b c s d v t l A Q B C S IH D T IT f k r L K.
    repeat (rewrite ?length_app_s in L, K; cbn [append String.length] in L, K).
    destruct k as [|k]; [lia|]. rewrite !app_assoc_s. cbn [fields].
    rewrite skip_space by exact A. cbn [append skip]. nosp. rewrite ?app_assoc_s. cbn [append].
    rewrite (spells_literal q n Q). rewrite ?app_assoc_s, skip_space by exact B. cbn [append skip]. nosp.
    rewrite ?app_assoc_s.
    rewrite IH; [|lia|apply ends_space; cbn; tauto|exact C]. rewrite skip_space by exact D. cbn [append skip]. nosp.
    change (String "}" r) with ("}" ++ r). now rewrite IT by lia.
Qed.

Theorem parse_document s v : parse s = Some v <-> document s v.
Proof.
  unfold parse. split.
  - destruct (value (S (String.length s)) s) as [[w r]|] eqn:V; [|discriminate].
    destruct (String.eqb_spec (skip r) "") as [R|]; [|discriminate]. intros [= <-].
    apply value_sound in V as (a & t & E & A & T). apply skip_is in R as (b & Q & B). rewrite app_nil_s in Q. subst r.
    now exists a, t, b.
  - intros (a & t & b & -> & A & T & B). destruct texts_read as [TR _].
    rewrite (TR t v T); [now rewrite skip_all|rewrite !length_app_s; lia|now apply ends_space_all|exact A].
Qed.
