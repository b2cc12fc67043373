(** What serde_json writes, its reader reads back. *)
From Coq Require Import NArith List Bool String Ascii Lia DecimalString DecimalN DecimalFacts.
From Verif Require Import Prelude Json StateManipulationModel JsonModel StateManipulationProofs.
Import ListNotations.
Open Scope string_scope.
Open Scope N_scope.

Lemma app_assoc_s (a b c : string) : (a ++ b) ++ c = a ++ (b ++ c).
Proof. induction a as [|x a IH]; cbn; [reflexivity|now rewrite IH]. Qed.
Lemma app_nil_s (a : string) : a ++ "" = a.
Proof. induction a as [|x a IH]; cbn; [reflexivity|now rewrite IH]. Qed.
Lemma length_app_s (a b : string) : String.length (a ++ b) = (String.length a + String.length b)%nat.
Proof. induction a as [|x a IH]; cbn; [reflexivity|now rewrite IH]. Qed.

(** String literals *)
Lemma literal_escape_char c t : literal (escape_char c ++ t) = before (String c "") (literal t).
Proof. destruct c as [[] [] [] [] [] [] [] []]; reflexivity. Qed.
Lemma literal_escape s r : literal (escape s ++ String """" r) = Some (s, r).
Proof.
  induction s as [|c s IH]; [reflexivity|]. cbn [escape]. rewrite app_assoc_s, literal_escape_char, IH. reflexivity.
Qed.

(** Numbers *)
Lemma of_decimal_decimal n : of_decimal (decimal n) = Some n.
Proof. unfold of_decimal, decimal. rewrite NilEmpty.usu. cbn. now rewrite DecimalN.Unsigned.of_to. Qed.
Lemma decimal_nonempty n : decimal n <> "".
Proof.
  unfold decimal. destruct n as [|p]; [discriminate|]. cbn.
  pose proof (DecimalPos.Unsigned.to_uint_nonnil p) as H. now destruct (Pos.to_uint p).
Qed.
Lemma to_uint_norm n : Decimal.unorm (N.to_uint n) = N.to_uint n.
Proof. now rewrite <- DecimalN.Unsigned.to_of, DecimalN.Unsigned.of_to. Qed.
Lemma nzhead_no_zero d : match Decimal.nzhead d with Decimal.D0 _ => False | _ => True end.
Proof. induction d; cbn; auto. Qed.
Lemma decimal_no_leading_zero n : match decimal n with String c (String _ _) => Ascii.eqb c "0" | _ => false end = false.
Proof.
  unfold decimal. rewrite <- to_uint_norm. unfold Decimal.unorm.
  pose proof (nzhead_no_zero (N.to_uint n)) as H.
  destruct (Decimal.nzhead (N.to_uint n)); cbn; try reflexivity; try contradiction;
    destruct (NilEmpty.string_of_uint u); reflexivity.
Qed.

(** What may not follow a number: a digit, a fraction or an exponent. *)
Definition goes_on (s : string) : bool :=
  match s with
  | EmptyString => false
  | String c _ => Ascii.eqb c "." || Ascii.eqb c "e" || Ascii.eqb c "E"
  end.
Definition ends_number (r : string) : bool :=
  match r with String c _ => negb (is_digit c) && negb (goes_on r) | EmptyString => true end.
Lemma digits_uint d r : ends_number r = true -> digits (NilEmpty.string_of_uint d ++ r) = (NilEmpty.string_of_uint d, r).
Proof.
  intros E. induction d; cbn [NilEmpty.string_of_uint append digits];
    try (change (is_digit _) with true; cbn iota; rewrite IHd; reflexivity).
  destruct r as [|c r]; [reflexivity|]. cbn in E |- *. apply andb_true_iff in E as [E _].
  destruct (is_digit c); [discriminate|reflexivity].
Qed.
Lemma decimal_head n : exists c t, decimal n = String c t /\ is_digit c = true.
Proof.
  pose proof (decimal_nonempty n) as H. unfold decimal in *.
  destruct (N.to_uint n); cbn in *; try contradiction; eexists _, _; split; reflexivity.
Qed.
Lemma ends_parts r : ends_number r = true -> fraction_part r = Some (false, r) /\ exponent_part r = Some (false, r).
Proof.
  destruct r as [|c r]; [now split|]. cbn [ends_number goes_on]. intros E.
  apply andb_true_iff in E as [_ E]. apply negb_true_iff in E.
  apply orb_false_iff in E as [E E3]. apply orb_false_iff in E as [E1 E2].
  cbn [fraction_part exponent_part]. now rewrite E1, E2, E3.
Qed.
Lemma digit_not_minus c : is_digit c = true -> Ascii.eqb c "-" = false.
Proof. destruct c as [[] [] [] [] [] [] [] []]; cbn; congruence. Qed.
Lemma number_decimal n r : ends_number r = true -> number (decimal n ++ r) = Some (JNum n, r).
Proof.
  intros E. unfold number.
  replace (match decimal n ++ r with
           | EmptyString => (false, decimal n ++ r)
           | String c t => if Ascii.eqb c "-" then (true, t) else (false, decimal n ++ r) end)
    with (false, decimal n ++ r).
  2:{ destruct (decimal_head n) as (c & t & -> & D). cbn [append]. now rewrite (digit_not_minus c D). }
  unfold decimal at 1. rewrite digits_uint by exact E. fold (decimal n).
  destruct (ends_parts r E) as [F X]. rewrite decimal_no_leading_zero, F, X, of_decimal_decimal. cbn [orb].
  destruct (String.eqb_spec (decimal n) ""); [now apply decimal_nonempty in e|reflexivity].
Qed.
Lemma number_minus_zero r : ends_number r = true -> number ("-0" ++ r) = Some (JReal, r).
Proof.
  intros E. unfold number. cbn [append]. change (Ascii.eqb "-" "-") with true. cbn iota.
  destruct (ends_parts r E) as [F X]. change (String "0" r) with (NilEmpty.string_of_uint (Decimal.D0 Decimal.Nil) ++ r).
  rewrite digits_uint by exact E. cbn [NilEmpty.string_of_uint]. now rewrite F, X.
Qed.

(** * Induction over values *)
Section Ind.
  Variable P : json -> Prop.
  Hypothesis Hnull : P JNull.
  Hypothesis Hbool : forall b, P (JBool b).
  Hypothesis Hnum : forall n, P (JNum n).
  Hypothesis Hreal : P JReal.
  Hypothesis Hstr : forall s, P (JStr s).
  Hypothesis Harr : forall l, Forall P l -> P (JArr l).
  Hypothesis Hobj : forall l, Forall (fun kv => P (snd kv)) l -> P (JObj l).
  Fixpoint json_deep (v : json) : P v :=
    match v with
    | JNull => Hnull
    | JBool b => Hbool b
    | JNum n => Hnum n
    | JReal => Hreal
    | JStr s => Hstr s
    | JArr l => Harr l ((fix go l := match l return Forall P l with
                                     | [] => Forall_nil _
                                     | v :: l => Forall_cons v (json_deep v) (go l)
                                     end) l)
    | JObj l => Hobj l ((fix go l := match l return Forall (fun kv => P (snd kv)) l with
                                     | [] => Forall_nil _
                                     | kv :: l => Forall_cons kv (json_deep (snd kv)) (go l)
                                     end) l)
    end.
End Ind.

Fixpoint size (v : json) : nat :=
  match v with
  | JArr l => S (list_sum (map size l))
  | JObj l => S (list_sum (map (fun kv => size (snd kv)) l))
  | _ => 1
  end.
Lemma size_pos v : (1 <= size v)%nat.
Proof. destruct v; cbn; lia. Qed.

(** Nothing a value starts with is white space or a closing bracket. *)
Definition starts (s : string) : bool :=
  match s with
  | String c _ => negb (is_space c) && negb (Ascii.eqb c "]") && negb (Ascii.eqb c "}")
  | EmptyString => false
  end.
Lemma digit_starts c t : is_digit c = true -> starts (String c t) = true.
Proof. destruct c as [[] [] [] [] [] [] [] []]; cbn; congruence. Qed.
Lemma print_starts v : starts (print v) = true.
Proof.
  destruct v as [|[]|n| |s|l|l]; try reflexivity. cbn [print].
  destruct (decimal_head n) as (c & t & -> & H). now apply digit_starts.
Qed.
Lemma starts_app s r : starts s = true -> starts (s ++ r) = true.
Proof. destruct s; [discriminate|intros H; exact H]. Qed.
Lemma starts_skip s : starts s = true -> skip s = s.
Proof.
  destruct s as [|c s]; [discriminate|]. cbn. destruct (is_space c); [discriminate|reflexivity].
Qed.

(** A number is read by the last case. *)
Lemma value_digit fuel c t : is_digit c = true ->
  value (S fuel) (String c t) = number (String c t).
Proof.
  intros H. cbn [value]. rewrite (starts_skip _ (digit_starts c t H)).
  destruct c as [[] [] [] [] [] [] [] []]; cbn in H; try discriminate H; reflexivity.
Qed.

Definition reads (v : json) : Prop :=
  forall fuel r, (size v <= fuel)%nat -> ends_number r = true -> value fuel (print v ++ r) = Some (v, r).

Lemma elements_read fuel l : Forall reads l -> l <> [] -> (list_sum (map size l) <= fuel)%nat ->
  forall k r, (List.length l <= k)%nat ->
  elements (value fuel) k (String.concat "," (map print l) ++ String "]" r) = Some (l, r).
Proof.
  intros HF. induction HF as [|v l Hv HF IH]; [easy|]. intros _ HS k r HK. cbn in HS, HK.
  destruct k as [|k]; [lia|]. destruct l as [|w l].
  - cbn [map String.concat elements]. rewrite Hv by (try reflexivity; lia). reflexivity.
  - change (String.concat "," (map print (v :: w :: l))) with (print v ++ "," ++ String.concat "," (map print (w :: l))).
    rewrite !app_assoc_s. cbn [elements]. rewrite Hv by (try reflexivity; lia).
    change (skip ("," ++ ?t)) with ("," ++ t). cbn [append].
    rewrite IH; [reflexivity|discriminate|cbn; cbn in HS; lia|cbn in HK |- *; lia].
Qed.

Definition print_field (kv : string * json) : string := quoted (fst kv) ++ ":" ++ print (snd kv).
Lemma fields_read fuel l : Forall (fun kv => reads (snd kv)) l -> l <> [] ->
  (list_sum (map (fun kv => size (snd kv)) l) <= fuel)%nat ->
  forall k r, (List.length l <= k)%nat ->
  fields (value fuel) k (String.concat "," (map print_field l) ++ String "}" r) = Some (l, r).
Proof.
  intros HF. induction HF as [|[n v] l Hv HF IH]; [easy|]. intros _ HS k r HK. cbn in HS, HK, Hv.
  destruct k as [|k]; [lia|]. destruct l as [|w l].
  - cbn [map String.concat fields]. unfold print_field, quoted. cbn [fst snd append]. rewrite !app_assoc_s.
    cbn [skip is_space]. change (is_space """") with false. cbn iota. cbn [append].
    rewrite literal_escape. cbn [skip]. change (is_space ":") with false. cbn iota.
    rewrite Hv by (try reflexivity; lia). reflexivity.
  - change (String.concat "," (map print_field ((n, v) :: w :: l)))
      with (print_field (n, v) ++ "," ++ String.concat "," (map print_field (w :: l))).
    unfold print_field at 1. unfold quoted. cbn [fst snd append]. rewrite !app_assoc_s. cbn [fields append].
    cbn [skip is_space]. change (is_space """") with false. cbn iota. cbn [append].
    rewrite literal_escape. cbn [skip]. change (is_space ":") with false. cbn iota.
    rewrite Hv by (try reflexivity; lia). cbn [append skip]. change (is_space ",") with false. cbn iota.
    rewrite IH; [reflexivity|discriminate|cbn; cbn in HS; lia|cbn in HK |- *; lia].
Qed.

Lemma length_le_size {A} (f : A -> json) l : (List.length l <= list_sum (map (fun x => size (f x)) l))%nat.
Proof. unfold list_sum. induction l as [|x l IH]; cbn; [lia|]. pose proof (size_pos (f x)). lia. Qed.

Lemma concat_starts (f : json -> string) v l r : starts (f v) = true ->
  starts (String.concat "," (map f (v :: l)) ++ r) = true.
Proof.
  intros H. destruct l as [|w l]; cbn [map String.concat]; [now apply starts_app|].
  rewrite app_assoc_s. now apply starts_app.
Qed.

Lemma starts_not_bracket s A (x : string -> A) y : starts s = true ->
  match s with String "]" r => x r | _ => y end = y.
Proof. destruct s as [|[[] [] [] [] [] [] [] []] s]; cbn; try reflexivity; discriminate. Qed.

Lemma value_reads v : reads v.
Proof.
  induction v as [|b|n| |s|l IH|l IH] using json_deep; intros fuel r HS HR;
    (destruct fuel as [|fuel]; [cbn in HS; lia|]).
  - reflexivity.
  - destruct b; reflexivity.
  - cbn [print]. destruct (decimal_head n) as (c & t & E & H). rewrite E. cbn [append]. rewrite (value_digit _ _ _ H).
    change (String c (t ++ r)) with (String c t ++ r). rewrite <- E, number_decimal by exact HR. reflexivity.
  - exact (number_minus_zero r HR).
  - cbn [print]. unfold quoted. cbn [append]. rewrite app_assoc_s. cbn [value skip].
    change (is_space """") with false. cbn iota. cbn [append]. now rewrite literal_escape.
  - cbn [print append]. rewrite !app_assoc_s. cbn [value skip]. change (is_space "[") with false. cbn iota.
    destruct l as [|v l]; [reflexivity|].
    assert (HB : starts (String.concat "," (map print (v :: l)) ++ "]" ++ r) = true).
    { apply concat_starts, print_starts. }
    rewrite (starts_skip _ HB), starts_not_bracket by exact HB.
    cbn [append]. rewrite elements_read; [reflexivity|exact IH|discriminate| |].
    + cbn in HS. unfold list_sum. cbn. lia.
    + cbn in HS |- *. assert (List.length l <= fold_right Nat.add 0 (map size l))%nat by exact (length_le_size (fun x => x) l). pose proof (size_pos v). unfold list_sum in *. lia.
  - change (print (JObj l)) with ("{" ++ String.concat "," (map print_field l) ++ "}").
    rewrite !app_assoc_s. cbn [append value skip]. change (is_space "{") with false. cbn iota.
    destruct l as [|v l]; [reflexivity|].
    assert (HB : exists t, String.concat "," (map print_field (v :: l)) ++ String "}" r = String """" t).
    { destruct l; cbn [map String.concat]; unfold print_field, quoted; cbn [append]; eexists; reflexivity. }
    destruct HB as (t & HB). rewrite HB. cbn [skip]. change (is_space """") with false. cbn iota. rewrite <- HB.
    cbn [append]. rewrite fields_read; [reflexivity|exact IH|discriminate| |].
    + cbn in HS. unfold list_sum. cbn. lia.
    + cbn in HS |- *. assert (List.length l <= fold_right Nat.add 0 (map (fun kv => size (snd kv)) l))%nat by exact (length_le_size snd l). pose proof (size_pos (snd v)). unfold list_sum in *. lia.
Qed.

Lemma concat_length {A} (f : A -> string) (g : A -> nat) l : Forall (fun v => (g v <= String.length (f v))%nat) l ->
  (list_sum (map g l) <= String.length (String.concat "," (map f l)))%nat.
Proof.
  induction 1 as [|v l Hv HF IH]; [cbn; lia|]. destruct l as [|w l]; [cbn in *; lia|].
  change (String.concat "," (map f (v :: w :: l))) with (f v ++ "," ++ String.concat "," (map f (w :: l))).
  rewrite !length_app_s. change (list_sum (map g (v :: w :: l))) with (g v + list_sum (map g (w :: l)))%nat. cbn in *. lia.
Qed.
Lemma size_length v : (size v <= String.length (print v))%nat.
Proof.
  induction v as [|b|n| |s|l IH|l IH] using json_deep; try destruct b; cbn [print size]; try (cbn; lia).
  - destruct (decimal_head n) as (c & t & -> & _). cbn. lia.
  - pose proof (concat_length print size l IH). unfold list_sum in *. cbn [append String.length]. rewrite length_app_s. lia.
  - change (String.concat "," (map (fun kv => quoted (fst kv) ++ ":" ++ print (snd kv)) l))
      with (String.concat "," (map print_field l)).
    assert (X : Forall (fun kv => (size (snd kv) <= String.length (print_field kv))%nat) l).
    { eapply Forall_impl; [|exact IH]. intros [k v] H. unfold print_field. cbn [fst snd] in *. rewrite !length_app_s. lia. }
    pose proof (concat_length print_field (fun kv => size (snd kv)) l X).
    unfold list_sum in *. cbn [append String.length]. rewrite length_app_s. lia.
Qed.

Theorem parse_print v : parse (print v) = Some v.
Proof.
  unfold parse. pose proof (value_reads v (S (String.length (print v))) "") as H.
  rewrite app_nil_s in H. rewrite H; [reflexivity| |reflexivity]. pose proof (size_length v). lia.
Qed.

(** * The types *)
Lemma rd_num_ok b n : n < b -> rd_num b (JNum n) = Some n.
Proof. intros H. cbn. apply N.ltb_lt in H. now rewrite H. Qed.
Lemma rd_dec_ok b n : n < b -> rd_dec b (wr_dec n) = Some n.
Proof.
  intros H. cbn. pose proof (decimal_head n) as (c & t & E & D). rewrite E.
  assert (X : (match c with "+"%char => t | _ => String c t end) = String c t).
  { destruct c as [[] [] [] [] [] [] [] []]; cbn in D |- *; try reflexivity; discriminate D. }
  transitivity (match of_decimal (decimal n) with Some m => if m <? b then Some m else None | None => None end).
  - rewrite E. clear E. destruct c as [[] [] [] [] [] [] [] []]; cbn in D; try discriminate D; reflexivity.
  - rewrite of_decimal_decimal. apply N.ltb_lt in H. now rewrite H.
Qed.
Lemma rd_base64_ok s : rd_base64 (wr_base64 s) = Some s.
Proof. cbn. apply decode_encode. Qed.
Lemma rd_all_ok {A} (r : rd A) (w : A -> json) l : Forall (fun x => r (w x) = Some x) l -> rd_all r (map w l) = Some l.
Proof. induction 1 as [|x l Hx HF IH]; [reflexivity|]. cbn. now rewrite Hx, IH. Qed.
Lemma arguments_print {A} o (f : list (string * json) -> option A) : arguments (print (JObj o)) f = f o.
Proof. unfold arguments. now rewrite parse_print. Qed.
