(** Proofs about the state manipulation contract. *)
From Coq Require Import NArith List Bool String Ascii Lia ZifyN ZifyBool.
From Verif Require Import Prelude PreludeFacts StateManipulationModel.
Import ListNotations.
Open Scope string_scope.
Open Scope N_scope.

Ltac Zify.zify_post_hook ::= Z.to_euclidean_division_equations.

(** * base64 *)
Lemma all_symbols : forallb (fun n => match morsel (symbol (N.of_nat n)) with
    | Some j => (j =? N.of_nat n) && negb (is_pad (symbol (N.of_nat n))) | None => false end) (seq 0 64) = true.
Proof. vm_compute. reflexivity. Qed.
Lemma symbol_ok i : i < 64 -> morsel (symbol i) = Some i /\ is_pad (symbol i) = false.
Proof.
  intros H. pose proof all_symbols as A. rewrite forallb_forall in A.
  specialize (A (N.to_nat i)). rewrite N2Nat.id in A.
  assert (I : In (N.to_nat i) (seq 0 64)) by (apply in_seq; lia). specialize (A I).
  destruct (morsel (symbol i)) as [j|]; [|discriminate]. apply andb_true_iff in A. destruct A as [A B].
  apply N.eqb_eq in A. subst. destruct (is_pad _); [discriminate|]. auto.
Qed.

Lemma string_ind3 (P : string -> Prop) :
  P "" -> (forall a, P (String a "")) -> (forall a b, P (String a (String b ""))) ->
  (forall a b c r, P r -> P (String a (String b (String c r)))) -> forall s, P s.
Proof.
  intros H0 H1 H2 H3.
  assert (A : forall s, P s /\ (forall a, P (String a s)) /\ (forall a b, P (String a (String b s)))).
  { induction s as [|c s (I0 & I1 & I2)]; repeat split; auto. }
  intros s. apply A.
Qed.

Lemma decode_encode s : decode (encode s) = Some s.
Proof.
  induction s as [|a|a b|a b c r IH] using string_ind3; [reflexivity| | |].
  - pose proof (N_ascii_bounded a) as Ba. cbn [encode]. cbv zeta.
    set (x := N_of_ascii a) in *.
    destruct (symbol_ok (x / 4) ltac:(lia)) as [M1 _]. destruct (symbol_ok (x mod 4 * 16) ltac:(lia)) as [M2 _].
    cbn [decode]. change (is_pad "=") with true. cbn [andb String.eqb].
    unfold decode2. rewrite M1, M2. replace (x mod 4 * 16 mod 16 =? 0) with true by lia.
    do 2 f_equal. replace (x / 4 * 4 + x mod 4 * 16 / 16) with x by lia. unfold x. apply ascii_N_embedding.
  - pose proof (N_ascii_bounded a) as Ba. pose proof (N_ascii_bounded b) as Bb. cbn [encode]. cbv zeta.
    set (x := N_of_ascii a) in *. set (y := N_of_ascii b) in *.
    destruct (symbol_ok (x / 4) ltac:(lia)) as [M1 _].
    destruct (symbol_ok (x mod 4 * 16 + y / 16) ltac:(lia)) as [M2 _].
    destruct (symbol_ok (y mod 16 * 4) ltac:(lia)) as [M3 P3].
    cbn [decode]. change (is_pad "=") with true. rewrite P3. cbn [andb String.eqb].
    unfold decode3. rewrite M1, M2, M3. replace (y mod 16 * 4 mod 4 =? 0) with true by lia.
    replace (x / 4 * 4 + (x mod 4 * 16 + y / 16) / 16) with x by lia.
    replace ((x mod 4 * 16 + y / 16) mod 16 * 16 + y mod 16 * 4 / 4) with y by lia.
    unfold x, y. now rewrite !ascii_N_embedding.
  - pose proof (N_ascii_bounded a) as Ba. pose proof (N_ascii_bounded b) as Bb. pose proof (N_ascii_bounded c) as Bc.
    cbn [encode]. cbv zeta.
    set (x := N_of_ascii a) in *. set (y := N_of_ascii b) in *. set (z := N_of_ascii c) in *.
    destruct (symbol_ok (x / 4) ltac:(lia)) as [M1 _].
    destruct (symbol_ok (x mod 4 * 16 + y / 16) ltac:(lia)) as [M2 _].
    destruct (symbol_ok (y mod 16 * 4 + z / 64) ltac:(lia)) as [M3 P3].
    destruct (symbol_ok (z mod 64) ltac:(lia)) as [M4 P4].
    cbn [decode]. rewrite P3, P4, M1, M2, M3, M4, IH.
    replace (x / 4 * 4 + (x mod 4 * 16 + y / 16) / 16) with x by lia.
    replace ((x mod 4 * 16 + y / 16) mod 16 * 16 + (y mod 16 * 4 + z / 64) / 4) with y by lia.
    replace ((y mod 16 * 4 + z / 64) mod 4 * 64 + z mod 64) with z by lia.
    unfold x, y, z. now rewrite !ascii_N_embedding.
Qed.

(** What decodes is an encoding, up to missing padding. *)
Lemma all_morsels : forallb (fun n => match morsel (ascii_of_nat n) with
    | Some i => (i <? 64) && Ascii.eqb (ascii_of_nat n) (symbol i) | None => true end) (seq 0 256) = true.
Proof. vm_compute. reflexivity. Qed.
Lemma morsel_symbol c i : morsel c = Some i -> i < 64 /\ c = symbol i.
Proof.
  intros M. pose proof all_morsels as A. rewrite forallb_forall in A. specialize (A (nat_of_ascii c)).
  rewrite ascii_nat_embedding, M in A. assert (I : In (nat_of_ascii c) (seq 0 256)).
  { apply in_seq. pose proof (nat_ascii_bounded c). lia. }
  specialize (A I). apply andb_true_iff in A. destruct A as [A B]. apply Ascii.eqb_eq in B. split; [lia|exact B].
Qed.

Lemma decode2_encode c1 c2 b : decode2 c1 c2 = Some b -> encode b = String c1 (String c2 "==").
Proof.
  unfold decode2. destruct (morsel c1) as [i|] eqn:M1; [|discriminate]. destruct (morsel c2) as [j|] eqn:M2; [|discriminate].
  apply morsel_symbol in M1, M2. destruct M1 as [I ->], M2 as [J ->].
  destruct (j mod 16 =? 0) eqn:Z; [|discriminate]. intros E. injection E as <-. cbn [encode]. cbv zeta.
  rewrite N_ascii_embedding by lia.
  replace ((i * 4 + j / 16) / 4) with i by lia. replace ((i * 4 + j / 16) mod 4 * 16) with j by lia. reflexivity.
Qed.
Lemma decode3_encode c1 c2 c3 b : decode3 c1 c2 c3 = Some b -> encode b = String c1 (String c2 (String c3 "=")).
Proof.
  unfold decode3. destruct (morsel c1) as [i|] eqn:M1; [|discriminate]. destruct (morsel c2) as [j|] eqn:M2; [|discriminate].
  destruct (morsel c3) as [k|] eqn:M3; [|discriminate].
  apply morsel_symbol in M1, M2, M3. destruct M1 as [I ->], M2 as [J ->], M3 as [K ->].
  destruct (k mod 4 =? 0) eqn:Z; [|discriminate]. intros E. injection E as <-. cbn [encode]. cbv zeta.
  rewrite !N_ascii_embedding by lia.
  replace ((i * 4 + j / 16) / 4) with i by lia.
  replace ((i * 4 + j / 16) mod 4 * 16 + (j mod 16 * 16 + k / 4) / 16) with j by lia.
  replace ((j mod 16 * 16 + k / 4) mod 16 * 4) with k by lia. reflexivity.
Qed.

Lemma string_ind4 (P : string -> Prop) :
  P "" -> (forall a, P (String a "")) -> (forall a b, P (String a (String b ""))) ->
  (forall a b c, P (String a (String b (String c "")))) ->
  (forall a b c d r, P r -> P (String a (String b (String c (String d r))))) -> forall s, P s.
Proof.
  intros H0 H1 H2 H3 H4.
  assert (A : forall s, P s /\ (forall a, P (String a s)) /\ (forall a b, P (String a (String b s))) /\
                        (forall a b c, P (String a (String b (String c s))))).
  { induction s as [|c s (I0 & I1 & I2 & I3)]; repeat split; auto. }
  intros s. apply A.
Qed.

Lemma decode_is_encoding s : forall b, decode s = Some b ->
  encode b = s \/ encode b = s ++ "=" \/ encode b = s ++ "==".
Proof.
  induction s as [|c1|c1 c2|c1 c2 c3|c1 c2 c3 c4 r IH] using string_ind4; intros b D; cbn [decode] in D.
  - injection D as <-. now left.
  - discriminate.
  - right. right. now apply decode2_encode.
  - destruct (is_pad c3) eqn:P; right; left.
    + apply Ascii.eqb_eq in P. subst c3. now apply decode2_encode.
    + now apply decode3_encode.
  - destruct (is_pad c3) eqn:P3.
    + destruct (is_pad c4) eqn:P4; [|discriminate]. cbn [andb] in D. destruct (String.eqb_spec r ""); [|discriminate].
      apply Ascii.eqb_eq in P3, P4. subst. left. now apply decode2_encode.
    + destruct (is_pad c4) eqn:P4.
      { destruct (String.eqb_spec r ""); [|discriminate]. apply Ascii.eqb_eq in P4. subst. left. now apply decode3_encode. }
      destruct (morsel c1) as [i|] eqn:M1; [|discriminate]. destruct (morsel c2) as [j|] eqn:M2; [|discriminate].
      destruct (morsel c3) as [k|] eqn:M3; [|discriminate]. destruct (morsel c4) as [l|] eqn:M4; [|discriminate].
      destruct (decode r) as [t|]; [|discriminate]. specialize (IH t eq_refl). injection D as <-.
      apply morsel_symbol in M1, M2, M3, M4. destruct M1 as [I ->], M2 as [J ->], M3 as [K ->], M4 as [L ->].
      cbn [encode]. cbv zeta. rewrite !N_ascii_embedding by lia.
      replace ((i * 4 + j / 16) / 4) with i by lia.
      replace ((i * 4 + j / 16) mod 4 * 16 + (j mod 16 * 16 + k / 4) / 16) with j by lia.
      replace ((j mod 16 * 16 + k / 4) mod 16 * 4 + (k mod 4 * 64 + l) / 64) with k by lia.
      replace ((k mod 4 * 64 + l) mod 64) with l by lia.
      cbn [append]. destruct IH as [->|[->| ->]]; auto.
Qed.

Lemma append_nil s : s ++ "" = s.
Proof. induction s as [|c s IH]; cbn; congruence. Qed.
Lemma unpad a : forall s p, encode a = s ++ p -> p = "" \/ p = "=" \/ p = "==" -> decode s = Some a.
Proof.
  induction a as [|a|a b|a b c r IH] using string_ind3; intros s p E P.
  - destruct s; [reflexivity|]. discriminate.
  - destruct P as [->|P]; [rewrite append_nil in E; rewrite <- E; apply decode_encode|].
    pose proof (decode_encode (String a "")) as D. cbn [encode] in D, E. cbv zeta in D, E.
    set (c1 := symbol _) in *. set (c2 := symbol _) in *.
    cbn [decode] in D. change (is_pad "=") with true in D. cbn [andb String.eqb] in D.
    destruct P as [->| ->]; destruct s as [|d1 [|d2 [|d3 [|d4 s]]]]; try discriminate E;
      injection E; intros; subst; cbn [decode]; auto; try (destruct s; discriminate).
  - destruct P as [->|P]; [rewrite append_nil in E; rewrite <- E; apply decode_encode|].
    pose proof (decode_encode (String a (String b ""))) as D.
    pose proof (N_ascii_bounded b) as Bb.
    destruct (symbol_ok (N_of_ascii b mod 16 * 4) ltac:(lia)) as [_ P3].
    cbn [encode] in D, E. cbv zeta in D, E.
    set (c1 := symbol _) in *. set (c2 := symbol (_ + _)) in *. set (c3 := symbol (N_of_ascii b mod 16 * 4)) in *.
    cbn [decode] in D. change (is_pad "=") with true in D. rewrite P3 in D. cbn [andb String.eqb] in D.
    destruct P as [->| ->]; destruct s as [|d1 [|d2 [|d3 [|d4 s]]]]; try discriminate E;
      injection E; intros; subst; cbn [decode]; rewrite ?P3; auto; try (destruct s; discriminate);
      match goal with H : c3 = _ |- _ => rewrite H in P3; discriminate P3 end.
  - destruct P as [->|P]; [rewrite append_nil in E; rewrite <- E; apply decode_encode|].
    pose proof (decode_encode (String a (String b (String c r)))) as D.
    pose proof (N_ascii_bounded b) as Bb. pose proof (N_ascii_bounded c) as Bc.
    destruct (symbol_ok (N_of_ascii b mod 16 * 4 + N_of_ascii c / 64) ltac:(lia)) as [_ P3].
    destruct (symbol_ok (N_of_ascii c mod 64) ltac:(lia)) as [_ P4].
    cbn [encode] in D, E. cbv zeta in D, E.
    set (c1 := symbol (N_of_ascii a / 4)) in *. set (c2 := symbol (N_of_ascii a mod 4 * 16 + _)) in *.
    set (c3 := symbol (N_of_ascii b mod 16 * 4 + _)) in *. set (c4 := symbol (N_of_ascii c mod 64)) in *.
    cbn [decode] in D. rewrite P3, P4, decode_encode in D.
    assert (NP : forall x, is_pad x = false -> x <> "="%char) by (intros x F ->; discriminate F).
    apply NP in P3 as N3. apply NP in P4 as N4.
    destruct s as [|d1 [|d2 [|d3 [|d4 s]]]]; cbn [append] in E;
      try (exfalso; destruct P as [->| ->]; try discriminate E; injection E; intros; subst; congruence).
    injection E; intros ER -> -> -> ->. cbn [decode]. rewrite P3, P4, (IH _ _ ER); auto.
Qed.

(** Exactly the encodings are accepted, padding being optional. *)
Lemma decode_iff s b : decode s = Some b <-> encode b = s \/ encode b = s ++ "=" \/ encode b = s ++ "==".
Proof.
  split; [apply decode_is_encoding|]. intros [E|[E|E]].
  - apply (unpad b s ""); auto. now rewrite append_nil.
  - apply (unpad b s "="); auto.
  - apply (unpad b s "=="); auto.
Qed.

(** * The contract *)

(** The decoded entries. *)
Definition decodes (e d : string * string) : Prop := decode (fst e) = Some (fst d) /\ decode (snd e) = Some (snd d).
Definition last_value (k : string) (ds : list (string * string)) : option string :=
  option_map snd (find (fun d => String.eqb k (fst d)) (rev ds)).

Lemma last_value_cons k d ds :
  last_value k (d :: ds) = match last_value k ds with
                           | Some v => Some v
                           | None => if String.eqb k (fst d) then Some (snd d) else None
                           end.
Proof.
  unfold last_value. cbn [rev].
  assert (F : forall (f : string * string -> bool) l l', find f (l ++ l') = match find f l with Some x => Some x | None => find f l' end).
  { intros f l l'. induction l as [|x l IH]; cbn; auto. destruct (f x); auto. }
  rewrite F. destruct (find _ (rev ds)); cbn; auto. destruct (String.eqb k (fst d)); auto.
Qed.

Lemma replace_loop_ok st es st' : replace_loop st es = Ok st' ->
  exists ds, Forall2 decodes es ds /\
    forall k, st' k = match last_value k ds with Some v => Some v | None => st k end.
Proof.
  revert st. induction es as [|[key value] es IH]; cbn [replace_loop]; intros st H.
  - injection H as <-. exists []. split; auto.
  - inv_res. destruct (IH _ H) as (ds & F & R).
    match goal with K : decode key = Some ?k, V : decode value = Some ?v |- _ => exists ((k, v) :: ds); split;
      [constructor; auto; split; auto|] end.
    intros k0. rewrite R, last_value_cons. destruct (last_value k0 ds); auto.
    unfold storage_write. cbn [fst snd]. destruct (String.eqb k0 _); auto.
Qed.
Lemma replace_loop_total st es ds : Forall2 decodes es ds -> exists st', replace_loop st es = Ok st'.
Proof.
  intros F. revert st. induction F as [|[key value] d es ds [K V] F IH]; intros st; cbn [replace_loop]; eauto.
  cbn [fst snd] in *. rewrite K, V. cbn [expect bind]. apply IH.
Qed.

Lemma clean_loop_ok st ks st' : clean_loop st ks = Ok st' ->
  exists ds, Forall2 (fun key k => decode key = Some k) ks ds /\
    forall k, st' k = if existsb (String.eqb k) ds then None else st k.
Proof.
  revert st. induction ks as [|key ks IH]; cbn [clean_loop]; intros st H.
  - injection H as <-. exists []. split; auto.
  - inv_res. destruct (IH _ H) as (ds & F & R).
    match goal with K : decode key = Some ?k |- _ => exists (k :: ds); split; [constructor; auto|] end.
    intros k0. rewrite R. cbn [existsb]. unfold storage_remove.
    destruct (String.eqb k0 _); destruct (existsb _ ds); auto.
Qed.
Lemma clean_loop_total st ks ds : Forall2 (fun key k => decode key = Some k) ks ds -> exists st', clean_loop st ks = Ok st'.
Proof.
  intros F. revert st. induction F as [|key d ks ds K F IH]; intros st; cbn [clean_loop]; eauto.
  rewrite K. cbn [expect bind]. apply IH.
Qed.

(** * The statements *)
Lemma replace_effect st es st' : exec st (Replace (Some es)) true = (st', true) ->
  exists ds, Forall2 decodes es ds /\
    forall k, st' k = match last_value k ds with Some v => Some v | None => st k end.
Proof.
  unfold exec, replace. cbn [expect bind]. destruct (replace_loop st es) eqn:E; [|discriminate].
  intros H. injection H as <-. eauto using replace_loop_ok.
Qed.
Lemma replace_accepted_iff st es : snd (exec st (Replace (Some es)) true) = true <->
  forall key value, In (key, value) es -> decode key <> None /\ decode value <> None.
Proof.
  unfold exec, replace. cbn [expect bind]. split.
  - destruct (replace_loop st es) eqn:E; [|discriminate]. intros _. apply replace_loop_ok in E.
    destruct E as (ds & F & _). intros key value I. induction F as [|e d es ds [K V] F IH]; [destruct I|].
    destruct I as [->|I]; auto. cbn [fst snd] in *. rewrite K, V. split; discriminate.
  - intros H. assert (D : exists ds, Forall2 decodes es ds).
    { induction es as [|[key value] es IH]; [exists []; constructor|].
      destruct (H key value (or_introl eq_refl)) as [K V].
      destruct IH as [ds F]; [intros; apply H; now right|].
      destruct (decode key) as [k|] eqn:EK; [|easy]. destruct (decode value) as [v|] eqn:EV; [|easy].
      exists ((k, v) :: ds). constructor; auto. split; auto. }
    destruct D as [ds F]. destruct (replace_loop_total st es ds F) as [st' ->]. reflexivity.
Qed.
Lemma clean_effect st ks st' : exec st (Clean (Some ks)) true = (st', true) ->
  exists ds, Forall2 (fun key k => decode key = Some k) ks ds /\
    forall k, st' k = if existsb (String.eqb k) ds then None else st k.
Proof.
  unfold exec, clean. cbn [expect bind]. destruct (clean_loop st ks) eqn:E; [|discriminate].
  intros H. injection H as <-. eauto using clean_loop_ok.
Qed.
Lemma clean_accepted_iff st ks : snd (exec st (Clean (Some ks)) true) = true <->
  forall key, In key ks -> decode key <> None.
Proof.
  unfold exec, clean. cbn [expect bind]. split.
  - destruct (clean_loop st ks) eqn:E; [|discriminate]. intros _. apply clean_loop_ok in E.
    destruct E as (ds & F & _). intros key I. induction F as [|e d es ds K F IH]; [destruct I|].
    destruct I as [->|I]; auto. rewrite K. discriminate.
  - intros H. assert (D : exists ds, Forall2 (fun key k => decode key = Some k) ks ds).
    { induction ks as [|key ks IH]; [exists []; constructor|].
      pose proof (H key (or_introl eq_refl)) as K.
      destruct IH as [ds F]; [intros; apply H; now right|].
      destruct (decode key) as [k|] eqn:EK; [|easy].
      exists (k :: ds). constructor; auto. }
    destruct D as [ds F]. destruct (clean_loop_total st ks ds F) as [st' ->]. reflexivity.
Qed.
Lemma failed_call_changes_nothing st cl ok st' : exec st cl ok = (st', false) -> forall k, st' k = st k.
Proof.
  unfold exec. destruct (match cl with Replace i => replace st i | Clean i => clean st i end), ok; intros H; injection H as <-; auto; discriminate.
Qed.

(** Histories. *)
Definition enc (e : string * string) : string * string := (encode (fst e), encode (snd e)).
Lemma decodes_enc es : Forall2 decodes (map enc es) es.
Proof. induction es as [|[k v] es IH]; cbn; constructor; auto. split; apply decode_encode. Qed.
Lemma decodes_inj es ds ds' : Forall2 decodes es ds -> Forall2 decodes es ds' -> ds = ds'.
Proof.
  intros F. revert ds'. induction F as [|e [k v] es ds [K V] F IH]; intros ds' F'; inversion F' as [|? [k' v'] ? ? [K' V']]; subst; auto.
  cbn [fst snd] in *. rewrite K in K'. rewrite V in V'. injection K' as ->. injection V' as ->. f_equal. auto.
Qed.
Lemma replace_encoded st es : exists st', exec st (Replace (Some (map enc es))) true = (st', true) /\
  forall k, st' k = match last_value k es with Some v => Some v | None => st k end.
Proof.
  destruct (replace_loop_total st _ _ (decodes_enc es)) as [st' E]. exists st'.
  unfold exec, replace. cbn [expect bind]. rewrite E. split; auto.
  destruct (replace_loop_ok _ _ _ E) as (ds & F & R). now rewrite (decodes_inj _ _ _ (decodes_enc es) F).
Qed.
Lemma clean_encoded st ks : exists st', exec st (Clean (Some (map encode ks))) true = (st', true) /\
  forall k, st' k = if existsb (String.eqb k) ks then None else st k.
Proof.
  assert (D : Forall2 (fun key k => decode key = Some k) (map encode ks) ks).
  { induction ks; cbn; constructor; auto using decode_encode. }
  destruct (clean_loop_total st _ _ D) as [st' E]. exists st'.
  unfold exec, clean. cbn [expect bind]. rewrite E. split; auto.
  destruct (clean_loop_ok _ _ _ E) as (ds & F & R). replace ks with ds; auto.
  clear E R. revert F. generalize ds. induction ks as [|k ks IH]; intros ds' F; inversion F; subst; auto.
  inversion D; subst. f_equal; auto. congruence.
Qed.
(** What the test of the repository checks on random maps: replace, then clean the same keys. *)
Lemma replace_then_clean st es :
  forall k, final st [(Replace (Some (map enc es)), true); (Clean (Some (map encode (map fst es))), true)] k =
    if existsb (String.eqb k) (map fst es) then None else st k.
Proof.
  intros k. cbn [final]. destruct (replace_encoded st es) as (s1 & -> & R1). cbn [fst].
  destruct (clean_encoded s1 (map fst es)) as (s2 & -> & R2). cbn [fst]. rewrite R2.
  destruct (existsb _ _) eqn:E; auto. rewrite R1.
  replace (last_value k es) with (@None string); auto. symmetry. unfold last_value.
  destruct (find _ (rev es)) as [d|] eqn:F; auto. apply find_some in F. destruct F as [I F].
  rewrite <- in_rev in I. enough (existsb (String.eqb k) (map fst es) = true) by congruence.
  apply existsb_exists. exists (fst d). split; auto. now apply in_map.
Qed.

(** A key keeps its value through every history of calls that never mention it. *)
Definition mentions (k : string) (cl : call) : Prop :=
  match cl with
  | Replace (Some es) => exists key value, In (key, value) es /\ decode key = Some k
  | Clean (Some ks) => exists key, In key ks /\ decode key = Some k
  | _ => False
  end.
Lemma exec_unmentioned st cl ok k : ~ mentions k cl -> fst (exec st cl ok) k = st k.
Proof.
  intros NM. destruct (exec st cl ok) as [st' b] eqn:E. destruct b.
  2: { apply failed_call_changes_nothing with (k := k) in E. exact E. }
  assert (ok = true) as -> by (destruct ok; auto; unfold exec in E; destruct (match cl with Replace i => _ | Clean i => _ end); discriminate).
  destruct cl as [[es|]|[ks|]]; try discriminate.
  - destruct (replace_effect _ _ _ E) as (ds & F & R). cbn [fst]. rewrite R.
    replace (last_value k ds) with (@None string); auto. symmetry. unfold last_value.
    destruct (find _ (rev ds)) as [d|] eqn:Fi; auto. exfalso. apply find_some in Fi. destruct Fi as [I Fi].
    apply String.eqb_eq in Fi. subst. rewrite <- in_rev in I. apply NM. cbn [mentions].
    clear - F I. induction F as [|e d' es ds [K V] F IH]; [destruct I|]. destruct I as [->|I].
    + destruct e as [key value]. exists key, value. split; [now left|auto].
    + destruct (IH I) as (key & value & J & D). exists key, value. split; [now right|auto].
  - destruct (clean_effect _ _ _ E) as (ds & F & R). cbn [fst]. rewrite R.
    destruct (existsb _ ds) eqn:X; auto. exfalso. apply existsb_exists in X. destruct X as (d & I & X).
    apply String.eqb_eq in X. subst. apply NM. cbn [mentions].
    clear - F I. induction F as [|e d' es ds K F IH]; [destruct I|]. destruct I as [->|I].
    + exists e. split; [now left|auto].
    + destruct (IH I) as (key & J & D). exists key. split; [now right|auto].
Qed.
Lemma history_unmentioned st cls k : (forall cl ok, In (cl, ok) cls -> ~ mentions k cl) -> final st cls k = st k.
Proof.
  revert st. induction cls as [|[cl ok] cls IH]; intros st H; cbn [final]; auto.
  rewrite IH by (intros; eapply H; right; eauto). apply exec_unmentioned. eapply H. now left.
Qed.
