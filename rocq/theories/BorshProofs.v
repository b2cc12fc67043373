(** Every codec built from the combinators of Borsh.v reads back what it wrote, and how long the bytes are. *)
From Coq Require Import NArith List Bool String Ascii Lia.
From Verif Require Import Prelude StorageModel StorageProofs Borsh.
Import ListNotations.
Open Scope string_scope.
Open Scope N_scope.

Definition good {A} (c : codec A) : Prop := forall x r, typed c x -> dec c (enc c x ++ r) = Some (x, r).

Lemma sapp_assoc (a b c : string) : (a ++ b) ++ c = a ++ b ++ c.
Proof. induction a; cbn; congruence. Qed.
Lemma sapp_nil (a : string) : a ++ "" = a.
Proof. induction a; cbn; congruence. Qed.

Lemma take_app n : forall a r, String.length a = n -> take n (a ++ r) = Some (a, r).
Proof.
  induction n; intros [|c a] r E; cbn in *; try discriminate; [reflexivity|].
  rewrite IHn; [reflexivity|congruence].
Qed.
Lemma le_bytes_len n : forall x, String.length (le_bytes n x) = n.
Proof. intros x. pose proof (le_bytes_length n x) as H. unfold slen in H. lia. Qed.

Lemma good_uint n : good (c_uint n).
Proof. intros x r F. cbn. rewrite take_app by apply le_bytes_len. now rewrite of_le_bytes. Qed.
Lemma good_unit : good c_unit.
Proof. now intros [] r _. Qed.
Lemma good_bytes : good c_bytes.
Proof.
  intros x r F. unfold c_bytes in *. cbn [typed enc dec] in *.
  rewrite sapp_assoc, (good_uint 4) by exact F.
  rewrite take_app; [reflexivity|]. unfold slen. lia.
Qed.
Lemma good_bool : good c_bool.
Proof. intros b r _. now destruct b. Qed.
Lemma good_pair {A B} (a : codec A) (b : codec B) : good a -> good b -> good (c_pair a b).
Proof.
  intros Ga Gb [x y] r [Fx Fy]. unfold c_pair. cbn [enc dec fst snd] in *.
  rewrite sapp_assoc, Ga by exact Fx. now rewrite Gb by exact Fy.
Qed.
Lemma good_struct {A B} (f : B -> A) (g : A -> B) a : (forall x, g (f x) = x) -> good a -> good (c_struct f g a).
Proof. intros E G x r F. unfold c_struct in *. cbn [enc dec typed] in *. rewrite G by exact F. now rewrite E. Qed.
Lemma good_only_struct {A B} (P : B -> Prop) (f : B -> A) (g : A -> B) a :
  (forall x, P x -> g (f x) = x) -> good a -> good (c_only P (c_struct f g a)).
Proof.
  intros E G x r [Px F]. unfold c_only, c_struct in *. cbn [enc dec typed] in *. rewrite G by exact F. now rewrite E.
Qed.
Lemma good_option {A} (a : codec A) : good a -> good (c_option a).
Proof.
  intros G [x|] r F; unfold c_option in *; cbn [enc dec typed] in *.
  - rewrite sapp_assoc, (good_uint 1) by (cbn; lia). cbn [N.eqb Pos.eqb]. now rewrite G by exact F.
  - now rewrite (good_uint 1) by (cbn; lia).
Qed.
Lemma concat_cons x l : String.concat "" (x :: l) = x ++ String.concat "" l.
Proof. destruct l; [symmetry; apply sapp_nil|reflexivity]. Qed.
Lemma dec_n_ok {A} (a : codec A) : good a -> forall l r, Forall (typed a) l ->
  dec_n a (List.length l) (String.concat "" (map (enc a) l) ++ r) = Some (l, r).
Proof.
  intros G. induction l as [|x l IH]; intros r F; [reflexivity|].
  inversion F as [|x' l' Fx Fl]; subst. cbn [map List.length dec_n]. rewrite concat_cons, sapp_assoc, G by exact Fx.
  now rewrite IH.
Qed.
Lemma good_list {A} (a : codec A) : good a -> good (c_list a).
Proof.
  intros G l r [L F]. unfold c_list. cbn [enc dec]. rewrite sapp_assoc, (good_uint 4) by exact L.
  rewrite Nnat.Nat2N.id. now apply dec_n_ok.
Qed.
Definition vgood {A} (v : variants A) : Prop :=
  forall x r, v_typed v x -> v_dec v (v_number v x) (v_enc v x ++ r) = Some (x, r).
Lemma vgood_last {A} (a : codec A) : good a -> vgood (v_last a).
Proof. intros G x r F. cbn. now apply G. Qed.
Lemma vgood_or {A B} (a : codec A) (b : variants B) : good a -> vgood b -> vgood (v_or a b).
Proof.
  intros Ga Gb [x|y] r F; cbn [v_or v_number v_enc v_dec v_typed] in *.
  - cbn. now rewrite Ga.
  - destruct (1 + v_number b y =? 0) eqn:E; [apply N.eqb_eq in E; lia|].
    replace (1 + v_number b y - 1) with (v_number b y) by lia. now rewrite Gb.
Qed.
Lemma good_enum {A} (v : variants A) : vgood v -> good (c_enum v).
Proof.
  intros G x r [F L]. unfold c_enum. cbn [enc dec]. rewrite sapp_assoc, (good_uint 1) by exact L. now apply G.
Qed.

(** Proves [good] for a codec built from the combinators. *)
Ltac codec :=
  repeat match goal with
  | |- good c_u32 => apply good_uint
  | |- good c_u64 => apply good_uint
  | |- good c_u128 => apply good_uint
  | |- good c_bytes => apply good_bytes
  | |- good c_unit => apply good_unit
  | |- good c_bool => apply good_bool
  | |- good (c_pair _ _) => apply good_pair
  | |- good (c_option _) => apply good_option
  | |- good (c_list _) => apply good_list
  | |- good (c_enum _) => apply good_enum
  | |- good (c_struct _ _ _) => apply good_struct; [intros []; reflexivity|]
  | |- vgood (v_or _ _) => apply vgood_or
  | |- vgood (v_last _) => apply vgood_last
  end.

Theorem reads_back {A} (c : codec A) : good c -> forall x, typed c x -> from_bytes c (to_bytes c x) = Some x.
Proof. intros G x F. unfold from_bytes, to_bytes. rewrite <- (sapp_nil (enc c x)), G by exact F. reflexivity. Qed.

Theorem one_to_one_codec {A} (c : codec A) : good c -> forall x y, typed c x -> typed c y ->
  to_bytes c x = to_bytes c y -> x = y.
Proof.
  intros G x y Fx Fy E. pose proof (reads_back c G x Fx) as Hx. rewrite E, (reads_back c G y Fy) in Hx. congruence.
Qed.

(** * Lengths *)
Lemma slen_app a b : slen (a ++ b) = slen a + slen b.
Proof. unfold slen. induction a; cbn [append String.length]; lia. Qed.
Lemma slen_uint n x : slen (enc (c_uint n) x) = N.of_nat n.
Proof. apply le_bytes_length. Qed.
Lemma slen_bytes x : slen (enc c_bytes x) = 4 + slen x.
Proof. unfold c_bytes. cbn [enc]. rewrite slen_app. unfold c_u32. rewrite slen_uint. lia. Qed.

(** * Nothing but what would be written is read *)
Definition strict {A} (c : codec A) : Prop := forall s x r, dec c s = Some (x, r) -> s = enc c x ++ r /\ typed c x.

Lemma take_inv n : forall s a r, take n s = Some (a, r) -> s = a ++ r /\ String.length a = n.
Proof.
  induction n; intros [|c s] a r; cbn [take]; intros E; try discriminate.
  - injection E as <- <-. auto.
  - injection E as <- <-. auto.
  - destruct (take n s) as [[x y]|] eqn:T; [|discriminate]. injection E as <- <-. apply IHn in T. destruct T as (-> & L).
    cbn. now rewrite L.
Qed.
Lemma le_of_le : forall s, le_bytes (String.length s) (of_le s) = s /\ of_le s < 256 ^ slen s.
Proof.
  induction s as [|c s (IH & B)]; [split; [reflexivity|cbn; lia]|].
  cbn [String.length le_bytes of_le]. pose proof (N_ascii_bounded c) as L. split.
  - f_equal.
    + unfold byte. rewrite <- (ascii_N_embedding c) at 2. f_equal.
      rewrite N.mul_comm, N.mod_add by discriminate. now apply N.mod_small.
    + rewrite N.mul_comm, N.div_add, N.div_small by (lia || assumption). exact IH.
  - unfold slen in *. cbn [String.length]. rewrite Nnat.Nat2N.inj_succ, N.pow_succ_r'. lia.
Qed.
Lemma strict_uint n : strict (c_uint n).
Proof.
  intros s x r. unfold c_uint. cbn [dec enc typed]. destruct (take n s) as [[a b]|] eqn:T; [|discriminate].
  intros E. injection E as <- <-. apply take_inv in T. destruct T as (-> & <-). destruct (le_of_le a) as (E & B).
  rewrite E. split; [reflexivity|exact B].
Qed.
Lemma strict_unit : strict c_unit.
Proof. intros s [] r E. cbn in E. injection E as <-. split; [reflexivity|exact I]. Qed.
Lemma strict_bytes : strict c_bytes.
Proof.
  intros s x r. unfold c_bytes. cbn [dec enc typed]. destruct (dec c_u32 s) as [[n q]|] eqn:D; [|discriminate].
  intros T. apply (strict_uint 4) in D. destruct D as (-> & B). apply take_inv in T. destruct T as (-> & L).
  unfold slen. rewrite L, Nnat.N2Nat.id, sapp_assoc. split; [reflexivity|exact B].
Qed.
Lemma strict_bool : strict c_bool.
Proof.
  intros s b r. unfold c_bool. cbn [dec enc typed]. destruct (dec (c_uint 1) s) as [[n q]|] eqn:D; [|discriminate].
  apply (strict_uint 1) in D. destruct D as (-> & _).
  destruct (N.eqb_spec n 0) as [->|_]; [intros E; injection E as <- <-; auto|].
  destruct (N.eqb_spec n 1) as [->|_]; [intros E; injection E as <- <-; auto|discriminate].
Qed.
Lemma strict_pair {A B} (a : codec A) (b : codec B) : strict a -> strict b -> strict (c_pair a b).
Proof.
  intros Sa Sb s x r. unfold c_pair. cbn [dec enc typed]. destruct (dec a s) as [[u q]|] eqn:Da; [|discriminate].
  destruct (dec b q) as [[v q']|] eqn:Db; [|discriminate]. intros E. injection E as <- <-.
  apply Sa in Da. apply Sb in Db. destruct Da as (-> & Ta), Db as (-> & Tb). cbn [fst snd]. now rewrite sapp_assoc.
Qed.
Lemma strict_struct {A B} (f : B -> A) (g : A -> B) a : (forall x, f (g x) = x) -> strict a -> strict (c_struct f g a).
Proof.
  intros E S s x r. unfold c_struct. cbn [dec enc typed]. destruct (dec a s) as [[u q]|] eqn:D; [|discriminate].
  intros X. injection X as <- <-. rewrite E. now apply S.
Qed.
Lemma strict_option {A} (a : codec A) : strict a -> strict (c_option a).
Proof.
  intros S s o r. unfold c_option. cbn [dec enc typed]. destruct (dec (c_uint 1) s) as [[n q]|] eqn:D; [|discriminate].
  apply (strict_uint 1) in D. destruct D as (-> & _).
  destruct (N.eqb_spec n 0) as [->|_]; [intros E; injection E as <- <-; auto|].
  destruct (N.eqb_spec n 1) as [->|_]; [|discriminate].
  destruct (dec a q) as [[u q']|] eqn:D; [|discriminate]. intros E. injection E as <- <-.
  apply S in D. destruct D as (-> & T). now rewrite sapp_assoc.
Qed.
Lemma strict_dec_n {A} (a : codec A) : strict a -> forall n s l r, dec_n a n s = Some (l, r) ->
  s = String.concat "" (map (enc a) l) ++ r /\ List.length l = n /\ Forall (typed a) l.
Proof.
  intros S. induction n; intros s l r; cbn [dec_n].
  - intros E. injection E as <- <-. repeat split. constructor.
  - destruct (dec a s) as [[x q]|] eqn:D; [|discriminate]. destruct (dec_n a n q) as [[l' q']|] eqn:Dn; [|discriminate].
    intros E. injection E as <- <-. apply S in D. apply IHn in Dn. destruct D as (-> & T), Dn as (-> & L & F).
    cbn [map List.length]. rewrite concat_cons, sapp_assoc, L. repeat split. now constructor.
Qed.
Lemma strict_list {A} (a : codec A) : strict a -> strict (c_list a).
Proof.
  intros S s l r. unfold c_list. cbn [dec enc typed]. destruct (dec c_u32 s) as [[n q]|] eqn:D; [|discriminate].
  intros E. apply (strict_uint 4) in D. destruct D as (-> & B). apply strict_dec_n in E; auto. destruct E as (-> & L & F).
  rewrite L, Nnat.N2Nat.id, sapp_assoc. split; [reflexivity|]. split; [exact B|exact F].
Qed.
Definition vstrict {A} (v : variants A) : Prop :=
  forall n s x r, v_dec v n s = Some (x, r) -> n = v_number v x /\ s = v_enc v x ++ r /\ v_typed v x.
Lemma vstrict_last {A} (a : codec A) : strict a -> vstrict (v_last a).
Proof.
  intros S n s x r. cbn [v_last v_dec v_number v_enc v_typed]. destruct (N.eqb_spec n 0) as [->|]; [|discriminate].
  intros D. apply S in D. tauto.
Qed.
Lemma vstrict_or {A B} (a : codec A) (b : variants B) : strict a -> vstrict b -> vstrict (v_or a b).
Proof.
  intros Sa Sb n s x r. cbn [v_or v_dec v_number v_enc v_typed]. destruct (N.eqb_spec n 0) as [->|NZ].
  - destruct (dec a s) as [[u q]|] eqn:D; [|discriminate]. intros E. injection E as <- <-. apply Sa in D. tauto.
  - destruct (v_dec b (n - 1) s) as [[y q]|] eqn:D; [|discriminate]. intros E. injection E as <- <-. apply Sb in D.
    destruct D as (V & D). split; [lia|exact D].
Qed.
Lemma strict_enum {A} (v : variants A) : vstrict v -> strict (c_enum v).
Proof.
  intros S s x r. unfold c_enum. cbn [dec enc typed]. destruct (dec (c_uint 1) s) as [[n q]|] eqn:D; [|discriminate].
  intros E. apply (strict_uint 1) in D. destruct D as (-> & B). apply S in E. destruct E as (-> & -> & T).
  rewrite sapp_assoc. split; [reflexivity|]. split; [exact T|exact B].
Qed.

(** Proves [strict] for a codec built from the combinators. *)
Ltac every_value :=
  let x := fresh "x" in intros x;
  repeat match goal with y : _ |- _ => match type of y with prod _ _ => destruct y | sum _ _ => destruct y | unit => destruct y end end;
  reflexivity.
Ltac strict_codec :=
  repeat match goal with
  | |- strict c_u32 => apply strict_uint
  | |- strict c_u64 => apply strict_uint
  | |- strict c_u128 => apply strict_uint
  | |- strict c_bytes => apply strict_bytes
  | |- strict c_unit => apply strict_unit
  | |- strict c_bool => apply strict_bool
  | |- strict (c_pair _ _) => apply strict_pair
  | |- strict (c_option _) => apply strict_option
  | |- strict (c_list _) => apply strict_list
  | |- strict (c_enum _) => apply strict_enum
  | |- strict (c_struct _ _ _) => apply strict_struct; [every_value|]
  | |- vstrict (v_or _ _) => apply vstrict_or
  | |- vstrict (v_last _) => apply vstrict_last
  end.

Theorem reads_only {A} (c : codec A) : strict c -> forall s x, from_bytes c s = Some x -> s = to_bytes c x /\ typed c x.
Proof.
  intros S s x. unfold from_bytes, to_bytes. destruct (dec c s) as [[y [|]]|] eqn:D; try discriminate.
  intros E. injection E as <-. apply S in D. now rewrite sapp_nil in D.
Qed.
