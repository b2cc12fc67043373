(** Integer division facts behind the share accounting. *)
From Coq Require Import NArith Lia.
Open Scope N_scope.

(** Rounded up division the way the code does it. *)
Definition cdiv (a b : N) : N := (a + (b - 1)) / b.

Lemma div_lo a b : b <> 0 -> b * (a / b) <= a.
Proof. intros. now apply N.mul_div_le. Qed.
Lemma div_hi a b : b <> 0 -> a < b * (a / b) + b.
Proof. intros. pose proof (N.mul_succ_div_gt a b H). lia. Qed.
Lemma div_ge a b q : b <> 0 -> b * q <= a -> q <= a / b.
Proof. intros. now apply N.div_le_lower_bound. Qed.
Lemma div_le a b q : b <> 0 -> a <= b * q -> a / b <= q.
Proof. intros. now apply N.div_le_upper_bound. Qed.
Lemma div_lt a b q : b <> 0 -> a < b * q -> a / b < q.
Proof. intros. now apply N.div_lt_upper_bound. Qed.

Lemma cdiv_lo a b : b <> 0 -> a <= b * cdiv a b.
Proof.
  intros. unfold cdiv. pose proof (div_hi (a + (b - 1)) b H). lia.
Qed.
Lemma cdiv_hi a b : b <> 0 -> b * cdiv a b <= a + (b - 1).
Proof. intros. unfold cdiv. now apply div_lo. Qed.
Lemma cdiv_le a b q : b <> 0 -> a <= b * q -> cdiv a b <= q.
Proof.
  intros. unfold cdiv. assert ((a + (b - 1)) / b < q + 1); [|lia].
  apply div_lt; auto. nia.
Qed.
Lemma cdiv_ge_div a b : b <> 0 -> a / b <= cdiv a b.
Proof. intros. apply N.div_le_mono; lia. Qed.
Lemma cdiv_le_div1 a b : b <> 0 -> cdiv a b <= a / b + 1.
Proof. intros. apply cdiv_le; auto. pose proof (div_hi a b H). lia. Qed.
Lemma cdiv_pos a b : b <> 0 -> 0 < a -> 0 < cdiv a b.
Proof. intros. pose proof (cdiv_lo a b H). nia. Qed.

(** Value of [sh] shares is monotone in the price and in the number of shares. *)
Lemma value_mono T S T' S' sh sh' :
  S <> 0 -> S' <> 0 -> T * S' <= T' * S -> sh <= sh' -> T * sh / S <= T' * sh' / S'.
Proof.
  intros HS HS' HP Hsh. apply div_ge; auto.
  pose proof (div_lo (T * sh) S HS) as L.
  apply N.mul_le_mono_pos_l with (p := S); [lia|].
  transitivity (S' * (T * sh)); [nia|]. nia.
Qed.

(** Staking: [n] shares bought, charge rounded down. *)
Lemma stake_value T S n sh :
  S <> 0 ->
  T * sh / S + T * n / S <= (T + cdiv (T * n) S) * (sh + n) / (S + n).
Proof.
  intros HS.
  set (c := cdiv (T * n) S). pose proof (cdiv_lo (T * n) S HS) as HC. fold c in HC.
  transitivity (T * (sh + n) / S).
  - rewrite N.mul_add_distr_l. apply div_ge; auto.
    pose proof (div_lo (T * sh) S HS). pose proof (div_lo (T * n) S HS). lia.
  - apply value_mono; try lia.
Qed.

(** Unstaking: [n] shares burned, [receive] rounded up. *)
Lemma unstake_value T S n sh :
  S <> 0 -> n <= sh -> n <= S -> S - n <> 0 ->
  T * sh / S <= (T - T * n / S) * (sh - n) / (S - n) + cdiv (T * n) S.
Proof.
  intros HS Hn HnS HSn.
  pose proof (div_lo (T * n) S HS) as HF.
  assert (HT : T * n / S <= T) by (apply div_le; auto; nia).
  transitivity (T * (sh - n) / S + cdiv (T * n) S).
  - assert (T * sh / S < T * (sh - n) / S + cdiv (T * n) S + 1); [|lia].
    apply div_lt; auto.
    pose proof (cdiv_lo (T * n) S HS). pose proof (div_hi (T * (sh - n)) S HS).
    assert (T * sh = T * (sh - n) + T * n) by nia. lia.
  - apply N.add_le_mono_r. apply value_mono; auto; [|lia].
    set (f := T * n / S) in *.
    assert (T * (S - n) + T * n = T * S) by nia.
    assert ((T - f) * S + f * S = T * S) by nia. lia.
Qed.

(** Price never decreases: the three ways the totals move. *)
Lemma price_stake T S n : S <> 0 -> T * (S + n) <= (T + cdiv (T * n) S) * S.
Proof. intros. pose proof (cdiv_lo (T * n) S H). lia. Qed.

Lemma price_unstake T S n : S <> 0 -> n <= S -> T * (S - n) <= (T - T * n / S) * S.
Proof.
  intros HS Hn. pose proof (div_lo (T * n) S HS).
  assert (HT : T * n / S <= T) by (apply div_le; auto; nia).
  set (f := T * n / S) in *.
  assert (T * (S - n) + T * n = T * S) by nia.
  assert ((T - f) * S + f * S = T * S) by nia. lia.
Qed.

Lemma price_reward T S rem fee :
  T + rem <> 0 ->
  T * (S + S * fee / (T + rem)) <= (T + rem + fee) * S.
Proof.
  intros H. pose proof (div_lo (S * fee) (T + rem) H). nia.
Qed.

Lemma price_trans T1 S1 T2 S2 T3 S3 :
  S2 <> 0 -> T1 * S2 <= T2 * S1 -> T2 * S3 <= T3 * S2 -> T1 * S3 <= T3 * S1.
Proof.
  intros. apply N.mul_le_mono_pos_l with (p := S2); [lia|].
  transitivity (T2 * S1 * S3); [nia|]. nia.
Qed.

(** Shares never exceed the staked balance. *)
Lemma ge1_stake T S n : S <> 0 -> S <= T -> S + n <= T + cdiv (T * n) S.
Proof.
  intros. pose proof (cdiv_lo (T * n) S H).
  assert (n <= cdiv (T * n) S); [|lia].
  apply N.mul_le_mono_pos_l with (p := S); [lia|]. nia.
Qed.

Lemma ge1_unstake T S n : S <> 0 -> n <= S -> S <= T -> S - n <= T - T * n / S.
Proof.
  intros HS Hn HT. pose proof (div_lo (T * n) S HS) as L.
  set (f := T * n / S) in *.
  assert (f <= T - S + n); [|lia].
  apply N.mul_le_mono_pos_l with (p := S); [lia|]. 
  transitivity (T * n); [lia|].
  assert (exists d, T = S + d) as [d ->] by (exists (T - S); lia).
  replace (S + d - S + n) with (d + n) by lia. nia.
Qed.

Lemma ge1_reward T S rem fee :
  T + rem <> 0 -> S <= T -> S + S * fee / (T + rem) <= T + rem + fee.
Proof.
  intros. assert (S * fee / (T + rem) <= fee); [|lia].
  apply div_le; auto. nia.
Qed.

(** Amount to shares and back. *)
Lemma charge_le T S a : S <> 0 -> T <> 0 -> T * (S * a / T) / S <= a.
Proof.
  intros. apply div_le; auto. apply div_lo; auto.
Qed.

Lemma stake_total_le T S a : S <> 0 -> T <> 0 -> cdiv (T * (S * a / T)) S <= a.
Proof.
  intros. apply cdiv_le; auto. apply div_lo; auto.
Qed.

Lemma cdiv_le_iff a b q : b <> 0 -> cdiv a b <= q <-> a <= b * q.
Proof.
  intros. split; [|now apply cdiv_le].
  intros. pose proof (cdiv_lo a b H). nia.
Qed.

(** Shares needed for amount [a] are at most [sh] exactly when [a] is at most the value of [sh]. *)
Lemma shares_needed_iff T S sh a :
  S <> 0 -> T <> 0 -> cdiv (S * a) T <= sh <-> a <= T * sh / S.
Proof.
  intros HS HT. rewrite cdiv_le_iff by auto. split; intros H.
  - apply div_ge; auto.
  - pose proof (div_lo (T * sh) S HS). nia.
Qed.

(** With a price of at least one, unstaking the full reported value needs exactly all shares. *)
Lemma shares_of_value T S sh :
  S <> 0 -> S <= T -> cdiv (S * (T * sh / S)) T = sh.
Proof.
  intros HS HT. apply N.le_antisymm.
  - apply shares_needed_iff; lia.
  - destruct (N.le_gt_cases sh (cdiv (S * (T * sh / S)) T)) as [|C]; auto. exfalso.
    assert (T0 : T <> 0) by lia.
    pose proof (cdiv_lo (S * (T * sh / S)) T T0).
    pose proof (div_hi (T * sh) S HS). nia.
Qed.
