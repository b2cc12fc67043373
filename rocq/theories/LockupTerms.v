(** How the terms of a lockup bear on what is locked (C122). *)
From Coq Require Import NArith List Bool String Lia.
From Verif Require Import Prelude PreludeFacts LockupModel LockupWorld LockupSpec LockupMath.
Import ListNotations.
Open Scope N_scope.

(** * Specification: terms that come no sooner *)

(** A moment that may be missing: none is sooner than any. *)
Definition opt_le (a b : option N) : Prop :=
  match a, b with None, _ => True | Some x, Some y => x <= y | Some _, None => False end.
Definition transfers_le (a b : transfers_info) : Prop :=
  match a, b with _, TransfersDisabled _ => True | TransfersEnabled x, TransfersEnabled y => x <= y | _, _ => False end.
(** Vesting agreements that are public, or none. *)
Definition vesting_le (a b : option schedule_or_hash) : Prop :=
  match a, b with
  | None, (None | Some (ArgSchedule _)) => True
  | Some (ArgSchedule x), Some (ArgSchedule y) =>
      start_timestamp x <= start_timestamp y /\ cliff_timestamp x <= cliff_timestamp y /\ end_timestamp x <= end_timestamp y
  | _, _ => False
  end.
(** The end of the release can be written as a 64-bit number. *)
Definition release_fits (duration : N) (timestamp : option N) (transfers : transfers_info) (release : option N) : Prop :=
  match transfers, release with
  | TransfersEnabled t, Some d =>
      N.max (later t duration) (match timestamp with Some x => x | None => 0 end) + d < U64_BOUND
  | _, _ => True
  end.
Definition vesting_sane (v : option schedule_or_hash) : Prop :=
  match v with Some (ArgSchedule vs) => sane vs | _ => True end.

(** * Proofs *)

Lemma div_frac a x y x' y' : 0 < y -> 0 < y' -> x * y' <= x' * y -> a * x / y <= a * x' / y'.
Proof.
  intros Hy Hy' H. apply N.div_le_lower_bound; [lia|].
  pose proof (N.mul_div_le (a * x) y ltac:(lia)) as Q. set (q := a * x / y) in *.
  assert (Z : y * (y' * q) <= y * (a * x')) by nia.
  apply N.mul_le_mono_pos_l in Z; auto.
Qed.

Lemma not_vested_later a x y now : sane x -> sane y ->
  start_timestamp x <= start_timestamp y -> cliff_timestamp x <= cliff_timestamp y -> end_timestamp x <= end_timestamp y ->
  not_vested a x now <= not_vested a y now.
Proof.
  intros SX SY S C E. pose proof (not_vested_le a x now SX) as L. revert L. unfold not_vested. intros L.
  destruct SX as (X1 & X2 & X3 & X4), SY as (Y1 & Y2 & Y3 & Y4).
  destruct (N.ltb_spec now (cliff_timestamp y)) as [Z|Z]; [exact L|]. clear L.
  destruct (N.ltb_spec now (cliff_timestamp x)); [lia|].
  destruct (N.ltb_spec now (end_timestamp x)); [|lia].
  destruct (N.ltb_spec now (end_timestamp y)); [|lia].
  apply div_frac; try lia.
  set (ex := end_timestamp x) in *. set (ey := end_timestamp y) in *.
  set (sx := start_timestamp x) in *. set (sy := start_timestamp y) in *.
  apply N.le_trans with ((ex - now) * (ey - sx)); [apply N.mul_le_mono_l; lia|].
  assert (NS : sx <= now) by lia. clearbody ex ey sx sy.
  set (p := ex - now). set (q := now - sx). set (r := ey - ex).
  replace (ey - sx) with (p + q + r) by lia. replace (ey - now) with (p + r) by lia. replace (ex - sx) with (p + q) by lia.
  nia.
Qed.

Lemma later_le a b c d : a <= c -> b <= d -> later a b <= later c d.
Proof. unfold later. lia. Qed.

Lemma not_released_later i i' e e' now :
  lockup_amount i = lockup_amount i' -> opt_le (release_duration i) (release_duration i') ->
  e <= e' -> e' <= now -> match release_duration i' with Some d => e' + d < U64_BOUND | None => True end ->
  not_released i e now <= not_released i' e' now.
Proof.
  intros A R E N F. unfold not_released. destruct (release_duration i) as [d|]; [|lia].
  destruct (release_duration i') as [d'|]; [|destruct R]. cbn in R. rewrite A.
  destruct (N.ltb_spec now (later e d)) as [L|L]; [|lia]. unfold later in *.
  destruct (N.ltb_spec now (N.min (e' + d') (U64_BOUND - 1))) as [L'|L']; [|lia].
  rewrite !N.min_l by lia. apply div_frac; try lia.
  apply N.le_trans with ((e' + d - now) * d'); [apply N.mul_le_mono_r; lia|].
  set (q := now - e').
  replace (e' + d - now) with (d - q) by lia. replace (e' + d' - now) with (d' - q) by lia.
  rewrite !N.mul_sub_distr_r. nia.
Qed.

Lemma initial_terms c owner duration timestamp transfers vesting release whitelist foundation s :
  new c false owner duration timestamp transfers vesting release whitelist foundation = Ok s ->
  ctx_balance c < U128_BOUND -> u64_opt timestamp -> vesting_sane vesting ->
  well_formed s /\ lockup_information s = mkLockup (ctx_balance c) 0 duration release timestamp transfers /\
  vesting_information s = match vesting with
                          | None => VNone | Some (ArgHash h) => VHash h | Some (ArgSchedule vs) => VSchedule vs end.
Proof.
  intros E B T V. unfold new, require in E. cbn [negb] in E.
  destruct (_ =? 0); cbn [bind] in E; [|discriminate].
  destruct (is_valid_account_id owner); cbn [bind] in E; [|discriminate].
  destruct (is_valid_account_id whitelist); cbn [bind] in E; [|discriminate].
  destruct (match transfers with TransfersDisabled p => is_valid_account_id p | _ => true end); cbn [bind] in E; [|discriminate].
  assert (X : lockup_information s = mkLockup (ctx_balance c) 0 duration release timestamp transfers /\
    vesting_information s = match vesting with
                          | None => VNone | Some (ArgHash h) => VHash h | Some (ArgSchedule vs) => VSchedule vs end).
  { destruct vesting as [[h|vs]|], foundation as [f|]; cbn [bind expect] in E; try discriminate;
      try destruct (is_valid_account_id f); cbn [bind] in E; try discriminate; injection E as <-; split; reflexivity. }
  destruct X as [X1 X2]. split; [|auto]. constructor; rewrite ?X1, ?X2; cbn [lockup_amount termination_withdrawn_tokens lockup_timestamp]; auto; [lia|].
  destruct vesting as [[h|vs]|]; auto.
Qed.

Lemma locked_later s s' now : well_formed s -> well_formed s' ->
  let i := lockup_information s in let i' := lockup_information s' in
  lockup_amount i = lockup_amount i' -> termination_withdrawn_tokens i = 0 -> termination_withdrawn_tokens i' = 0 ->
  lockup_duration i <= lockup_duration i' -> opt_le (lockup_timestamp i) (lockup_timestamp i') ->
  opt_le (release_duration i) (release_duration i') -> transfers_le (transfers_information i) (transfers_information i') ->
  release_fits (lockup_duration i') (lockup_timestamp i') (transfers_information i') (release_duration i') ->
  held_by_vesting s now <= held_by_vesting s' now -> locked s now <= locked s' now.
Proof.
  intros W W' i i' A Z Z' D T R X F H. pose proof (locked_le s now W) as L. fold i in L. rewrite Z, N.add_0_r in L.
  unfold locked. fold i i'. rewrite Z, Z'. unfold lockup_end, release_fits in *.
  unfold locked, lockup_end in L. fold i in L. rewrite Z in L.
  destruct (transfers_information i') as [t'|p']; destruct (transfers_information i) as [t|p];
    cbn [transfers_le] in X; try (now destruct X); try lia.
  set (e' := N.max _ _) in F |- *. set (e := N.max _ _) in L |- *.
  assert (E : e <= e').
  { unfold e, e'. apply N.max_le_compat; [now apply later_le|].
    destruct (lockup_timestamp i), (lockup_timestamp i'); cbn in T; try lia; destruct T. }
  destruct (N.ltb_spec now e') as [Q|Q]; [lia|]. destruct (N.ltb_spec now e) as [Q1|Q1]; [lia|].
  apply N.max_le_compat; [|exact H]. apply N.sub_le_mono_r. apply not_released_later; auto.
Qed.

Lemma later_terms c c' o o' d d' t t' x x' v v' r r' l l' f f' s s' now :
  new c false o d t x v r l f = Ok s -> new c' false o' d' t' x' v' r' l' f' = Ok s' ->
  ctx_balance c = ctx_balance c' -> ctx_balance c < U128_BOUND -> u64_opt t -> u64_opt t' ->
  d <= d' -> opt_le t t' -> transfers_le x x' -> opt_le r r' -> vesting_le v v' ->
  vesting_sane v -> vesting_sane v' -> release_fits d' t' x' r' ->
  exists a a', get_locked_amount s now = Ok a /\ get_locked_amount s' now = Ok a' /\ a <= a'.
Proof.
  intros E E' B B1 T T' D TT X R V S S' F.
  destruct (initial_terms _ _ _ _ _ _ _ _ _ _ E B1 T S) as (W & I & VI).
  destruct (initial_terms _ _ _ _ _ _ _ _ _ _ E' ltac:(congruence) T' S') as (W' & I' & VI').
  exists (locked s now), (locked s' now). split; [now apply get_locked_ok|]. split; [now apply get_locked_ok|].
  apply locked_later; rewrite ?I, ?I'; cbn [lockup_amount termination_withdrawn_tokens lockup_duration lockup_timestamp release_duration transfers_information]; auto.
  unfold held_by_vesting. rewrite VI, VI', I, I'. cbn [lockup_amount].
  destruct v as [[h|vs]|], v' as [[h'|vs']|]; cbn in V; try (now destruct V); try lia.
  rewrite <- B. destruct V as (V1 & V2 & V3). now apply not_vested_later.
Qed.

(** * More tokens *)
Lemma frac_more a b x y : 0 < y -> x <= y -> a <= b -> a * x / y <= b * x / y /\ b * x / y <= a * x / y + (b - a).
Proof.
  intros Hy Hx H. split; [apply N.div_le_mono; nia|].
  replace b with (a + (b - a)) at 1 by lia. rewrite N.mul_add_distr_r.
  apply N.le_trans with ((a * x + (b - a) * y) / y); [apply N.div_le_mono; nia|].
  rewrite N.div_add by lia. lia.
Qed.

Lemma more_tokens c c' o o' d t x v r l f s s' now :
  new c false o d t x v r l f = Ok s -> new c' false o' d t x v r l f = Ok s' ->
  ctx_balance c <= ctx_balance c' -> ctx_balance c' < U128_BOUND -> u64_opt t -> vesting_sane v ->
  exists a a', get_locked_amount s now = Ok a /\ get_locked_amount s' now = Ok a' /\
    a <= a' /\ ctx_balance c - a <= ctx_balance c' - a' /\ a <= ctx_balance c.
Proof.
  intros E E' B B1 T S.
  destruct (initial_terms _ _ _ _ _ _ _ _ _ _ E ltac:(lia) T S) as (W & I & VI).
  destruct (initial_terms _ _ _ _ _ _ _ _ _ _ E' B1 T S) as (W' & I' & VI').
  exists (locked s now), (locked s' now). split; [now apply get_locked_ok|]. split; [now apply get_locked_ok|].
  pose proof (locked_le s now W) as L. rewrite I in L. cbn [lockup_amount termination_withdrawn_tokens] in L.
  enough (K : locked s now <= locked s' now /\ locked s' now <= locked s now + (ctx_balance c' - ctx_balance c)) by lia.
  clear L.
  assert (HV : held_by_vesting s now <= held_by_vesting s' now /\
               held_by_vesting s' now <= held_by_vesting s now + (ctx_balance c' - ctx_balance c)).
  { unfold held_by_vesting. rewrite VI, VI', I, I'. cbn [lockup_amount]. destruct v as [[h|vs]|]; try lia.
    destruct S as (S1 & S2 & S3 & S4). unfold not_vested.
    destruct (now <? cliff_timestamp vs) eqn:C; [lia|]. apply N.ltb_ge in C. destruct (now <? end_timestamp vs); [|lia].
    apply frac_more; lia. }
  unfold locked, lockup_end. rewrite I, I'. cbn [transfers_information lockup_duration lockup_timestamp lockup_amount termination_withdrawn_tokens].
  destruct x as [tt|p]; [|lia]. set (e := N.max _ _). destruct (N.ltb_spec now e); [lia|].
  assert (HR : forall i i', release_duration i = r -> release_duration i' = r -> lockup_amount i = ctx_balance c -> lockup_amount i' = ctx_balance c' ->
    not_released i e now <= not_released i' e now /\ not_released i' e now <= not_released i e now + (ctx_balance c' - ctx_balance c)).
  { intros i i' R R' A A'. unfold not_released. rewrite R, R', A, A'. destruct r as [dd|]; [|lia].
    destruct (N.ltb_spec now (later e dd)) as [Q|Q]; [|lia]. unfold later in *. apply frac_more; lia. }
  specialize (HR _ _ (eq_refl (release_duration (mkLockup (ctx_balance c) 0 d r t (TransfersEnabled tt))))
    (eq_refl (release_duration (mkLockup (ctx_balance c') 0 d r t (TransfersEnabled tt)))) eq_refl eq_refl).
  lia.
Qed.

(** * Any state before a termination *)
Definition agreed (s : contract) : option schedule_or_hash :=
  match vesting_information s with
  | VNone => None | VHash h => Some (ArgHash h) | VSchedule vs => Some (ArgSchedule vs) | VTerminating _ => Some (ArgHash "")
  end.
Lemma later_terms_any s s' now : well_formed s -> well_formed s' ->
  let i := lockup_information s in let i' := lockup_information s' in
  lockup_amount i = lockup_amount i' -> termination_withdrawn_tokens i = 0 -> termination_withdrawn_tokens i' = 0 ->
  lockup_duration i <= lockup_duration i' -> opt_le (lockup_timestamp i) (lockup_timestamp i') ->
  opt_le (release_duration i) (release_duration i') -> transfers_le (transfers_information i) (transfers_information i') ->
  vesting_le (agreed s) (agreed s') ->
  release_fits (lockup_duration i') (lockup_timestamp i') (transfers_information i') (release_duration i') ->
  exists a a', get_locked_amount s now = Ok a /\ get_locked_amount s' now = Ok a' /\ a <= a'.
Proof.
  intros W W' i i' A Z Z' D T R X V F.
  exists (locked s now), (locked s' now). split; [now apply get_locked_ok|]. split; [now apply get_locked_ok|].
  apply locked_later; auto. unfold held_by_vesting, agreed in *. fold i i'. rewrite <- A.
  pose proof (wf_vesting _ W) as VW. pose proof (wf_vesting _ W') as VW'.
  destruct (vesting_information s) as [|h|vs|ti], (vesting_information s') as [|h'|vs'|ti']; cbn in V; try (now destruct V); try lia.
  destruct V as (V1 & V2 & V3). apply not_vested_later; auto; [apply VW|apply VW'].
Qed.
