(** Arithmetic of the lockup and vesting schedules. *)
From Coq Require Import NArith List Bool String Lia.
From Verif Require Import Prelude PreludeFacts LockupModel LockupWorld LockupSpec.
Import ListNotations.
Open Scope N_scope.

Ltac bool_case :=
  repeat match goal with
  | |- context[?a <? ?b] => destruct (N.ltb_spec a b)
  | |- context[?a <=? ?b] => destruct (N.leb_spec a b)
  end; try lia.

Lemma U256_wide : U128_BOUND * U64_BOUND < U256_BOUND.
Proof. reflexivity. Qed.

Lemma mul256_ok a b : a < U128_BOUND -> b < U64_BOUND -> mul256 a b = Ok (a * b).
Proof.
  intros Ha Hb. apply mul_chk_intro. pose proof U256_wide. nia.
Qed.

Lemma linear_le a x y : y <> 0 -> x <= y -> a * x / y <= a.
Proof.
  intros Hy Hx. apply N.div_le_upper_bound; nia.
Qed.
Lemma linear_mono a x x' y : y <> 0 -> x <= x' -> a * x / y <= a * x' / y.
Proof. intros Hy Hx. apply N.div_le_mono; nia. Qed.

Lemma not_vested_le a vs t : sane vs -> not_vested a vs t <= a.
Proof.
  intros (H1 & H2 & H3 & H4). unfold not_vested. bool_case. apply linear_le; lia.
Qed.
Lemma not_vested_mono a vs t t' : sane vs -> t <= t' -> not_vested a vs t' <= not_vested a vs t.
Proof.
  intros (H1 & H2 & H3 & H4) Ht. unfold not_vested. bool_case.
  - apply linear_le; lia.
  - apply linear_mono; lia.
Qed.

Lemma later_lt a b : later a b < U64_BOUND.
Proof. unfold later. assert (0 < U64_BOUND) by reflexivity. lia. Qed.

Lemma not_released_le i e t : e <= t -> not_released i e t <= lockup_amount i.
Proof.
  intros Ht. unfold not_released. destruct (release_duration i) as [d|]; [|lia].
  bool_case. unfold later in *. apply linear_le; lia.
Qed.
Lemma not_released_mono i e t t' : e <= t -> t <= t' -> not_released i e t' <= not_released i e t.
Proof.
  intros He Ht. unfold not_released. destruct (release_duration i) as [d|]; [|lia].
  bool_case. unfold later in *. apply linear_mono; lia.
Qed.

Lemma get_unvested_ok s now vs :
  lockup_amount (lockup_information s) < U128_BOUND -> sane vs ->
  match vesting_information s with VSchedule _ | VHash _ => True | _ => False end ->
  get_unvested_amount s now vs = Ok (not_vested (lockup_amount (lockup_information s)) vs now).
Proof.
  intros HL (H1 & H2 & H3 & H4) Hv. unfold get_unvested_amount, not_vested.
  assert (E : (if now <? cliff_timestamp vs then Ok (lockup_amount (lockup_information s))
          else if end_timestamp vs <=? now then Ok 0
          else
            let! time_left := sub_chk (end_timestamp vs) now in
            let! total_time := sub_chk (end_timestamp vs) (start_timestamp vs) in
            let! m := mul256 (lockup_amount (lockup_information s)) time_left in
            let! q := div_chk m total_time in
            as_u128 q)
    = Ok (if now <? cliff_timestamp vs
      then lockup_amount (lockup_information s)
      else
       if now <? end_timestamp vs
       then
        lockup_amount (lockup_information s) * (end_timestamp vs - now) /
        (end_timestamp vs - start_timestamp vs)
       else 0)).
  { destruct (N.ltb_spec now (cliff_timestamp vs)); [reflexivity|].
    destruct (N.leb_spec (end_timestamp vs) now); destruct (N.ltb_spec now (end_timestamp vs)); try lia; auto.
    rewrite sub_chk_intro by lia. cbn [bind]. rewrite sub_chk_intro by lia. cbn [bind].
    rewrite mul256_ok by lia. cbn [bind]. rewrite div_chk_intro by lia. cbn [bind].
    apply as_u128_intro. eapply N.le_lt_trans; [apply linear_le; lia|exact HL]. }
  destruct (vesting_information s); try contradiction; exact E.
Qed.

(** The code computes the locked amount of the specification. *)
Lemma get_locked_ok s now :
  well_formed s -> get_locked_amount s now = Ok (locked s now).
Proof.
  intros [HL HW HT HV]. unfold get_locked_amount, locked, lockup_end.
  destruct (transfers_information (lockup_information s)) as [ts|p].
  2:{ apply sub_chk_intro. exact HW. }
  cbv zeta. change (sat_add64) with later.
  set (e := N.max (later ts (lockup_duration (lockup_information s)))
              match lockup_timestamp (lockup_information s) with Some t => t | None => 0 end).
  assert (He : e < U64_BOUND).
  { unfold e. pose proof (later_lt ts (lockup_duration (lockup_information s))) as Hl.
    unfold u64_opt in HT. destruct (lockup_timestamp (lockup_information s)); lia. }
  destruct (N.leb_spec e now); destruct (N.ltb_spec now e); try lia.
  2:{ apply sub_chk_intro. exact HW. }
  assert (R : match release_duration (lockup_information s) with
          | Some d =>
              if later e d <=? now then Ok 0
              else
                let! time_left := sub_chk (later e d) now in
                let! m := mul256 (lockup_amount (lockup_information s)) time_left in
                let! q := div_chk m d in
                as_u128 q
          | None => Ok 0
          end = Ok (not_released (lockup_information s) e now)).
  { unfold not_released. destruct (release_duration (lockup_information s)) as [d|]; [|reflexivity].
    cbv zeta. pose proof (later_lt e d) as Hl.
    destruct (N.leb_spec (later e d) now); destruct (N.ltb_spec now (later e d)); try lia; auto.
    assert (later e d - now <= d) by (unfold later; lia).
    rewrite sub_chk_intro by lia. cbn [bind].
    rewrite mul256_ok by lia. cbn [bind]. rewrite div_chk_intro by lia. cbn [bind].
    apply as_u128_intro. eapply N.le_lt_trans; [apply linear_le; lia|exact HL]. }
  rewrite R. cbn [bind].
  assert (V : match vesting_information s with
          | VSchedule vs => get_unvested_amount s now vs
          | VTerminating ti => Ok (unvested_amount ti)
          | _ => Ok 0
          end = Ok (held_by_vesting s now)).
  { unfold held_by_vesting. destruct (vesting_information s) as [|h|vs|ti] eqn:Ev; auto.
    apply get_unvested_ok; [exact HL|apply HV|rewrite Ev; exact I]. }
  rewrite V. reflexivity.
Qed.

Lemma held_le s now : well_formed s ->
  held_by_vesting s now + termination_withdrawn_tokens (lockup_information s)
  <= lockup_amount (lockup_information s).
Proof.
  intros [HL HW HT HV]. unfold held_by_vesting.
  destruct (vesting_information s) as [|h|vs|ti]; try lia.
  destruct HV as [Hs ->]. pose proof (not_vested_le (lockup_amount (lockup_information s)) vs now Hs). lia.
Qed.
Lemma held_mono s t t' : well_formed s -> t <= t' -> held_by_vesting s t' <= held_by_vesting s t.
Proof.
  intros [HL HW HT HV] Ht. unfold held_by_vesting.
  destruct (vesting_information s) as [|h|vs|ti]; try lia.
  apply not_vested_mono; [apply HV|exact Ht].
Qed.

(** Never more than the lockup amount, less what the foundation took. *)
Lemma locked_le s now : well_formed s ->
  locked s now + termination_withdrawn_tokens (lockup_information s) <= lockup_amount (lockup_information s).
Proof.
  intros H. pose proof (held_le s now H). pose proof (wf_withdrawn s H).
  unfold locked. destruct (lockup_end (lockup_information s)) as [e|]; [|lia].
  bool_case. pose proof (not_released_le (lockup_information s) e now ltac:(assumption)). lia.
Qed.

Lemma locked_mono s t t' : well_formed s -> t <= t' -> locked s t' <= locked s t.
Proof.
  intros H Ht.
  pose proof (locked_le s t' H) as Hle. pose proof (held_mono s t t' H Ht) as Hh. revert Hle.
  unfold locked. destruct (lockup_end (lockup_information s)) as [e|]; [|lia].
  bool_case. pose proof (not_released_mono (lockup_information s) e t t' ltac:(assumption) Ht). lia.
Qed.

(** The unvested part is always locked. *)
Lemma held_le_locked s now : well_formed s -> held_by_vesting s now <= locked s now.
Proof.
  intros H. pose proof (held_le s now H). unfold locked.
  destruct (lockup_end (lockup_information s)) as [e|]; bool_case.
Qed.

(** A private schedule that the lockup shadows, as the documentation demands (the lockup ends after the cliff
    and the release ends after the vesting), is covered at all times. *)
Lemma shadowed_covered s vs e now :
  well_formed s -> sane vs ->
  match vesting_information s with VHash _ => True | _ => False end ->
  lockup_end (lockup_information s) = Some e ->
  cliff_timestamp vs <= e ->
  match release_duration (lockup_information s) with
  | Some d => end_timestamp vs <= e + d /\ e + d < U64_BOUND
  | None => end_timestamp vs <= e
  end ->
  not_vested (lockup_amount (lockup_information s)) vs now <= locked s now.
Proof.
  intros H (S1 & S2 & S3 & S4) Hv He Hc Hr. pose proof (wf_vesting s H) as HW.
  destruct (vesting_information s) as [|h|vs'|ti] eqn:Ev; try contradiction.
  unfold locked. rewrite He, HW, !N.sub_0_r.
  destruct (N.ltb_spec now e) as [Hlt|Hge].
  { apply not_vested_le. repeat split; assumption. }
  unfold not_vested. destruct (N.ltb_spec now (cliff_timestamp vs)); [lia|].
  destruct (N.ltb_spec now (end_timestamp vs)); [|lia].
  etransitivity; [|apply N.le_max_l].
  unfold not_released. destruct (release_duration (lockup_information s)) as [d|]; [|lia].
  destruct (N.ltb_spec now (later e d)); [|unfold later in *; lia].
  destruct Hr as [Hr Hd]. assert (El : later e d = e + d) by (unfold later; lia). rewrite El in *.
  assert (Hd0 : d <> 0) by lia.
  set (L := lockup_amount (lockup_information s)).
  set (z := end_timestamp vs) in *. set (b := start_timestamp vs) in *.
  (* the two remainders, multiplied out *)
  assert (K : (z - now) * d <= (e + d - now) * (z - b)).
  { assert (exists p q, now = e + p /\ z = now + q) as (p & q & Ep & Eq).
    { exists (now - e), (z - now). lia. }
    assert (exists k, e + d = z + k) as (k & Ek) by (exists (e + d - z); lia).
    assert (exists j, e = b + j) as (j & Ej) by (exists (e - b); lia).
    replace (z - now) with q by lia. replace d with (p + q + k) by lia.
    replace (e + (p + q + k) - now) with (q + k) by lia. replace (z - b) with (j + p + q) by lia. nia. }
  apply N.div_le_lower_bound; [exact Hd0|].
  etransitivity; [apply N.div_mul_le; lia|].
  apply N.div_le_upper_bound; [lia|]. nia.
Qed.
