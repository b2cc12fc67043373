(** Shared vocabulary of all contract models: results with panics, checked machine integers,
    account names, and the collections of near-sdk. Definitions only. *)
From Coq Require Import NArith List Bool String Ascii.
Import ListNotations.
Open Scope N_scope.

(** * Results

    A Rust contract call either returns or panics. All contracts of the repository are compiled with
    [panic = "abort"] (e.g. staking-pool/Cargo.toml, [profile.release]), and the runtime discards
    every effect of a call that panics. *)
Inductive res (A : Type) : Type :=
| Ok (a : A)
| Panic (msg : string).
Arguments Ok {A} a.
Arguments Panic {A} msg.

Definition bind {A B} (r : res A) (f : A -> res B) : res B :=
  match r with
  | Ok a => f a
  | Panic m => Panic m
  end.

Notation "'let!' x := r 'in' k" := (bind r (fun x => k))
  (at level 200, x name, r at level 100, k at level 200, right associativity).
Notation "'let!' ' p := r 'in' k" := (bind r (fun x => match x with p => k end))
  (at level 200, p pattern, r at level 100, k at level 200, right associativity).

(** [assert!(c, msg)]. *)
Definition require (c : bool) (msg : string) : res unit :=
  if c then Ok tt else Panic msg.

Notation "'assert!' c 'orelse' m ';;' k" := (bind (require c m) (fun _ => k))
  (at level 200, c at level 99, m at level 0, k at level 200, right associativity).

(** [option.expect(msg)] / [unwrap_or_else(|| env::panic(..))]. *)
Definition expect {A} (o : option A) (msg : string) : res A :=
  match o with Some a => Ok a | None => Panic msg end.

Definition is_ok {A} (r : res A) : bool := match r with Ok _ => true | Panic _ => false end.

(** * Machine integers

    Unsigned integers are [N]. [overflow-checks = true] in the release profile of every contract:
    [+], [-] and [*] panic when the result does not fit. *)
Definition U32_BOUND : N := 2 ^ 32.
Definition U64_BOUND : N := 2 ^ 64.
Definition U128_BOUND : N := 2 ^ 128.
Definition U256_BOUND : N := 2 ^ 256.

Definition fits (bound x : N) : bool := x <? bound.

Definition add_chk (bound a b : N) : res N :=
  if fits bound (a + b) then Ok (a + b) else Panic "attempt to add with overflow".
Definition mul_chk (bound a b : N) : res N :=
  if fits bound (a * b) then Ok (a * b) else Panic "attempt to multiply with overflow".
Definition sub_chk (a b : N) : res N :=
  if b <=? a then Ok (a - b) else Panic "attempt to subtract with overflow".
Definition div_chk (a b : N) : res N :=
  if b =? 0 then Panic "attempt to divide by zero" else Ok (a / b).

Definition add128 := add_chk U128_BOUND.
Definition add64 := add_chk U64_BOUND.
Definition add32 := add_chk U32_BOUND.
Definition mul128 := mul_chk U128_BOUND.
Definition add256 := add_chk U256_BOUND.
Definition mul256 := mul_chk U256_BOUND.

(** [U256::as_u128()] of the [uint] crate: panics when the value does not fit. *)
Definition as_u128 (x : N) : res N :=
  if fits U128_BOUND x then Ok x else Panic "Integer overflow when casting to u128".

(** [saturating_sub]; truncated subtraction on [N]. *)
Definition sat_sub (a b : N) : N := a - b.
(** [u64::saturating_add]. *)
Definition sat_add64 (a b : N) : N := N.min (a + b) (U64_BOUND - 1).

(** * Names *)
Definition account_id := string.
Definition public_key := string.
Definition balance := N.

(** near-sdk 2.0.0 / 3.1.0 [env::is_valid_account_id] (library code, not in /repo): length 2..64,
    lower-case alphanumerics and the separators '-', '_', '.', no two separators in a row, none at
    either end. *)
Definition char_kind (c : ascii) : option bool :=
  let n := N_of_ascii c in
  if ((97 <=? n) && (n <=? 122)) || ((48 <=? n) && (n <=? 57)) then Some false
  else if (n =? 45) || (n =? 95) || (n =? 46) then Some true
  else None.

Fixpoint valid_chars (last_is_sep : bool) (s : string) : bool :=
  match s with
  | EmptyString => negb last_is_sep
  | String c s' =>
      match char_kind c with
      | None => false
      | Some sep => if sep && last_is_sep then false else valid_chars sep s'
      end
  end.

Definition slen (s : string) : N := N.of_nat (String.length s).

Definition is_valid_account_id (s : account_id) : bool :=
  (2 <=? slen s) && (slen s <=? 64) && valid_chars true s.

(** * Keys with decidable equality *)
Class EqKey (K : Type) := {
  keqb : K -> K -> bool;
  keqb_spec : forall a b, reflect (a = b) (keqb a b)
}.

#[global] Instance EqKey_string : EqKey string :=
  {| keqb := String.eqb; keqb_spec := String.eqb_spec |}.
#[global] Instance EqKey_N : EqKey N :=
  {| keqb := N.eqb; keqb_spec := N.eqb_spec |}.

(** * Maps

    [UnorderedMap] of near-sdk keeps a vector of keys, a vector of values and an index; the order of
    the vectors is visible through [keys_as_vector]. An association list in vector order models all
    three. [insert] replaces in place or appends; [remove] is [Vector::swap_remove]. [LookupMap] and
    [HashMap] are modelled by the same lists; their order is not observable. *)
Section UMap.
  Context {K V : Type} `{EqKey K}.

  Definition umap := list (K * V).

  Fixpoint mget (k : K) (m : umap) : option V :=
    match m with
    | [] => None
    | (k', v) :: r => if keqb k k' then Some v else mget k r
    end.

  Fixpoint minsert (k : K) (v : V) (m : umap) : umap :=
    match m with
    | [] => [(k, v)]
    | (k', v') :: r => if keqb k k' then (k', v) :: r else (k', v') :: minsert k v r
    end.

  (** [Vector::swap_remove] of the hit element. *)
  Definition drop_head_swap (r : umap) : umap :=
    match r with
    | [] => []
    | x :: r' => List.last r' x :: removelast r
    end.

  Fixpoint mremove (k : K) (m : umap) : umap :=
    match m with
    | [] => []
    | (k', v) :: r => if keqb k k' then drop_head_swap r else (k', v) :: mremove k r
    end.

  Definition mkeys (m : umap) : list K := List.map fst m.
  Definition mvalues (m : umap) : list V := List.map snd m.
  Definition mmem (k : K) (m : umap) : bool :=
    match mget k m with Some _ => true | None => false end.
  Definition mlen (m : umap) : N := N.of_nat (List.length m).

  Definition msum (f : V -> N) (m : umap) : N :=
    fold_right (fun kv acc => f (snd kv) + acc) 0 m.
End UMap.
Arguments umap K V : clear implicits.

(** * Sets: [LookupSet], [UnorderedSet], [HashSet]. *)
Section USet.
  Context {K : Type} `{EqKey K}.
  Definition uset := list K.
  Definition smem (k : K) (s : uset) : bool := existsb (keqb k) s.
  Definition sinsert (k : K) (s : uset) : uset := if smem k s then s else s ++ [k].
  Definition sremove (k : K) (s : uset) : uset := filter (fun x => negb (keqb k x)) s.
  Definition slength (s : uset) : N := N.of_nat (List.length s).
End USet.
Arguments uset K : clear implicits.
