(** Model of the persistent collections on the raw storage of a contract. Definitions only.

    The collections are library code (near-sdk, not in /repo), modelled from its published source: collections/vector.rs,
    unordered_map.rs, unordered_set.rs, lookup_map.rs, lookup_set.rs. What /repo decides is which collections a contract
    has and under which prefix each of them lives (the layouts below). Keys and values are the encoded byte strings. *)
From Coq Require Import NArith List Bool String Ascii.
From Verif Require Import Prelude.
Import ListNotations.
Open Scope string_scope.
Open Scope N_scope.

(** [env::storage_read], [storage_write], [storage_remove]: one flat map from byte strings to byte strings. *)
Definition storage := string -> option string.
Definition write (k v : string) (st : storage) : storage := fun x => if String.eqb x k then Some v else st x.
Definition erase (k : string) (st : storage) : storage := fun x => if String.eqb x k then None else st x.

(** [u64::to_le_bytes], [u64::from_le_bytes] *)
Definition byte (n : N) : ascii := ascii_of_N (n mod 256).
Fixpoint le_bytes (count : nat) (n : N) : string :=
  match count with O => "" | S c => String (byte n) (le_bytes c (n / 256)) end.
Definition u64_le : N -> string := le_bytes 8.
Fixpoint of_le (s : string) : N :=
  match s with EmptyString => 0 | String c r => N_of_ascii c + 256 * of_le r end.
Definition index_of_bytes (s : string) : res N :=
  if slen s =? 8 then Ok (of_le s) else Panic "Cannot deserialize index".

(** * [Vector]: element [i] under the prefix followed by [i] as 8 bytes; the object itself holds the length. *)
Definition ERR_INCONSISTENT : string := "The collection is an inconsistent state. Did previous smart contract execution terminate unexpectedly?".
Definition v_key (prefix : string) (i : N) : string := prefix ++ u64_le i.
Definition v_get (prefix : string) (len : N) (st : storage) (i : N) : option string :=
  if len <=? i then None else st (v_key prefix i).
Definition v_push (prefix : string) (len : N) (st : storage) (x : string) : res (storage * N) :=
  let! len' := add64 len 1 in
  Ok (write (v_key prefix len) x st, len').
Definition v_pop (prefix : string) (len : N) (st : storage) : res (storage * N * string) :=
  let! last := sub_chk len 1 in
  let! x := expect (st (v_key prefix last)) ERR_INCONSISTENT in
  Ok (erase (v_key prefix last) st, last, x).
Definition v_replace (prefix : string) (len : N) (st : storage) (i : N) (x : string) : res (storage * string) :=
  assert! i <? len orelse "Index out of bounds" ;;
  let! old := expect (st (v_key prefix i)) ERR_INCONSISTENT in
  Ok (write (v_key prefix i) x st, old).
Definition v_swap_remove (prefix : string) (len : N) (st : storage) (i : N) : res (storage * N * string) :=
  assert! i <? len orelse "Index out of bounds" ;;
  if i + 1 =? len then v_pop prefix len st
  else
    let! '(st, len, last) := v_pop prefix len st in
    let! old := expect (st (v_key prefix i)) ERR_INCONSISTENT in
    Ok (write (v_key prefix i) last st, len, old).

(** * Collections. The object holds the lengths of its vectors; a set and the lookup collections use less of it. *)
Inductive kind := UnorderedMap | UnorderedSet | LookupMap | LookupSet.
Record handle := mkHandle { h_kind : kind; h_prefix : string; h_keys : N; h_values : N }.
Definition index_key (h : handle) (k : string) : string := (h_prefix h ++ "i") ++ k.
(** The keys of a map are the vector "k", its values the vector "v"; the elements of a set are the vector "e". *)
Definition keys_prefix (h : handle) : string :=
  h_prefix h ++ match h_kind h with UnorderedSet => "e" | _ => "k" end.
Definition values_prefix (h : handle) : string := h_prefix h ++ "v".
Definition with_lens (h : handle) (a b : N) : handle := mkHandle (h_kind h) (h_prefix h) a b.

(** [UnorderedMap::get_raw], [insert_raw], [remove_raw], [iter] *)
Definition um_get (h : handle) (st : storage) (k : string) : res (option string) :=
  match st (index_key h k) with
  | Some raw => let! i := index_of_bytes raw in
                let! x := expect (v_get (values_prefix h) (h_values h) st i) ERR_INCONSISTENT in Ok (Some x)
  | None => Ok None
  end.
Definition um_insert (h : handle) (st : storage) (k v : string) : res (storage * handle * option string) :=
  match st (index_key h k) with
  | Some raw =>
      let! i := index_of_bytes raw in
      let! '(st, old) := v_replace (values_prefix h) (h_values h) st i v in
      Ok (st, h, Some old)
  | None =>
      let st := write (index_key h k) (u64_le (h_keys h)) st in
      let! '(st, a) := v_push (keys_prefix h) (h_keys h) st k in
      let! '(st, b) := v_push (values_prefix h) (h_values h) st v in
      Ok (st, with_lens h a b, None)
  end.
(** The index entry of the removed key goes; that of the last key, which takes its place, is rewritten. *)
Definition reindex (h : handle) (st : storage) (k raw : string) : res storage :=
  if h_keys h =? 1 then Ok (erase (index_key h k) st)
  else
    let! last := sub_chk (h_keys h) 1 in
    let! last_key := expect (v_get (keys_prefix h) (h_keys h) st last) ERR_INCONSISTENT in
    let st := erase (index_key h k) st in
    Ok (if String.eqb last_key k then st else write (index_key h last_key) raw st).
Definition um_remove (h : handle) (st : storage) (k : string) : res (storage * handle * option string) :=
  match st (index_key h k) with
  | Some raw =>
      let! st := reindex h st k raw in
      let! i := index_of_bytes raw in
      let! '(st, a, _) := v_swap_remove (keys_prefix h) (h_keys h) st i in
      let! '(st, b, old) := v_swap_remove (values_prefix h) (h_values h) st i in
      Ok (st, with_lens h a b, Some old)
  | None => Ok (st, h, None)
  end.
Fixpoint v_list (prefix : string) (st : storage) (i : N) (n : nat) : res (list string) :=
  match n with
  | O => Ok []
  | S n => let! x := expect (st (v_key prefix i)) ERR_INCONSISTENT in
           let! r := v_list prefix st (i + 1) n in Ok (x :: r)
  end.
Definition um_entries (h : handle) (st : storage) : res (list (string * string)) :=
  let! ks := v_list (keys_prefix h) st 0 (N.to_nat (h_keys h)) in
  let! vs := v_list (values_prefix h) st 0 (N.to_nat (h_values h)) in
  Ok (combine ks vs).

(** [UnorderedSet::contains], [insert], [remove], [to_vec] *)
Definition us_contains (h : handle) (st : storage) (k : string) : bool :=
  match st (index_key h k) with Some _ => true | None => false end.
Definition us_insert (h : handle) (st : storage) (k : string) : res (storage * handle * bool) :=
  match st (index_key h k) with
  | Some _ => Ok (st, h, false)
  | None =>
      let st := write (index_key h k) (u64_le (h_keys h)) st in
      let! '(st, a) := v_push (keys_prefix h) (h_keys h) st k in
      Ok (st, with_lens h a (h_values h), true)
  end.
Definition us_remove (h : handle) (st : storage) (k : string) : res (storage * handle * bool) :=
  match st (index_key h k) with
  | Some raw =>
      let! st := reindex h st k raw in
      let! i := index_of_bytes raw in
      let! '(st, a, _) := v_swap_remove (keys_prefix h) (h_keys h) st i in
      Ok (st, with_lens h a (h_values h), true)
  | None => Ok (st, h, false)
  end.
Definition us_list (h : handle) (st : storage) : res (list string) :=
  v_list (keys_prefix h) st 0 (N.to_nat (h_keys h)).

(** [LookupMap::get_raw], [insert_raw], [remove_raw]; [LookupSet] stores empty values. *)
Definition lookup_key (h : handle) (k : string) : string := h_prefix h ++ k.

(** * A contract's storage: its collections and its own record, which lives under the key "STATE". *)
Definition STATE_KEY : string := "STATE".

Inductive op :=
| Get (c : nat) (k : string)
| Put (c : nat) (k v : string)
| Del (c : nat) (k : string)
| Count (c : nat)
| Entries (c : nat)
| Load
| Save (s : string).
Inductive answer :=
| AValue (o : option string)
| AFlag (b : bool)
| ANumber (n : N)
| AEntries (l : list (string * string))
| AUnit.

Definition world : Type := (storage * list handle)%type.
Fixpoint set_nth {A} (n : nat) (x : A) (l : list A) : list A :=
  match l, n with
  | [], _ => []
  | _ :: r, O => x :: r
  | y :: r, S n => y :: set_nth n x r
  end.
Definition present {A} (o : option A) : bool := match o with Some _ => true | None => false end.

(** One use of collection [c]; of a set only the keys count. *)
Definition raw_op (w : world) (o : op) : res (world * answer) :=
  let '(st, hs) := w in
  match o with
  | Load => Ok (w, AValue (st STATE_KEY))
  | Save s => Ok ((write STATE_KEY s st, hs), AUnit)
  | Get c k =>
      match nth_error hs c with
      | None => Ok (w, AUnit)
      | Some h =>
          match h_kind h with
          | UnorderedMap => let! x := um_get h st k in Ok (w, AValue x)
          | UnorderedSet => Ok (w, AFlag (us_contains h st k))
          | LookupMap => Ok (w, AValue (st (lookup_key h k)))
          | LookupSet => Ok (w, AFlag (present (st (lookup_key h k))))
          end
      end
  | Put c k v =>
      match nth_error hs c with
      | None => Ok (w, AUnit)
      | Some h =>
          match h_kind h with
          | UnorderedMap => let! '(st, h, old) := um_insert h st k v in Ok ((st, set_nth c h hs), AValue old)
          | UnorderedSet => let! '(st, h, b) := us_insert h st k in Ok ((st, set_nth c h hs), AFlag b)
          | LookupMap => Ok ((write (lookup_key h k) v st, hs), AValue (st (lookup_key h k)))
          | LookupSet => Ok ((write (lookup_key h k) "" st, hs), AFlag (negb (present (st (lookup_key h k)))))
          end
      end
  | Del c k =>
      match nth_error hs c with
      | None => Ok (w, AUnit)
      | Some h =>
          match h_kind h with
          | UnorderedMap => let! '(st, h, old) := um_remove h st k in Ok ((st, set_nth c h hs), AValue old)
          | UnorderedSet => let! '(st, h, b) := us_remove h st k in Ok ((st, set_nth c h hs), AFlag b)
          | LookupMap => Ok ((erase (lookup_key h k) st, hs), AValue (st (lookup_key h k)))
          | LookupSet => Ok ((erase (lookup_key h k) st, hs), AFlag (present (st (lookup_key h k))))
          end
      end
  | Count c =>
      match nth_error hs c with
      | None => Ok (w, AUnit)
      | Some h => match h_kind h with
                  | UnorderedMap | UnorderedSet => Ok (w, ANumber (h_keys h))
                  | _ => Ok (w, AUnit)
                  end
      end
  | Entries c =>
      match nth_error hs c with
      | None => Ok (w, AUnit)
      | Some h => match h_kind h with
                  | UnorderedMap => let! l := um_entries h st in Ok (w, AEntries l)
                  | UnorderedSet => let! l := us_list h st in Ok (w, AEntries (map (fun k => (k, "")) l))
                  | _ => Ok (w, AUnit)
                  end
      end
  end.

Fixpoint raw_ops (w : world) (l : list op) : res (list answer) :=
  match l with
  | [] => Ok []
  | o :: r => let! '(w, a) := raw_op w o in let! rest := raw_ops w r in Ok (a :: rest)
  end.

(** * The layouts of /repo *)
Definition layout := list (kind * string).
Definition fresh (l : layout) : world := (fun _ => None, map (fun kp => mkHandle (fst kp) (snd kp) 0 0) l).

(** staking-pool/src/lib.rs:200 *)
Definition staking_pool_layout : layout := [(UnorderedMap, "u")].
(** staking-pool-factory/src/lib.rs:113 *)
Definition pool_factory_layout : layout := [(UnorderedSet, "s")].
(** whitelist/src/lib.rs:41-42 *)
Definition whitelist_layout : layout := [(LookupSet, "w"); (LookupSet, "f")].
(** multisig/src/lib.rs:108-110 *)
Definition multisig_layout : layout := [(UnorderedMap, "r"); (UnorderedMap, "c"); (UnorderedMap, "k")].
(** multisig2/src/lib.rs:108-114, 154-160: the prefixes are the Borsh encodings of an enum, one byte each. *)
Definition multisig2_layout : layout :=
  [(UnorderedSet, String (byte 0) ""); (UnorderedMap, String (byte 1) ""); (LookupMap, String (byte 2) "");
   (LookupMap, String (byte 3) "")].
(** w-near/src/lib.rs:38 *)
Definition w_near_layout : layout := [(LookupMap, "a")].
