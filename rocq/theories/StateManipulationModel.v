(** Model of the state manipulation contract: state-manipulation/src/lib.rs. Definitions only.

    Bytes are Coq's [ascii], byte strings its [string]. *)
From Coq Require Import NArith List Bool String Ascii.
From Verif Require Import Prelude.
Import ListNotations.
Open Scope string_scope.
Open Scope N_scope.

(** * base64 0.13.0 with its default configuration (a library, not in /repo): the standard alphabet; padding is
    written, and optional when read; a last symbol with bits that are not used is refused. *)
Definition alphabet : string := "ABCDEFGHIJKLMNOPQRSTUVWXYZabcdefghijklmnopqrstuvwxyz0123456789+/".

Definition symbol (i : N) : ascii :=
  match String.get (N.to_nat i) alphabet with Some c => c | None => "="%char end.
Fixpoint index_of (c : ascii) (s : string) (i : N) : option N :=
  match s with
  | EmptyString => None
  | String d r => if Ascii.eqb c d then Some i else index_of c r (i + 1)
  end.
Definition morsel (c : ascii) : option N := index_of c alphabet 0.

Fixpoint encode (s : string) : string :=
  match s with
  | EmptyString => ""
  | String a EmptyString =>
      let x := N_of_ascii a in
      String (symbol (x / 4)) (String (symbol (x mod 4 * 16)) "==")
  | String a (String b EmptyString) =>
      let x := N_of_ascii a in let y := N_of_ascii b in
      String (symbol (x / 4)) (String (symbol (x mod 4 * 16 + y / 16)) (String (symbol (y mod 16 * 4)) "="))
  | String a (String b (String c r)) =>
      let x := N_of_ascii a in let y := N_of_ascii b in let z := N_of_ascii c in
      String (symbol (x / 4)) (String (symbol (x mod 4 * 16 + y / 16))
        (String (symbol (y mod 16 * 4 + z / 64)) (String (symbol (z mod 64)) (encode r))))
  end.

(** The last group: two or three symbols. *)
Definition decode2 (c1 c2 : ascii) : option string :=
  match morsel c1, morsel c2 with
  | Some i, Some j => if j mod 16 =? 0 then Some (String (ascii_of_N (i * 4 + j / 16)) "") else None
  | _, _ => None
  end.
Definition decode3 (c1 c2 c3 : ascii) : option string :=
  match morsel c1, morsel c2, morsel c3 with
  | Some i, Some j, Some k =>
      if k mod 4 =? 0
      then Some (String (ascii_of_N (i * 4 + j / 16)) (String (ascii_of_N (j mod 16 * 16 + k / 4)) ""))
      else None
  | _, _, _ => None
  end.
Definition is_pad (c : ascii) : bool := Ascii.eqb c "="%char.
Fixpoint decode (s : string) : option string :=
  match s with
  | EmptyString => Some ""
  | String c1 EmptyString => None
  | String c1 (String c2 EmptyString) => decode2 c1 c2
  | String c1 (String c2 (String c3 EmptyString)) => if is_pad c3 then decode2 c1 c2 else decode3 c1 c2 c3
  | String c1 (String c2 (String c3 (String c4 r))) =>
      if is_pad c3 then
        if is_pad c4 && String.eqb r "" then decode2 c1 c2 else None
      else if is_pad c4 then
        if String.eqb r "" then decode3 c1 c2 c3 else None
      else
        match morsel c1, morsel c2, morsel c3, morsel c4, decode r with
        | Some i, Some j, Some k, Some l, Some t =>
            Some (String (ascii_of_N (i * 4 + j / 16)) (String (ascii_of_N (j mod 16 * 16 + k / 4))
              (String (ascii_of_N (k mod 4 * 64 + l)) t)))
        | _, _, _, _, _ => None
        end
  end.

(** * The contract's storage, by key. *)
Definition storage := string -> option string.

(** state-manipulation/src/lib.rs:43-55. The evicted value goes to a register nobody reads. *)
Definition storage_write (st : storage) (k v : string) : storage :=
  fun k' => if String.eqb k' k then Some v else st k'.
(** state-manipulation/src/lib.rs:57-61 *)
Definition storage_remove (st : storage) (k : string) : storage :=
  fun k' => if String.eqb k' k then None else st k'.

(** state-manipulation/src/lib.rs:86-91 *)
Fixpoint replace_loop (st : storage) (entries : list (string * string)) : res storage :=
  match entries with
  | [] => Ok st
  | (key, value) :: r =>
      let! k := expect (decode key) "called `Result::unwrap()` on an `Err` value" in
      let! v := expect (decode value) "called `Result::unwrap()` on an `Err` value" in
      replace_loop (storage_write st k v) r
  end.
(** state-manipulation/src/lib.rs:75-92. [None] stands for an input that is not the JSON of such a list. *)
Definition replace (st : storage) (input : option (list (string * string))) : res storage :=
  let! entries := expect input "called `Result::unwrap()` on an `Err` value" in
  replace_loop st entries.

(** state-manipulation/src/lib.rs:105-107 *)
Fixpoint clean_loop (st : storage) (keys : list string) : res storage :=
  match keys with
  | [] => Ok st
  | key :: r =>
      let! k := expect (decode key) "called `Result::unwrap()` on an `Err` value" in
      clean_loop (storage_remove st k) r
  end.
(** state-manipulation/src/lib.rs:94-108 *)
Definition clean (st : storage) (input : option (list string)) : res storage :=
  let! keys := expect input "called `Result::unwrap()` on an `Err` value" in
  clean_loop st keys.

(** A call, as the runtime executes it: a panic, the end of the gas or a limit of the runtime on sizes undoes
    everything. *)
Inductive call := Replace (input : option (list (string * string))) | Clean (input : option (list string)).
Definition exec (st : storage) (cl : call) (within_limits : bool) : storage * bool :=
  match (match cl with Replace i => replace st i | Clean i => clean st i end) with
  | Ok st' => if within_limits then (st', true) else (st, false)
  | Panic _ => (st, false)
  end.
Fixpoint final (st : storage) (cls : list (call * bool)) : storage :=
  match cls with
  | [] => st
  | (cl, ok) :: r => final (fst (exec st cl ok)) r
  end.
