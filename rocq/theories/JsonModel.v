(** Model of the JSON texts that carry the arguments of calls and their answers. Definitions only.

    The contracts of /repo read their arguments and write those of others with serde_json and the wrappers
    of near-sdk (libraries, not in /repo). What is modelled here: compact texts as serde_json writes them, and its
    reader for arbitrary texts, with white space anywhere it is allowed. Strings are their UTF-8 bytes; simplification
    of the reader: the bytes of a text outside of escapes are not checked to be UTF-8. *)
From Coq Require Import NArith List Bool String Ascii DecimalString.
From Verif Require Import Prelude Json StateManipulationModel.
Import ListNotations.
Open Scope string_scope.
Open Scope N_scope.

(** The values of serde_json::Value. A number that is not a natural one (negative, or with a fraction or an exponent) is
    a [JReal]: no type of the contracts takes one and none writes one, so it is not kept which one it is. *)
Inductive json :=
| JNull
| JBool (b : bool)
| JNum (n : N)
| JReal
| JStr (s : string)
| JArr (l : list json)
| JObj (l : list (string * json)).

(** * Writing: serde_json::to_vec. *)
Definition quoted (s : string) : string := String """" (escape s ++ String """" "").
Definition decimal (n : N) : string := NilEmpty.string_of_uint (N.to_uint n).

Fixpoint print (v : json) : string :=
  match v with
  | JNull => "null"
  | JBool true => "true"
  | JBool false => "false"
  | JNum n => decimal n
  | JReal => "-0"
  | JStr s => quoted s
  | JArr l => "[" ++ String.concat "," (map print l) ++ "]"
  | JObj l => "{" ++ String.concat "," (map (fun kv => quoted (fst kv) ++ ":" ++ print (snd kv)) l) ++ "}"
  end.

(** * Reading: serde_json::from_slice. *)
Definition is_space (c : ascii) : bool :=
  let n := N_of_ascii c in (n =? 32) || (n =? 9) || (n =? 10) || (n =? 13).
Fixpoint skip (s : string) : string :=
  match s with
  | EmptyString => ""
  | String c r => if is_space c then skip r else s
  end.

Definition hex_of (c : ascii) : option N :=
  let n := N_of_ascii c in
  if (48 <=? n) && (n <=? 57) then Some (n - 48)
  else if (97 <=? n) && (n <=? 102) then Some (n - 87)
  else if (65 <=? n) && (n <=? 70) then Some (n - 55)
  else None.
(** The character a backslash and this letter stand for. *)
Definition short_escape (c : ascii) : option ascii :=
  if Ascii.eqb c """" then Some """"%char
  else if Ascii.eqb c "\" then Some "\"%char
  else if Ascii.eqb c "/" then Some "/"%char
  else if Ascii.eqb c "b" then Some (ascii_of_N 8)
  else if Ascii.eqb c "f" then Some (ascii_of_N 12)
  else if Ascii.eqb c "n" then Some (ascii_of_N 10)
  else if Ascii.eqb c "r" then Some (ascii_of_N 13)
  else if Ascii.eqb c "t" then Some (ascii_of_N 9)
  else None.
(** The number that four hexadecimal digits spell. *)
Definition code_unit (a b c d : ascii) : option N :=
  match hex_of a, hex_of b, hex_of c, hex_of d with
  | Some x, Some y, Some z, Some t => Some (((x * 16 + y) * 16 + z) * 16 + t)
  | _, _, _, _ => None
  end.
(** A character above 65535 is escaped as two surrogates, a high and a low one. *)
Definition is_high (n : N) : bool := (55296 <=? n) && (n <=? 56319).
Definition is_low (n : N) : bool := (56320 <=? n) && (n <=? 57343).
(** The bytes of a character. *)
Definition utf8 (n : N) : string :=
  let byte x r := String (ascii_of_N x) r in
  let more k r := byte (128 + (n / k) mod 64) r in
  if n <? 128 then byte n ""
  else if n <? 2048 then byte (192 + n / 64) (more 1 "")
  else if n <? 65536 then byte (224 + n / 4096) (more 64 (more 1 ""))
  else byte (240 + n / 262144) (more 4096 (more 64 (more 1 ""))).

Definition before (c : string) (o : option (string * string)) : option (string * string) :=
  match o with Some (t, r) => Some (c ++ t, r) | None => None end.
(** The rest of a string literal, after its first quote: what it says, and what follows it. *)
Fixpoint literal (s : string) : option (string * string) :=
  match s with
  | EmptyString => None
  | String c r =>
      if Ascii.eqb c """" then Some ("", r)
      else if Ascii.eqb c "\" then
        match r with
        | EmptyString => None
        | String d r =>
            match short_escape d with
            | Some e => before (String e "") (literal r)
            | None =>
                if Ascii.eqb d "u" then
                  match r with
                  | String h1 (String h2 (String h3 (String h4 r))) =>
                      match code_unit h1 h2 h3 h4 with
                      | None => None
                      | Some n =>
                          if is_low n then None
                          else if is_high n then
                            match r with
                            | String x (String y (String l1 (String l2 (String l3 (String l4 r))))) =>
                                if Ascii.eqb x "\" && Ascii.eqb y "u" then
                                  match code_unit l1 l2 l3 l4 with
                                  | Some m =>
                                      if is_low m
                                      then before (utf8 (65536 + 1024 * (n - 55296) + (m - 56320))) (literal r)
                                      else None
                                  | None => None
                                  end
                                else None
                            | _ => None
                            end
                          else before (utf8 n) (literal r)
                      end
                  | _ => None
                  end
                else None
            end
        end
      else if N_of_ascii c <? 32 then None
      else before (String c "") (literal r)
  end.

Definition is_digit (c : ascii) : bool := let n := N_of_ascii c in (48 <=? n) && (n <=? 57).
(** The digits a text starts with, and the rest of it. *)
Fixpoint digits (s : string) : string * string :=
  match s with
  | EmptyString => ("", "")
  | String c r => if is_digit c then let (d, t) := digits r in (String c d, t) else ("", s)
  end.
(** A decimal numeral, of any number of digits. *)
Definition of_decimal (s : string) : option N := option_map N.of_uint (NilEmpty.uint_of_string s).
(** One digit or more. *)
Definition some_digits (s : string) : option string :=
  let (d, r) := digits s in if String.eqb d "" then None else Some r.
(** A fraction and an exponent, if there is one: whether there is, and the rest of the text. *)
Definition fraction_part (s : string) : option (bool * string) :=
  match s with
  | String c r => if Ascii.eqb c "." then option_map (pair true) (some_digits r) else Some (false, s)
  | EmptyString => Some (false, s)
  end.
Definition exponent_part (s : string) : option (bool * string) :=
  match s with
  | String c r =>
      if Ascii.eqb c "e" || Ascii.eqb c "E" then
        let r := match r with
                 | String d t => if Ascii.eqb d "+" || Ascii.eqb d "-" then t else r
                 | EmptyString => r
                 end in
        option_map (pair true) (some_digits r)
      else Some (false, s)
  | EmptyString => Some (false, s)
  end.
(** A number. Without a sign, a fraction and an exponent it is a natural one. *)
Definition number (s : string) : option (json * string) :=
  let (negative, s) := match s with
                       | String c r => if Ascii.eqb c "-" then (true, r) else (false, s)
                       | EmptyString => (false, s)
                       end in
  let (d, r) := digits s in
  let leading_zero := match d with String c (String _ _) => Ascii.eqb c "0" | _ => false end in
  if String.eqb d "" || leading_zero then None
  else match fraction_part r with
       | None => None
       | Some (f, r) =>
           match exponent_part r with
           | None => None
           | Some (e, r) =>
               if negative || f || e then Some (JReal, r)
               else match of_decimal d with Some n => Some (JNum n, r) | None => None end
           end
       end.

Section Lists.
  (** How to read one value. *)
  Variable value : string -> option (json * string).
  (** The elements of an array that has some, with the closing bracket. *)
  Fixpoint elements (fuel : nat) (s : string) : option (list json * string) :=
    match fuel with
    | O => None
    | S fuel =>
        match value s with
        | None => None
        | Some (v, r) =>
            match skip r with
            | String "," r =>
                match elements fuel r with Some (l, r) => Some (v :: l, r) | None => None end
            | String "]" r => Some ([v], r)
            | _ => None
            end
        end
    end.
  (** The fields of an object that has some, with the closing brace. *)
  Fixpoint fields (fuel : nat) (s : string) : option (list (string * json) * string) :=
    match fuel with
    | O => None
    | S fuel =>
        match skip s with
        | String """" r =>
            match literal r with
            | None => None
            | Some (k, r) =>
                match skip r with
                | String ":" r =>
                    match value r with
                    | None => None
                    | Some (v, r) =>
                        match skip r with
                        | String "," r =>
                            match fields fuel r with Some (l, r) => Some ((k, v) :: l, r) | None => None end
                        | String "}" r => Some ([(k, v)], r)
                        | _ => None
                        end
                    end
                | _ => None
                end
            end
        | _ => None
        end
    end.
End Lists.

Fixpoint value (fuel : nat) (s : string) : option (json * string) :=
  match fuel with
  | O => None
  | S fuel =>
      match skip s with
      | String "n" (String "u" (String "l" (String "l" r))) => Some (JNull, r)
      | String "t" (String "r" (String "u" (String "e" r))) => Some (JBool true, r)
      | String "f" (String "a" (String "l" (String "s" (String "e" r)))) => Some (JBool false, r)
      | String """" r => match literal r with Some (t, r) => Some (JStr t, r) | None => None end
      | String "[" r =>
          match skip r with
          | String "]" r => Some (JArr [], r)
          | _ => match elements (value fuel) fuel r with Some (l, r) => Some (JArr l, r) | None => None end
          end
      | String "{" r =>
          match skip r with
          | String "}" r => Some (JObj [], r)
          | _ => match fields (value fuel) fuel r with Some (l, r) => Some (JObj l, r) | None => None end
          end
      | t => number t
      end
  end.

(** A whole text: one value, with nothing but white space after it. Every value takes at least one character, so
    the length of the text is fuel enough. (serde_json refuses texts nested deeper than 128, which none of the types
    of the contracts is.) *)
Definition parse (s : string) : option json :=
  match value (S (String.length s)) s with
  | Some (v, r) => if String.eqb (skip r) "" then Some v else None
  | None => None
  end.

(** * Reading and writing the types of the contracts. *)
Definition rd (A : Type) := json -> option A.

Definition rd_bool : rd bool := fun v => match v with JBool b => Some b | _ => None end.
Definition rd_str : rd string := fun v => match v with JStr s => Some s | _ => None end.
(** A plain [u32] or [u64]: a JSON number. *)
Definition rd_num (bound : N) : rd N := fun v =>
  match v with JNum n => if n <? bound then Some n else None | _ => None end.
(** near-sdk's [U64] and [U128]: written as decimal strings; read with [from_str_radix(_, 10)], which takes leading
    zeros and one leading plus. *)
Definition wr_dec (n : N) : json := JStr (decimal n).
Definition rd_dec (bound : N) : rd N := fun v =>
  match v with
  | JStr s =>
      let d := match s with String "+" r => r | _ => s end in
      if String.eqb d "" then None
      else match of_decimal d with Some n => if n <? bound then Some n else None | None => None end
  | _ => None
  end.
(** near-sdk's [Base64VecU8]. *)
Definition wr_base64 (s : string) : json := JStr (encode s).
Definition rd_base64 : rd string := fun v => match v with JStr s => decode s | _ => None end.

Definition wr_option {A} (wr : A -> json) (o : option A) : json := match o with None => JNull | Some x => wr x end.

Fixpoint rd_all {A} (r : rd A) (l : list json) : option (list A) :=
  match l with
  | [] => Some []
  | v :: l =>
      match r v, rd_all r l with Some x, Some xs => Some (x :: xs) | _, _ => None end
  end.
Definition rd_list {A} (r : rd A) : rd (list A) := fun v => match v with JArr l => rd_all r l | _ => None end.

(** The structs: serde's derive takes fields in any order, refuses a field it knows when it comes twice, and ignores
    those it does not know. (It also takes an array with the fields in order, which this reader does not.) *)
Definition named (name : string) (o : list (string * json)) : list json :=
  map snd (filter (fun kv => String.eqb (fst kv) name) o).
Definition field {A} (name : string) (r : rd A) (o : list (string * json)) : option A :=
  match named name o with [v] => r v | _ => None end.
(** A field of type [Option]: it may be missing or null. *)
Definition opt_field {A} (name : string) (r : rd A) (o : list (string * json)) : option (option A) :=
  match named name o with
  | [] => Some None
  | [JNull] => Some None
  | [v] => option_map Some (r v)
  | _ => None
  end.
Definition rd_obj {A} (f : list (string * json) -> option A) : rd A := fun v =>
  match v with JObj o => f o | _ => None end.

(** The arguments of a method of near_bindgen: one object, with a field for each argument. *)
Definition arguments {A} (args : string) (f : list (string * json) -> option A) : option A :=
  match parse args with Some v => rd_obj f v | None => None end.

Notation "'let?' x ':=' e 'in' f" := (match e with Some x => f | None => None end)
  (at level 200, x name, e at level 100, f at level 200).
