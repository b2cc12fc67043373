(** The grammar of JSON texts (RFC 8259): which texts spell which value. Stated without reference to the reader in
    JsonModel.v. *)
From Coq Require Import NArith List String Ascii.
From Verif Require Import JsonModel.
Import ListNotations.
Open Scope string_scope.
Open Scope N_scope.

(** White space: blanks, tabs, line feeds and carriage returns. *)
Inductive space : string -> Prop :=
| space_nil : space ""
| space_cons c s : In (N_of_ascii c) [32; 9; 10; 13] -> space s -> space (String c s).

(** What is between the quotes of a string, and the string it spells. *)
Definition short_escapes : list (ascii * N) :=
  [("""", 34); ("\", 92); ("/", 47); ("b", 8); ("f", 12); ("n", 10); ("r", 13); ("t", 9)]%char.
Definition hex_digits : list (ascii * N) :=
  [("0", 0); ("1", 1); ("2", 2); ("3", 3); ("4", 4); ("5", 5); ("6", 6); ("7", 7); ("8", 8); ("9", 9);
   ("a", 10); ("b", 11); ("c", 12); ("d", 13); ("e", 14); ("f", 15);
   ("A", 10); ("B", 11); ("C", 12); ("D", 13); ("E", 14); ("F", 15)]%char.
Inductive four_digits : string -> N -> Prop :=
| four h1 x1 h2 x2 h3 x3 h4 x4 :
    In (h1, x1) hex_digits -> In (h2, x2) hex_digits -> In (h3, x3) hex_digits -> In (h4, x4) hex_digits ->
    four_digits (String h1 (String h2 (String h3 (String h4 "")))) (4096 * x1 + 256 * x2 + 16 * x3 + x4).
(** The UTF-8 form of a character (RFC 3629). *)
Definition bytes (l : list N) : string := string_of_list_ascii (map ascii_of_N l).
Inductive in_utf8 : N -> string -> Prop :=
| utf8_1 a : a < 128 -> in_utf8 a (bytes [a])
| utf8_2 n a b : n = 64 * a + b -> b < 64 -> 128 <= n < 2048 -> in_utf8 n (bytes [192 + a; 128 + b])
| utf8_3 n a b c : n = 4096 * a + 64 * b + c -> b < 64 -> c < 64 -> 2048 <= n < 65536 ->
    in_utf8 n (bytes [224 + a; 128 + b; 128 + c])
| utf8_4 n a b c d : n = 262144 * a + 4096 * b + 64 * c + d -> b < 64 -> c < 64 -> d < 64 -> 65536 <= n < 1114112 ->
    in_utf8 n (bytes [240 + a; 128 + b; 128 + c; 128 + d]).
(** Plain characters; escapes of one letter; characters up to 65535 by their number, surrogates (D800 to DFFF) left out;
    characters above by two surrogates. *)
Inductive spells : string -> string -> Prop :=
| spells_nil : spells "" ""
| spells_plain c s t : N_of_ascii c <> 34 -> N_of_ascii c <> 92 -> 32 <= N_of_ascii c ->
    spells s t -> spells (String c s) (String c t)
| spells_short e n s t : In (e, n) short_escapes -> spells s t ->
    spells (String "\" (String e s)) (String (ascii_of_N n) t)
| spells_hex h n u s t : four_digits h n -> n < 55296 \/ 57344 <= n -> in_utf8 n u -> spells s t ->
    spells ("\u" ++ h ++ s) (u ++ t)
| spells_pair h l a b u s t : four_digits h (55296 + a) -> four_digits l (56320 + b) -> a < 1024 -> b < 1024 ->
    in_utf8 (65536 + 1024 * a + b) u -> spells s t ->
    spells ("\u" ++ h ++ "\u" ++ l ++ s) (u ++ t).

(** Natural numbers, without needless zeros in front. *)
Definition digit_values : list (ascii * N) := firstn 10 hex_digits.
Inductive more_digits : N -> string -> N -> Prop :=
| more_none n : more_digits n "" n
| more_one a c d s n : In (c, d) digit_values -> more_digits (10 * a + d) s n -> more_digits a (String c s) n.
Inductive numeral : string -> N -> Prop :=
| numeral_zero : numeral "0" 0
| numeral_other c d s n : In (c, d) digit_values -> d <> 0 -> more_digits d s n -> numeral (String c s) n.

(** Other numbers: with a minus, a fraction or an exponent. *)
Definition several_digits (s : string) : Prop := s <> "" /\ exists n, more_digits 0 s n.
Definition sign_of (s : string) : Prop := s = "" \/ s = "-".
Definition after_point (s : string) : Prop := s = "" \/ exists d, s = "." ++ d /\ several_digits d.
Definition exponent (s : string) : Prop :=
  s = "" \/ exists e m d, s = e ++ m ++ d /\ (e = "e" \/ e = "E") /\ (m = "" \/ m = "+" \/ m = "-") /\ several_digits d.
Definition real (s : string) : Prop :=
  exists m i n f e, s = m ++ i ++ f ++ e /\ sign_of m /\ numeral i n /\ after_point f /\ exponent e /\
    (m <> "" \/ f <> "" \/ e <> "").

(** Values, without white space around them; lists of them, each with white space around it; and of named ones. *)
Inductive text : string -> json -> Prop :=
| text_null : text "null" JNull
| text_true : text "true" (JBool true)
| text_false : text "false" (JBool false)
| text_number s n : numeral s n -> text s (JNum n)
| text_real s : real s -> text s JReal
| text_string s t : spells s t -> text ("""" ++ s ++ """") (JStr t)
| text_no_array a : space a -> text ("[" ++ a ++ "]") (JArr [])
| text_array s l : items s l -> text ("[" ++ s ++ "]") (JArr l)
| text_no_object a : space a -> text ("{" ++ a ++ "}") (JObj [])
| text_object s l : members s l -> text ("{" ++ s ++ "}") (JObj l)
with items : string -> list json -> Prop :=
| items_one a s b v : space a -> text s v -> space b -> items (a ++ s ++ b) [v]
| items_more a s b v t l : space a -> text s v -> space b -> items t l -> items (a ++ s ++ b ++ "," ++ t) (v :: l)
with members : string -> list (string * json) -> Prop :=
| members_one a k n b c s d v : space a -> spells k n -> space b -> space c -> text s v -> space d ->
    members (a ++ """" ++ k ++ """" ++ b ++ ":" ++ c ++ s ++ d) [(n, v)]
| members_more a k n b c s d v t l : space a -> spells k n -> space b -> space c -> text s v -> space d ->
    members t l -> members (a ++ """" ++ k ++ """" ++ b ++ ":" ++ c ++ s ++ d ++ "," ++ t) ((n, v) :: l).

(** A whole text. *)
Definition document (s : string) (v : json) : Prop :=
  exists a t b, s = a ++ t ++ b /\ space a /\ text t v /\ space b.
