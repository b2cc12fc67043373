(** JSON string literals as [serde_json::to_string] writes them, and a proof that the escape is
    injective. Only used for the textual identity of multisig2 members. *)
From Coq Require Import NArith List Bool String Ascii.
Import ListNotations.
Open Scope string_scope.
Open Scope char_scope.

Definition hex_digit (n : N) : ascii := ascii_of_N (if N.ltb n 10 then 48 + n else 87 + n).

(** serde_json: the quote, the backslash and the control characters are escaped, nothing else. *)
Definition escape_char (c : ascii) : string :=
  if Ascii.eqb c """" then String "\" (String """" "")
  else if Ascii.eqb c "\" then String "\" (String "\" "")
  else let n := N_of_ascii c in
    if N.eqb n 8 then String "\" (String "b" "")
    else if N.eqb n 9 then String "\" (String "t" "")
    else if N.eqb n 10 then String "\" (String "n" "")
    else if N.eqb n 12 then String "\" (String "f" "")
    else if N.eqb n 13 then String "\" (String "r" "")
    else if N.ltb n 32 then
      String "\" (String "u" (String "0" (String "0" (String (hex_digit (N.div n 16))
        (String (hex_digit (N.modulo n 16)) "")))))
    else String c "".

Fixpoint escape (s : string) : string :=
  match s with
  | EmptyString => ""
  | String c r => (escape_char c ++ escape r)%string
  end.

(** A reader for one escaped character; only used in the proof. *)
Definition hex_value (c : ascii) : N := let n := N_of_ascii c in if N.ltb n 58 then n - 48 else n - 87.
Definition read_char (s : string) : option (ascii * string) :=
  match s with
  | EmptyString => None
  | String c r =>
      if Ascii.eqb c "\" then
        match r with
        | EmptyString => None
        | String d r =>
            if Ascii.eqb d "b" then Some (ascii_of_N 8, r)
            else if Ascii.eqb d "t" then Some (ascii_of_N 9, r)
            else if Ascii.eqb d "n" then Some (ascii_of_N 10, r)
            else if Ascii.eqb d "f" then Some (ascii_of_N 12, r)
            else if Ascii.eqb d "r" then Some (ascii_of_N 13, r)
            else if Ascii.eqb d "u" then
              match r with
              | String _ (String _ (String h (String l r))) =>
                  Some (ascii_of_N (16 * hex_value h + hex_value l), r)
              | _ => None
              end
            else Some (d, r)
        end
      else if Ascii.eqb c """" then None else Some (c, r)
  end.

Lemma read_escape c r : read_char (escape_char c ++ r) = Some (c, r).
Proof. destruct c as [[] [] [] [] [] [] [] []]; reflexivity. Qed.

(** An escaped text followed by a quote can be read back. *)
Lemma escape_quote_inj a : forall b r r',
  (escape a ++ String """" r)%string = (escape b ++ String """" r')%string -> a = b /\ r = r'.
Proof.
  assert (X : forall s t, (s ++ EmptyString)%string = t -> s = t).
  { intros s t <-. induction s as [|c s IH]; cbn; [reflexivity|now rewrite <- IH]. }
  assert (AS : forall s t u : string, ((s ++ t) ++ u)%string = (s ++ (t ++ u))%string).
  { induction s as [|c s IH]; cbn; intros; [reflexivity|now rewrite IH]. }
  induction a as [|c a IH]; intros [|d b] r r' E; cbn [escape] in E.
  - cbn in E. injection E as ->. auto.
  - exfalso. rewrite AS in E. apply (f_equal read_char) in E. rewrite read_escape in E. discriminate.
  - exfalso. rewrite AS in E. apply (f_equal read_char) in E. rewrite read_escape in E. discriminate.
  - rewrite !AS in E. apply (f_equal read_char) in E. rewrite !read_escape in E.
    injection E as -> E. apply IH in E. destruct E as [-> ->]. auto.
Qed.
