(** The properties of the state manipulation contract (C72). *)
From Coq Require Import NArith List Bool String Ascii.
From Verif Require Import Prelude StateManipulationModel StateManipulationProofs.
Import ListNotations.
Open Scope string_scope.
Open Scope N_scope.

Definition st0 : storage := fun k => if String.eqb k "STATE" then Some "old" else if String.eqb k "other" then Some "1" else None.
Example demo :
  encode "STATE" = "U1RBVEU=" /\ encode "ab" = "YWI=" /\ encode "" = "" /\ decode "YQ" = Some "a" /\ decode "YR==" = None /\
  final st0 [(Replace (Some [("U1RBVEU=", "YQ=="); ("U1RBVEU=", "YWI=")]), true)] "STATE" = Some "ab" /\
  final st0 [(Replace (Some [("U1RBVEU=", "YQ=="); ("U1RBVEU=", "Y")]), true)] "STATE" = Some "old" /\
  final st0 [(Clean (Some ["U1RBVEU="]), true)] "STATE" = None /\
  final st0 [(Clean (Some ["U1RBVEU="]), true)] "other" = Some "1".
Proof. vm_compute. repeat split. Qed.

(** Every byte string can be named. *)
Theorem C72_every_key_can_be_named : forall s, decode (encode s) = Some s.
Proof. exact decode_encode. Qed.
Print Assumptions C72_every_key_can_be_named.
(** Only the base64 of a byte string names it; padding may be left out. So a key is named in at most three ways. *)
Theorem C72_names :
  forall s b, decode s = Some b <-> encode b = s \/ encode b = s ++ "=" \/ encode b = s ++ "==".
Proof. exact decode_iff. Qed.
Print Assumptions C72_names.

(** After [replace] every key listed has the last value listed for it, and every other key its old value. *)
Theorem C72_replace :
  forall st es st', exec st (Replace (Some es)) true = (st', true) ->
  exists ds, Forall2 (fun e d => decode (fst e) = Some (fst d) /\ decode (snd e) = Some (snd d)) es ds /\
    forall k, st' k = match option_map snd (find (fun d => String.eqb k (fst d)) (rev ds)) with
                      | Some v => Some v
                      | None => st k
                      end.
Proof. exact replace_effect. Qed.
Print Assumptions C72_replace.

(** The same for entries encoded by the caller; it never fails. *)
Theorem C72_replace_encoded :
  forall st es, exists st', exec st (Replace (Some (map (fun e => (encode (fst e), encode (snd e))) es))) true = (st', true) /\
    forall k, st' k = match option_map snd (find (fun d => String.eqb k (fst d)) (rev es)) with
                      | Some v => Some v
                      | None => st k
                      end.
Proof. exact replace_encoded. Qed.
Print Assumptions C72_replace_encoded.

(** After [clean] every key listed is absent, and every other key has its old value. *)
Theorem C72_clean :
  forall st ks st', exec st (Clean (Some ks)) true = (st', true) ->
  exists ds, Forall2 (fun key k => decode key = Some k) ks ds /\
    forall k, st' k = if existsb (String.eqb k) ds then None else st k.
Proof. exact clean_effect. Qed.
Print Assumptions C72_clean.
Theorem C72_clean_encoded :
  forall st ks, exists st', exec st (Clean (Some (map encode ks))) true = (st', true) /\
    forall k, st' k = if existsb (String.eqb k) ks then None else st k.
Proof. exact clean_encoded. Qed.
Print Assumptions C72_clean_encoded.

(** One entry that does not decode refuses the whole call, and nothing else does. *)
Theorem C72_replace_accepted_iff :
  forall st es, snd (exec st (Replace (Some es)) true) = true <->
    forall key value, In (key, value) es -> decode key <> None /\ decode value <> None.
Proof. exact replace_accepted_iff. Qed.
Print Assumptions C72_replace_accepted_iff.
Theorem C72_clean_accepted_iff :
  forall st ks, snd (exec st (Clean (Some ks)) true) = true <-> forall key, In key ks -> decode key <> None.
Proof. exact clean_accepted_iff. Qed.
Print Assumptions C72_clean_accepted_iff.
Theorem C72_failed_call_changes_nothing :
  forall st cl ok st', exec st cl ok = (st', false) -> forall k, st' k = st k.
Proof. exact failed_call_changes_nothing. Qed.
Print Assumptions C72_failed_call_changes_nothing.

(** Replacing and then cleaning the same keys leaves exactly the keys that were not listed. *)
Theorem C72_replace_then_clean :
  forall st es k,
  final st [(Replace (Some (map (fun e => (encode (fst e), encode (snd e))) es)), true);
            (Clean (Some (map encode (map fst es))), true)] k =
  if existsb (String.eqb k) (map fst es) then None else st k.
Proof. exact replace_then_clean. Qed.
Print Assumptions C72_replace_then_clean.

(** A key no call mentions keeps its value, whatever the history. *)
Theorem C72_unmentioned_keys_are_kept :
  forall st cls k, (forall cl ok, In (cl, ok) cls -> ~ mentions k cl) -> final st cls k = st k.
Proof. exact history_unmentioned. Qed.
Print Assumptions C72_unmentioned_keys_are_kept.

Example C72_applies :
  (exists st', exec st0 (Replace (Some [("U1RBVEU=", "YQ=="); ("YWI", "YWI=")])) true = (st', true)) /\
  snd (exec st0 (Replace (Some [("U1RBVEU=", "YQ=="); ("YWI", "!")])) true) = false /\
  ~ mentions "other" (Clean (Some ["U1RBVEU="])).
Proof.
  split; [eexists; reflexivity|split; [reflexivity|]].
  cbn [mentions]. intros (key & [<-|[]] & D). discriminate.
Qed.
