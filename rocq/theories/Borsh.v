(** The Borsh format, in which a contract's state and the entries of its collections are written to storage
    (borsh 0.7-0.9, library code, not in /repo, modelled from its published specification). Definitions only.

    A [codec] is what [derive(BorshSerialize, BorshDeserialize)] generates for a type: the writer, the reader, which
    also returns the bytes it has not used, and which values the Rust type has at all. *)
From Coq Require Import NArith List Bool String Ascii.
From Verif Require Import Prelude StorageModel.
Import ListNotations.
Open Scope string_scope.
Open Scope N_scope.

Record codec (A : Type) := mkCodec {
  enc : A -> string;
  dec : string -> option (A * string);
  typed : A -> Prop
}.
Arguments mkCodec {A} &. Arguments enc {A}. Arguments dec {A}. Arguments typed {A}.

(** The first [n] bytes, and the rest. *)
Fixpoint take (n : nat) (s : string) : option (string * string) :=
  match n, s with
  | O, _ => Some ("", s)
  | S k, String c r => match take k r with Some (a, b) => Some (String c a, b) | None => None end
  | S _, EmptyString => None
  end.

(** Unsigned integers of [n] bytes, little endian. *)
Definition c_uint (n : nat) : codec N :=
  mkCodec (le_bytes n)
    (fun s => match take n s with Some (a, r) => Some (of_le a, r) | None => None end)
    (fun x => x < 256 ^ N.of_nat n).
Definition c_u32 := c_uint 4.
Definition c_u64 := c_uint 8.
Definition c_u128 := c_uint 16.

(** [String], [Vec<u8>], [Base64VecU8], [Base58PublicKey], [AccountId]: the length in 4 bytes, then the bytes. *)
Definition c_bytes : codec string :=
  mkCodec (fun x => enc c_u32 (slen x) ++ x)
    (fun s => match dec c_u32 s with Some (n, r) => take (N.to_nat n) r | None => None end)
    (fun x => slen x < U32_BOUND).

(** A unit variant or an empty struct: no bytes. *)
Definition c_unit : codec unit := mkCodec (fun _ => "") (fun s => Some (tt, s)) (fun _ => True).

(** [bool]: one byte, 0 or 1. *)
Definition c_bool : codec bool :=
  mkCodec (fun b => enc (c_uint 1) (if b then 1 else 0))
    (fun s => match dec (c_uint 1) s with
              | Some (n, r) => if n =? 0 then Some (false, r) else if n =? 1 then Some (true, r) else None
              | None => None end)
    (fun _ => True).

(** Fields one after the other. *)
Definition c_pair {A B} (a : codec A) (b : codec B) : codec (A * B) :=
  mkCodec (fun x => enc a (fst x) ++ enc b (snd x))
    (fun s => match dec a s with
              | Some (x, r) => match dec b r with Some (y, r) => Some ((x, y), r) | None => None end
              | None => None end)
    (fun x => typed a (fst x) /\ typed b (snd x)).

(** A struct, given by the tuple of its fields. *)
Definition c_struct {A B} (fields : B -> A) (build : A -> B) (a : codec A) : codec B :=
  mkCodec (fun x => enc a (fields x))
    (fun s => match dec a s with Some (x, r) => Some (build x, r) | None => None end)
    (fun x => typed a (fields x)).

(** A struct that stands only for some of the values of the model's type. *)
Definition c_only {A} (P : A -> Prop) (c : codec A) : codec A :=
  mkCodec (enc c) (dec c) (fun x => P x /\ typed c x).

(** [Option]: one byte, 0 or 1, then the value. *)
Definition c_option {A} (a : codec A) : codec (option A) :=
  mkCodec (fun o => match o with None => enc (c_uint 1) 0 | Some x => enc (c_uint 1) 1 ++ enc a x end)
    (fun s => match dec (c_uint 1) s with
              | Some (n, r) => if n =? 0 then Some (None, r)
                               else if n =? 1 then match dec a r with Some (x, r) => Some (Some x, r) | None => None end
                               else None
              | None => None end)
    (fun o => match o with None => True | Some x => typed a x end).

(** [Vec], [HashSet], [HashMap]: the number of elements in 4 bytes, then the elements. (The elements of a hash set or map
    are written in the order of their keys; here, in the order of the list that stands for it.) *)
Fixpoint dec_n {A} (a : codec A) (n : nat) (s : string) : option (list A * string) :=
  match n with
  | O => Some ([], s)
  | S k => match dec a s with
           | Some (x, r) => match dec_n a k r with Some (l, r) => Some (x :: l, r) | None => None end
           | None => None end
  end.
Definition c_list {A} (a : codec A) : codec (list A) :=
  mkCodec (fun l => enc c_u32 (N.of_nat (List.length l)) ++ String.concat "" (map (enc a) l))
    (fun s => match dec c_u32 s with Some (n, r) => dec_n a (N.to_nat n) r | None => None end)
    (fun l => N.of_nat (List.length l) < U32_BOUND /\ Forall (typed a) l).

(** An enum: the number of the variant in one byte, then its fields. The variants are the summands of a sum type. *)
Record variants (A : Type) := mkVariants {
  v_number : A -> N;
  v_enc : A -> string;
  v_dec : N -> string -> option (A * string);
  v_typed : A -> Prop
}.
Arguments mkVariants {A} &. Arguments v_number {A}. Arguments v_enc {A}. Arguments v_dec {A}. Arguments v_typed {A}.
Definition v_last {A} (a : codec A) : variants A :=
  mkVariants (fun _ => 0) (enc a) (fun n s => if n =? 0 then dec a s else None) (typed a).
Definition v_or {A B} (a : codec A) (b : variants B) : variants (A + B) :=
  mkVariants (fun x => match x with inl _ => 0 | inr y => 1 + v_number b y end)
    (fun x => match x with inl x => enc a x | inr y => v_enc b y end)
    (fun n s => if n =? 0 then match dec a s with Some (x, r) => Some (inl x, r) | None => None end
                else match v_dec b (n - 1) s with Some (y, r) => Some (inr y, r) | None => None end)
    (fun x => match x with inl x => typed a x | inr y => v_typed b y end).
Definition c_enum {A} (v : variants A) : codec A :=
  mkCodec (fun x => enc (c_uint 1) (v_number v x) ++ v_enc v x)
    (fun s => match dec (c_uint 1) s with Some (n, r) => v_dec v n r | None => None end)
    (fun x => v_typed v x /\ v_number v x < 256).

(** [try_to_vec] and [try_from_slice]: everything must have been read. *)
Definition to_bytes {A} (c : codec A) (x : A) : string := enc c x.
Definition from_bytes {A} (c : codec A) (s : string) : option A :=
  match dec c s with Some (x, EmptyString) => Some x | _ => None end.
