(** What a contract expects of its collections: each of them is a map (or set) of its own, and so is its own record. *)
From Coq Require Import NArith List Bool String.
From Verif Require Import Prelude StorageModel.
Import ListNotations.
Open Scope string_scope.
Open Scope N_scope.

(** A contract's data as its code sees it: the record, and one list of entries per collection, in the order in which
    they are listed. *)
Record shelf := mkShelf { sf_state : option string; sf_maps : list (umap string string) }.

Definition entries_of (f : shelf) (c : nat) : umap string string := nth c (sf_maps f) [].
Definition update (f : shelf) (c : nat) (m : umap string string) : shelf := mkShelf (sf_state f) (set_nth c m (sf_maps f)).

(** Finding, adding, replacing and taking out one entry of one collection; nothing else changes. An entry that is taken
    out leaves its place in the listing to the last one ([Prelude.mremove]); a set is a map to empty values. *)
Definition shelf_op (l : layout) (f : shelf) (o : op) : shelf * answer :=
  match o with
  | Load => (f, AValue (sf_state f))
  | Save s => (mkShelf (Some s) (sf_maps f), AUnit)
  | Get c k =>
      match nth_error l c with
      | None => (f, AUnit)
      | Some ((UnorderedMap | LookupMap), _) => (f, AValue (mget k (entries_of f c)))
      | Some ((UnorderedSet | LookupSet), _) => (f, AFlag (mmem k (entries_of f c)))
      end
  | Put c k v =>
      match nth_error l c with
      | None => (f, AUnit)
      | Some ((UnorderedMap | LookupMap), _) =>
          (update f c (minsert k v (entries_of f c)), AValue (mget k (entries_of f c)))
      | Some ((UnorderedSet | LookupSet), _) =>
          (update f c (minsert k "" (entries_of f c)), AFlag (negb (mmem k (entries_of f c))))
      end
  | Del c k =>
      match nth_error l c with
      | None => (f, AUnit)
      | Some ((UnorderedMap | LookupMap), _) =>
          (update f c (mremove k (entries_of f c)), AValue (mget k (entries_of f c)))
      | Some ((UnorderedSet | LookupSet), _) =>
          (update f c (mremove k (entries_of f c)), AFlag (mmem k (entries_of f c)))
      end
  | Count c =>
      match nth_error l c with
      | Some ((UnorderedMap | UnorderedSet), _) => (f, ANumber (mlen (entries_of f c)))
      | _ => (f, AUnit)
      end
  | Entries c =>
      match nth_error l c with
      | Some ((UnorderedMap | UnorderedSet), _) => (f, AEntries (entries_of f c))
      | _ => (f, AUnit)
      end
  end.
Fixpoint shelf_ops (l : layout) (f : shelf) (ops : list op) : list answer :=
  match ops with
  | [] => []
  | o :: r => snd (shelf_op l f o) :: shelf_ops l (fst (shelf_op l f o)) r
  end.
Definition empty_shelf (l : layout) : shelf := mkShelf None (map (fun _ => []) l).

(** The parts of the storage that a collection writes to, each given by what its keys begin with. *)
Definition regions (kp : kind * string) : list string :=
  match kp with
  | (UnorderedMap, p) => [p ++ "i"; p ++ "k"; p ++ "v"]
  | (UnorderedSet, p) => [p ++ "i"; p ++ "e"]
  | (_, p) => [p]
  end.
Definition apart (a b : string) : Prop := prefix a b = false /\ prefix b a = false.
Definition separate (l : layout) : Prop := ForallOrdPairs apart (STATE_KEY :: flat_map regions l).

(** A map with typed keys and values, stored through encodings. *)
Definition stored {K V} (ek : K -> string) (ev : V -> string) (m : umap K V) : umap string string :=
  map (fun kv => (ek (fst kv), ev (snd kv))) m.
Definition one_to_one {K} (ok : K -> Prop) (ek : K -> string) : Prop :=
  forall a b, ok a -> ok b -> ek a = ek b -> a = b.

(** Borsh encodings of the key types of /repo: [u32] (request ids), [String] and [Vec<u8>] (account ids, public keys:
    length in 4 bytes, then the bytes), and the two variants of a member (multisig2/src/lib.rs:97-100). *)
Definition borsh_u32 (n : N) : string := le_bytes 4 n.
Definition borsh_bytes (s : string) : string := borsh_u32 (slen s) ++ s.
Definition borsh_variant (v : N) (s : string) : string := String (byte v) (borsh_bytes s).
