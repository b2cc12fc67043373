(** C99: every collection of a contract is a map of its own, although all of them share one flat storage. *)
From Coq Require Import NArith List Bool String Ascii Permutation.
From Verif Require Import Prelude StorageModel StorageSpec StorageProofs.
Import ListNotations.
Open Scope string_scope.
Open Scope N_scope.

(** C99. Whatever a contract does with its collections and its record, in any order, no operation panics and every
    answer is that of separate maps, listing order included, provided that the parts of the storage do not overlap. *)
Theorem C99_collections_kept_apart :
  forall l ops, separate l -> N.of_nat (List.length ops) < 2 ^ 64 ->
  raw_ops (fresh l) ops = Ok (shelf_ops l (empty_shelf l) ops).
Proof. exact raw_as_shelf. Qed.
Print Assumptions C99_collections_kept_apart.

(** The collections of every contract of the repository, with the prefixes it chose, satisfy the proviso. *)
Theorem C99_repo_layouts :
  Forall separate [staking_pool_layout; pool_factory_layout; whitelist_layout; multisig_layout; multisig2_layout; w_near_layout] /\
  map (map (fun kp => (fst kp, list_ascii_of_string (snd kp))))
    [staking_pool_layout; pool_factory_layout; whitelist_layout; multisig_layout; multisig2_layout; w_near_layout] =
  [[(UnorderedMap, ["u"])]; [(UnorderedSet, ["s"])]; [(LookupSet, ["w"]); (LookupSet, ["f"])];
   [(UnorderedMap, ["r"]); (UnorderedMap, ["c"]); (UnorderedMap, ["k"])];
   [(UnorderedSet, ["000"]); (UnorderedMap, ["001"]); (LookupMap, ["002"]); (LookupMap, ["003"])]; [(LookupMap, ["a"])]]%char.
Proof. exact repo_layouts. Qed.
Print Assumptions C99_repo_layouts.

(** Maps with typed keys and values behave as their stored forms, for every encoding that tells keys apart. *)
Theorem C99_typed_maps :
  forall (K V : Type) (EK : EqKey K) (ok : K -> Prop) (ek : K -> string) (ev : V -> string),
  one_to_one ok ek -> forall (k : K) (v : V) (m : umap K V), ok k -> Forall ok (mkeys m) ->
  mget (ek k) (stored ek ev m) = option_map ev (mget k m) /\
  minsert (ek k) (ev v) (stored ek ev m) = stored ek ev (minsert k v m) /\
  mremove (ek k) (stored ek ev m) = stored ek ev (mremove k m).
Proof. exact typed_maps. Qed.
Print Assumptions C99_typed_maps.

(** The sets of the models ([Prelude.uset]) are the key lists of these maps: same members, same answers; the order of a
    set after a removal is not modelled. *)
Theorem C99_sets :
  forall (k : string) (m : umap string string), NoDup (mkeys m) ->
  smem k (mkeys m) = mmem k m /\ sinsert k (mkeys m) = mkeys (minsert k "" m) /\
  Permutation (sremove k (mkeys m)) (mkeys (mremove k m)).
Proof. exact sets. Qed.
Print Assumptions C99_sets.

(** The encodings of the keys tell them apart. *)
Theorem C99_encodings :
  one_to_one (fun n => n < 2 ^ 32) borsh_u32 /\ one_to_one (fun _ => True) borsh_bytes /\
  (forall v w a b, v < 256 -> w < 256 -> borsh_variant v a = borsh_variant w b -> v = w /\ a = b).
Proof. exact encodings. Qed.
Print Assumptions C99_encodings.

(** Three requests of the multisig, the first of them taken out: the last takes its place in the listing; the other
    two collections and the record are as they were left. *)
Definition multisig_day : list op :=
  [Save "state"; Put 0 (borsh_u32 0) "r0"; Put 0 (borsh_u32 1) "r1"; Put 1 (borsh_u32 0) "c0"; Put 0 (borsh_u32 2) "r2";
   Put 2 (borsh_bytes "ed25519:key") "1"; Del 0 (borsh_u32 0); Entries 0; Get 0 (borsh_u32 0); Get 0 (borsh_u32 2);
   Get 1 (borsh_u32 0); Count 0; Count 1; Put 0 (borsh_u32 2) "again"; Get 2 (borsh_bytes "ed25519:key"); Load].
Example C99_applies :
  raw_ops (fresh multisig_layout) multisig_day =
  Ok [AUnit; AValue None; AValue None; AValue None; AValue None; AValue None; AValue (Some "r0");
      AEntries [(borsh_u32 2, "r2"); (borsh_u32 1, "r1")]; AValue None; AValue (Some "r2");
      AValue (Some "c0"); ANumber 2; ANumber 1; AValue (Some "r2"); AValue (Some "1"); AValue (Some "state")].
Proof. vm_compute. reflexivity. Qed.

(** The proviso matters: with a second prefix that extends the first, one map answers with the entry of the other; with
    the prefix "S" a map can overwrite the contract's record. *)
Example C99_overlap :
  raw_ops (fresh [(LookupMap, "a"); (LookupMap, "ab")]) [Put 1 "c" "theirs"; Get 0 "bc"] =
    Ok [AValue None; AValue (Some "theirs")] /\
  raw_ops (fresh [(LookupMap, "S")]) [Save "state"; Put 0 "TATE" "lost"; Load] =
    Ok [AUnit; AValue (Some "state"); AValue (Some "lost")].
Proof. vm_compute. split; reflexivity. Qed.

(** Request ids, and the member set of multisig2. *)
Example C99_typed_applies :
  stored borsh_u32 (fun x => x) (mremove 7 [(7, "a"); (300, "b"); (4000000000, "c")]) =
    [(borsh_u32 4000000000, "c"); (borsh_u32 300, "b")] /\
  borsh_u32 300 <> borsh_u32 44 /\ borsh_variant 0 "bob" <> borsh_variant 1 "bob".
Proof. vm_compute. repeat split; discriminate. Qed.
