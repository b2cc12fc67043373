(** What a staking pool keeps in storage, and the pool in a runtime that charges for storage (C105). Specification: the
    records are those of the collections (StorageModel.v) with the encodings of PersistModel.v. *)
From Coq Require Import NArith List Bool String.
From Verif Require Import Prelude StorageModel Borsh PersistModel StakingPoolModel StakingPoolSpec.
Import ListNotations.
Open Scope string_scope.
Open Scope N_scope.

(** The size of staking-pool/res/staking_pool.wasm. *)
Definition POOL_CODE_BYTES : N := 255556.
(** The map of the accounts: staking-pool/src/lib.rs:110 and 200 (prefix "u"). *)
Definition accounts_handle (p : pool) : handle :=
  let n := N.of_nat (List.length (accounts p)) in mkHandle UnorderedMap "u" n n.
(** The records of the [i]-th entry: its index, its key and its value. *)
Definition entry_records (h : handle) (i : N) (e : account_id * account) : list (string * string) :=
  let k := to_bytes c_bytes (fst e) in
  [(index_key h k, u64_le i); (v_key (keys_prefix h) i, k); (v_key (values_prefix h) i, to_bytes c_account (snd e))].
Fixpoint map_records (h : handle) (i : N) (l : list (account_id * account)) : list (string * string) :=
  match l with [] => [] | e :: r => (entry_records h i e ++ map_records h (i + 1) r)%list end.
(** What the collection does when the entries are put into it one by one. *)
Fixpoint put_all (h : handle) (st : storage) (l : list (account_id * account)) : res (storage * handle) :=
  match l with
  | [] => Ok (st, h)
  | e :: r => let! '(st, h, _) := um_insert h st (to_bytes c_bytes (fst e)) (to_bytes c_account (snd e)) in put_all h st r
  end.
(** The whole storage of a pool: the accounts, and the state with the object of the collection under its key. *)
Definition saved_pool (p : pool) : res storage :=
  let! '(st, h) := put_all (mkHandle UnorderedMap "u" 0 0) (fun _ => None) (accounts p) in
  Ok (write STATE_KEY (to_bytes c_pool_fields (pool_fields p h)) st).
(** Reading it back: the state, then every entry of the collection it names. *)
Fixpoint read_entries (l : list (string * string)) : option (list (account_id * account)) :=
  match l with
  | [] => Some []
  | e :: r =>
      match from_bytes c_bytes (fst e), from_bytes c_account (snd e), read_entries r with
      | Some a, Some x, Some r => Some ((a, x) :: r)
      | _, _, _ => None
      end
  end.
Definition loaded_pool (st : storage) : option pool :=
  match st STATE_KEY with
  | None => None
  | Some b =>
      match from_bytes c_pool_fields b with
      | None => None
      | Some f =>
          match um_entries (snd (pool_of_fields [] f)) st with
          | Panic _ => None
          | Ok l => option_map (fun m => fst (pool_of_fields m f)) (read_entries l)
          end
      end
  end.
Definition record_bytes (r : string * string) : N := RECORD_BYTES + slen (fst r) + slen (snd r).
(** All the bytes the account of a pool takes: the account, the code, the state and the records. The account of a pool
    has no access keys (staking-pool-factory/src/lib.rs:172-186). *)
Definition pool_bytes (p : pool) : N :=
  account_bytes POOL_CODE_BYTES (to_bytes c_pool_fields (pool_fields p (accounts_handle p))) 0
  + sumN record_bytes (map_records (accounts_handle p) 0 (accounts p)).
Definition pool_storage_cost (p : pool) : N := pool_bytes p * BYTE_COST.

(** The runtime also undoes a call that leaves the account with fewer tokens, locked and unlocked, than its storage
    costs. *)
Definition pays_storage (w : world) : bool := pool_storage_cost (w_pool w) <=? w_total w.
Definition charged_step (self : account_id) (w : world) (e : event) : world * option (list promise) :=
  let '(w', o) := step self w e in
  match o with
  | Some _ => if pays_storage w' then (w', o) else (w, None)
  | None => (w', None)
  end.
Fixpoint charged_history (self : account_id) (w : world) (evs : list event) : list entry :=
  match evs with
  | [] => []
  | e :: r => let '(w', o) := charged_step self w e in mkEntry w e o w' :: charged_history self w' r
  end.
Fixpoint charged_final (self : account_id) (w : world) (evs : list event) : world :=
  match evs with
  | [] => w
  | e :: r => charged_final self (fst (charged_step self w e)) r
  end.

(** Account names have at most 64 bytes; a staking key has at most 65 (secp256k1). *)
Definition short_names (w : world) : Prop :=
  slen (owner_id (w_pool w)) <= 64 /\ slen (stake_public_key (w_pool w)) <= 65.
Definition short_event (e : event) : Prop :=
  match e with
  | EvCall who _ _ _ m =>
      slen who <= 64 /\ match m with UpdateStakingKey k => slen k <= 65 | _ => True end
  | _ => True
  end.
Definition delegators (w : world) : N := N.of_nat (List.length (accounts (w_pool w))).
(** The bytes of a pool with [n] accounts and names and key of full length. *)
Definition most_bytes (n : N) : N := 255937 + n * 326.
Definition accepted (en : entry) : bool := match en_promises en with Some _ => true | None => false end.
