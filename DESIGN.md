# Formal model of near/core-contracts in Rocq (Coq 8.16.1)

## 1. Shape of the development

All files are in `rocq/theories/`. For each contract `X` there are up to four kinds of file:

* `XModel.v`   definitions only: the Rust code of contract `X`, function by function, each with a
  comment that cites file and lines in `/repo` and states simplifications;
* `XSpec.v`    a small specification vocabulary (histories, ledgers, observable quantities) that
  does not use the helpers of the proofs;
* `XProofs.v`  lemmas and invariants;
* `XProps.v`   the property theorems only. Each is closed by `exact` of a lemma, is followed by
  `Print Assumptions`, and has an `Example` next to it that exhibits a concrete case meeting its
  hypotheses.

Common modelling conventions:

* Unsigned integers (`u128`, `u64`, `u32`, `U256`) are `N`. Every `+`, `-`, `*` of the Rust code is a
  checked operation that panics when the result does not fit (`overflow-checks = true` in every
  `Cargo.toml`). `as_u128()` on a `U256` panics on overflow.
* A panic (`assert!`, `expect`, `env::panic`, arithmetic overflow) is the result `Panic msg`. The
  runtime discards all effects of a panicking call, so a failed call leaves the state unchanged.
* `&mut self` methods take a state and return a new state, a result and the list of promises created.
* The environment (`predecessor_account_id`, `attached_deposit`, `epoch_height`, ...) is an explicit
  context argument. Promise results are part of it.
* `near_sdk` collections: `UnorderedMap`/`UnorderedSet` are association lists in the order of their
  key vector, removal is `swap_remove`; `LookupMap`/`LookupSet`/`HashMap`/`HashSet` are association
  lists whose order is never observed, except where a theorem says so. The order of an `UnorderedSet` after a
  removal is not modelled. C99 justifies all this from the raw storage: `StorageModel` has the collections as
  the library implements them.
* Cross-contract calls are messages. A world of contracts is a state plus the messages in flight; an
  execution is an arbitrary finite list of events, each a new external call or the delivery of one of
  the outstanding messages, so a theorem about all event lists is a theorem about all schedules.

## 2. What is modelled

| contract | source | model | world |
|---|---|---|---|
| staking pool | `staking-pool/src/{lib,internal}.rs` | all methods and views | calls, rewards, epochs; outgoing transfers; the staking callback |
| voting | `voting/src/lib.rs` | all methods and views | stakes given by an arbitrary oracle per epoch |
| whitelist | `whitelist/src/lib.rs` | all methods and views, storage keys | calls |
| multisig | `multisig/src/lib.rs` | all methods and views | calls; log of what was scheduled |
| multisig2 | `multisig2/src/lib.rs` | all methods and views, JSON of members | calls; log of what was scheduled |
| lockup | `lockup/src/*.rs` | all methods, callbacks, views, gas constants | balance, time, messages in flight; abstract pool (`LockupWorld`) or the concrete pool (`LockupPoolSpec`) |
| staking pool factory | `staking-pool-factory/src/{lib,utils}.rs` | all methods | creations, callbacks, whitelist, refunds in flight |
| lockup factory | `lockup-factory/src/{lib,types,utils}.rs` | all methods | creations, callbacks, refunds in flight; the created lockups run the lockup model's `new` |
| multisig factory | `multisig-factory/src/lib.rs` | `create` | creations in flight; the created account runs the multisig2 model's `new` |
| w-near | `w-near/src/{lib,w_near,legacy_storage}.rs` | all methods | transfers, `ft_on_transfer` and resolutions in flight |
| collections | near-sdk; prefixes in each contract's `new` | operations of `UnorderedMap`, `UnorderedSet`, `LookupMap`, `LookupSet` used in the repository | sequences of operations on one storage |
| persistence | `derive(BorshSerialize, BorshDeserialize)` of every stored type | writer and reader per type (`PersistModel`) | single values; for the lockup, its world |
| state manipulation | `state-manipulation/src/lib.rs` | `replace`, `clean`, base64 | storage as a function |
| JSON between the contracts | `#[near_bindgen]`, `#[ext_contract]`, `derive(Serialize, Deserialize)` of arguments and results | reader of each method's arguments, writer of each call made (`JsonModel`, `WireModel`), reader and writer of each view (`ViewModel`) | one message at a time; with both multisigs, the worlds of C91, C93, C100, C107, C108 |

Not modelled: the log lines of near-contract-standards behind w-near (those in the repository: C114-C116), gas metering
except the static gas constants (C61, C101), storage pricing except for w-near and the lockup's reserve (C103), WebAssembly
compilation, the NEAR protocol itself (validator selection, unlocking of stake, slashing: the protocol is
assumed not to slash), `near-sdk` internals but the collections, shell scripts and tests.

Library code that is not in the repository and had to be modelled from its published source:
`near_sdk::collections` (`StorageModel`), `borsh` (`Borsh`), `is_valid_account_id`,
`near-contract-standards` 3.1.0 (`FungibleToken`, `StorageManagement`), `base64` 0.13, `serde_json`
(texts are byte strings, not checked to be UTF-8 outside of escapes; a struct given as an array, which serde takes too,
is unreadable; public keys stand for their texts), sha256 (an uninterpreted function, passed as an argument, nothing assumed of it but where a
theorem says so).

Assumptions about the runtime, built into the worlds:

* An account's access keys (`MultisigAccount`, `Multisig2Account`): a function-call key signs exactly one call, without
  deposit, of one receiver and of the listed methods (all if none is listed); a batch of actions that the
  account sends to itself takes effect entirely or not at all; adding a present key and deleting an absent
  one fail. Allowances, nonces and gas of keys are not modelled; deploying code is outside the model.
* A call that the runtime itself makes fail, because it runs out of gas or makes a receipt that the runtime does not
  admit (an invalid receiver, no gas, more tokens than the account has, too large), changes nothing. Histories of calls
  leave such calls out, so what is proved for all histories covers them; liveness theorems assume that the calls
  they make are not of this kind.
* A receipt is executed at any later time, in any order, at most once; it may fail, except where the
  property is about a call that is told to succeed. A callback gets the outcome of the call it waits for.
* A receipt that fails gives the attached deposit back to the contract that made it. In the factory worlds
  the refund arrives before the callback that reports the failure (the order in which the runtime creates them).
* The contract's own account makes no calls to itself other than through its promises, unless a key was
  added to it (multisigs).
* Token amounts in existence are below 2^128.
* Gas spent by a contract is not taken from its balance; rewards for executed gas only add to the balance and are
  covered by the events that add tokens.

In the composition of all contracts (`EcoSpec.v`, C82-C85): one lockup, one whitelist, one voting contract, one factory.
The whitelist and the voting contract answer views with what their state says at the time of the answer and do
not run out of gas. Each pool and the voting contract count epochs on their own (fewer constraints than in
reality). An account that does not exist answers no request. A pool that is not from the factory is arbitrary, but pays no
rewards by itself; it matters only without the foundation's policy (hypothesis `policy`: it lists no pools and no other factory).
`all_within_limits` bounds each pool's stake and unstake calls by the guarantee fund and its tokens by 2^128, as in C04.
C85 asks (`ready`) for the same room at the end: two more such calls and four more epochs.

## 3. Plan per property

Pool = staking pool. "History" = arbitrary list of events from an initialised contract.

| id | modelled | proof |
|---|---|---|
| C01 | all pool methods, rewards | per-call lemma on floor/ceil division, induction on histories |
| C02 | same | invariant by induction |
| C03 | same, sum over account list | invariant by induction, permutation lemmas for the account map |
| C04 | pool plus the runtime's total balance | invariant with the number of stake/unstake calls as ghost counter |
| C05 | pool plus ledger of deposits/withdrawals read off the history | potential argument: reported balance never drops except by a withdrawal |
| C06, C07, C08 | stake/unstake, views | exact integer division lemmas |
| C09 | all methods | frame lemma per method |
| C10 | pool with epochs | invariant relating unlock epoch to the history of unstakes; converse from the acceptance condition |
| C11, C13, C14, C17, C18 | all methods with emitted promises | case analysis over methods |
| C12 | `internal_ping` | direct |
| C15 | pool, runtime | no-panic lemmas under the solvency invariant, then C09 |
| C16 | account list with `swap_remove` | list lemmas, NoDup invariant |
| C19 | sum of claims | C03 + C02 |
| C20 | views | positivity invariant; refutation for the exact boundary |
| C21-C25 | voting | invariants by induction; arithmetic for 2/3; permutation invariance |
| C26-C28 | whitelist over explicit storage | refinement to two sets by induction on histories |
| C29-C37 | multisig | invariants over histories with an event log; C36, C37 are expected to be false of the code: refuted by a witness history and a weaker positive theorem |
| C38-C44 | multisig2 | as above; C41, C42, C43 expected false of the code: refuted by witnesses, with positive theorems under extra conditions |
| C45, C46 | lockup getters | integer arithmetic |
| C47-C53, C56, C57, C59 | lockup world: lockup + abstract staking pool + messages in flight | inductive invariant over all schedules; C49 composes with the concrete pool model |
| C54, C55, C60 | lockup methods | case analysis |
| C58, C59 | lockup | expected false of the code: refuted by witness; proved under validity / answering pool |
| C61 | gas constants, promise trees | computation over the finite set of methods |
| C47-C49 with the concrete pool | lockup plus the pool of this repository | refinement: the concrete pool keeps the guarantee the lockup theorems ask of a pool |
| C53 with the concrete pool, C80, C81 | lockup plus the pool of this repository | existence of a continuation from every reachable state: flush what is outstanding (a weight on messages falls), call, let four epochs pass, call; potential `phi` for the termination (`LockupPoolLive.v`) |
| C82-C85 | one lockup, whitelist, voting contract, pool factory and all pools it creates (`EcoSpec.v`) | refinement: every history of the composition is one of the lockup's abstract world, of the whitelist's, the voting contract's, the factory's and of each pool's, with the same observations; the assumptions of the lockup theorems are discharged by the theorems about the other contracts |
| C62-C64 | pool factory world | inductive invariant over schedules |
| C65 | account-id validity, hex | induction on strings |
| C66, C67 | lockup factory + lockup `new` | case analysis, world invariant |
| C68 | multisig factory world | expected false: refuted by witness |
| C69-C71, C76-C79 | w-near world: token, transfer calls and their resolutions in flight | per-call effects, invariants by induction |
| C72 | storage map | induction on entry lists |
| C73, C74 | the `new` of each contract | case analysis |
| C87 | `internal_ping` | exact integer division lemmas |
| C88 | the multisig; `executable` says which requests are well-formed | induction over the confirmations of the quorum |
| C89 | the second multisig, its members at execution time | as C88 |
| C90 | the second multisig's account: access keys, transactions, receipts | `Multisig2Account`: induction over all happenings with the invariant that keys stay limited and flight + departures = executions (as multisets) |
| C91 | the same account, its members' keys | construction of the continuation from C89; the batch of keys is applied atomically; a repeated key is refuted for ever |
| C92 | the multisig's account, as C90 | `MultisigAccount`: as C90, with a second invariant: every successful call is signed with a key of the account |
| C93 | the same account | as C91 |
| C94 | the staking pool and the voting contract in one world, the pool's votes as messages (PoolVotingSpec) | counting orders against votes; the last counted vote decides, by induction on the history |
| C95 | the book of a pool in exact arithmetic (StakingPoolBook: no checked arithmetic, functions instead of maps) | refinement: each internal function of the contract matches an operation of the book under the invariant of C04/C12, then each method, then whole histories by induction |
| C96 | the agreement of a lockup (LockupBook: for every method when it is accepted, what it changes, what it asks for; exact arithmetic, no panics) | refinement by cases over the method, using the exactness of the locked and unvested amounts (C46); histories by induction with the invariants of C45 and C51 |
| C97 | a board of requests (MultisigBook: one item per request with its confirmations, no counters, no maps) | refinement: a relation between the three maps of the contract and the list of items, kept by every operation (counts by permutation, the action loop by induction); histories by induction |
| C98 | a board of requests next to a list of members (Multisig2Book: one item per request with its confirmations, no counters, no maps, actions one after the other) | as C97; the texts that stand for members in the maps of the contract are injective |
| C99 | the collections of near-sdk on raw storage (index, key vector, value vector, lengths in the object) and the prefixes of each contract | invariant: index, vectors and lengths describe one list of entries per collection; writes stay within regions of which no name begins with another |
| C100 | the multisig account world (C90, C92) and the lockup world together: what the account sends to the lockup is executed there atomically, when it leaves or (C100_in_flight) whenever it arrives | simulation: the lockup part is a lockup history; its owner calls are a subsequence of the departures; payments in flight counted against owner transfers |
| C101 | the gas constants of the pool and the factories, per kind of promise; the lockup's are in its model | case analysis over all calls, combined across caller and receiver |
| C102 | the Borsh codec of every persisted type, built from a codec per constructor (Borsh.v, PersistModel.v) | each combinator reads back what it wrote; for the lockup, the pool, both multisigs, voting and the wrapped token, an invariant that every reachable state is a value of the Rust types (PersistProofs.v, PoolPersist.v, OthersPersist.v); for the whitelist and the factories, whose state under STATE is fixed apart from names, every value of the types |
| C103 | the size of the encoded lockup state; the protocol's storage prices and the size of the shipped code | induction over the history: names have at most 64 bytes, spending leaves the reserve |
| C104 | the bytes hashed for a schedule with salt, for an arbitrary hash function | the encoding is one to one; induction over the history |
| C105 | the records of the accounts map in storage and the size of the encoded state; a runtime that undoes a call leaving less than the storage costs (PoolStore.v) | refuted by a history of dust deposits; while the accounts are few, or while what is owed covers the cost, by solvency (C04) and an invariant on names |
| C106 | the pairs of C100, without and with messages on their way, with the guarded account as the foundation | an invariant of the lockup alone (who terminated, whom payments in flight are for), combined with the simulation of C100 |
| C107 | a governed contract in general (Governed.v): the multisig account world and any contract world, with what the account sends in flight until delivered in any order; instantiated with the pool | simulation: the contract's part is a history of its own whose accepted owner calls come from a permutation of some departures; then the pool's own invariant that only owner calls change the settings |
| C108 | the governed contract of C107 instantiated with the whitelist | the simulation of C107 and the whitelist's refinement to its authorised history (C26) |
| C109 | JSON values, serde_json's compact writer and a reader of arbitrary texts (JsonModel.v); for each contract the reader of its methods' arguments and the writer of the calls it makes and the answers it gives (WireModel.v) | that the reader inverts the writer, by induction over values; then call by call, with the ranges of what the caller itself read from a text; the reader is proved to accept exactly a grammar of JSON (JsonSpec.v) by induction over its derivations and over the reader's fuel (JsonGrammar.v) |
| C110 | the readers of C109, and writers of requests as the views answer them; the worlds of C91, C93, C100, C107 and C108 with these readers in place of arbitrary ones; the interface of each contract, by method and argument names, in WireApi.v | every method reads every text that gives its arguments (WireApiProofs.v); round trip for requests and actions, inversion of every reader; the conditions of the liveness theorems on texts then hold |
| C111 | what each method and callback gives back (LockupAnswers.v); the lockup world with a memory for whom each message travels (LockupAnswersSpec.v) | an invariant: where each call stands (which request or callback is in flight after which results), preserved by every event; what each callback gives back, case by case |
| C112 | `ViewModel`: the argument reader and the writer of every view, on top of the models of the contracts; `ViewSpec`: the JSON forms, filled from the books of C95 - C98 and the histories of C21, C26, C62, C65, C69 | the views of each model equal its book (earlier theorems); reading any text that gives the arguments (C109) and printing, then parsing back (C110) |
| C113 | `FactoryAnswers`: what the methods of the factories return; `FactoryStories`, `PoolStories`, `LockupStories`, `MultisigStories`: the factories' worlds with every message marked with the call it serves, the whitelist beside the pool factory | one bookkeeping invariant for all three (`FactoryStoriesProofs.books`): messages in flight serve distinct calls, each call's notes are exactly those of its stage; kept by every event |
| C114 | `PoolLogModel`: the pool of `StakingPoolModel` with the lines of `env::log!`; `PoolLogSpec`: the sentences and a bookkeeper who reads them | `exec_same`: erasing the lines gives `exec`; `says_inj`: the formats are uniquely readable (words have no spaces, numerals end at a non-digit); per function and then by induction over histories, the bookkeeper's notes agree with the books |
| C115 | `LockupLogModel`: the lockup of `LockupModel` with the lines of `env::log`; `LockupLogSpec`: the sentences, a bookkeeper who reads them, and which line belongs to which request or result | `exec_same`: erasing the lines gives `exec`; `says_inj`: the formats are uniquely readable; `call_lines` per method; `exec_told`: one call keeps the notes in agreement with the contract, `step_told` with the messages in flight (an announced operation has at most one message, by `LockupInv.inv`), then induction over histories |
| C116 | `OtherLogsModel`: the callbacks of both factories and the wrapped token's own methods with the lines of `env::log`; `OtherLogsSpec`: the sentences, the lines of a history, sums and lists read from them | `same_pools`, `same_lockups`, `same_wrapped`: erasing the lines gives `exec`; `says_inj`: the formats are uniquely readable; `pool_step_told`, `lockup_step_told`: each event keeps the facts in step with the observations and with what is in flight; `wrapped_step_told`: supply and facts change together; histories by induction |
| C117 | `VotingModel` and the poll of `VotingSpec` | `open_step`: an accepted call that leaves the poll open changes only the caller's mind; `yes_stays`, `epoch_reached_by` by induction over the calls of the epoch, then the invariant of C22; `poll_only_yes` and `stake_for_disjoint` for the third |
| C118 | pool model in its world (C01-C20); `StakingPoolGainsSpec.income` is the tokens that arrive outside of calls | a group of accounts is valued as one account; one inequality on shares bounds every part of a call (`group_bound`), summed over the history |
| C119 | the two multisig models and their logs (C29-C44) | invariant: the confirmations of active requests lie in a set smaller than the quorum; by induction over the calls |
| C120 | the deployment of EcoSpec (lockup, whitelist, voting contract, factory, pools), as for C82-C85 | an invariant of all continuations: once there is a result and the owner has asked, transfers are enabled, or the question or a positive answer is in flight; with the results on the vote alone (C117) and that a result is final (C23); for the other direction that transfers are enabled only by a result (C84) |
| C121 | The worlds of C90/C92 (account, keys, batches in flight) and C107 (pool, whitelist governed by the account), C100 (lockup owned by it). | An invariant of the account: nothing is in flight but single calls of the multisig, which are no confirmations or come from the few; C119 then says that no call schedules anything. For the pool, the whitelist and the lockup, what left the account is empty, so the generic lemma about governed contracts leaves no call of the owner. |
| C122 | The getters and the initialisation as for C46. | From the closed form of the locked amount (C46): the fraction that is left grows with each of the moments; cross-multiplied inequalities between rounded quotients. |
| C123 | The staking pool of StakingPoolModel with the histories of StakingPoolSpec; two continuations of the same history are compared. | The ping mints S*fee/(T + reward - fee) shares for the owner, which grows with the fee; the value of a fixed number of shares falls, and that of the owner's rises, with the number minted. |
| C124 | The staking pool of StakingPoolModel with the steps of StakingPoolSpec; the pool after the change of the fee is compared with the pool after a ping. | Within an epoch every call commutes with replacing the fee (exec_fee); simulation along the history, whose worlds differ in the fee only. |
| C125 | The staking pool of StakingPoolModel with the steps of StakingPoolSpec; the step is compared with the same step after a ping. | Every such method distributes first, distributing twice is distributing once (ping_idem) and depends on the total of the tokens only (internal_ping_ext); case analysis over the methods for the promises. |
| C126 | The staking pool of StakingPoolModel with the steps of StakingPoolSpec; two steps are compared with one. | The second call of the two has nothing to distribute; saving an account's record twice is saving the later one, also when that removes it. |
| C86 | callbacks of the factories and of w-near | case analysis over all contexts |
| C75 | multisig2 | the per-call effect lemma of C38-C40 |

## 4. Trusted base

* Coq 8.16.1's kernel (`coqc`, and `coqchk` for the compiled files), no plugins, no `native_compute`.
* Axioms: none. `Print Assumptions` follows every property theorem, and each answer is "Closed under the global
  context". (`coqchk` run on all compiled files also lists the seven parameters of `Coq.ssr.ssrunder.Under_rel`,
  which come with the standard library and no theorem here uses.)
* The faithfulness of the model to the Rust code, and of the conventions of sections 1 and 2 to the NEAR runtime and
  to the libraries named there.

## 5. Findings

Properties that the code violates (each with a `_refuted` theorem and the strongest positive statement found):

* C20: a staking pool created with exactly the guarantee fund (10^12 yoctoNEAR) has no staked balance and every view of an account
  fails for ever.
* C36, C42: confirmations of deleted keys (multisig) and removed members (multisig2) still count.
* C37: lowering `num_confirmations` leaves requests active that already have enough confirmations.
* C41: multisig2 counts duplicate members at initialisation and never checks `SetNumConfirmations`, so it can lock
  itself for ever.
* C43: `MULTISIG_METHOD_NAMES` has `add_and_confirm_request`, the method is `add_request_and_confirm`: members
  with a key cannot call it.
* C58: vesting schedules are never validated: `assert_valid` is not called, neither by the lockup nor by its factory.
* C59: when a view of the staking pool fails, the lockup's callback panics and the lockup stays busy for ever.
* C68: the multisig factory does not refund a failed creation.
* C105: the staking pool charges nobody for the storage of an account's record, so many dust deposits can make the
  runtime refuse a withdrawal that the contract grants.

Smaller observations made explicit in statements:

* A failed transfer out of the staking pool comes back to the pool and is then distributed as a reward.
* With a reward fee, one more yoctoNEAR of reward can leave the delegators with less, up to the price of one share (C123).
* A private vesting schedule that is longer than the lockup does not keep the owner from moving unvested tokens.
* `lockup_timestamp + release_duration` saturates at 2^64-1; with such parameters the release jumps.
* The multisig factory accepts names with dots, for which creation always fails.
* The pool factory's `get_number_of_staking_pools_created` counts creations in flight.
* The pool factory answers `false` both after a refund and when the new pool was on the whitelist already (C113).
* Anybody can create the lockup of any owner first; later creations for that owner then fail (with a refund).
* w-near: `ft_transfer` and unregistration of an unknown account keep the one yoctoNEAR; a refund to a sender that left
  destroys the tokens while their NEAR stays with the contract; a withdrawal whose transfer fails leaves the NEAR with
  the contract.
* State manipulation: base64 padding is optional, so one storage key has several names.

## 6. Tests of the theorems

`seeded/LOG.jsonl` has one line for each wrong program tried (`tools/mutate.py` applies an edit to a copy of the model,
rebuilds as far as possible and lists the lemmas and property theorems that no longer hold). "failed" lists the
theorems that do not prove any more, either directly or because a lemma they rest on fails; "failed_lemmas" the
first lemmas that fail.
